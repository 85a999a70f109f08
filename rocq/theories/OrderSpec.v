(** What the authors want of the client as a whole (client/src/event.rs:47-85,
    the comment of the test module): the outcome depends neither on the order
    in which filters and blocks arrive nor on how filter headers are divided
    into messages, repeated commands change nothing, and a rescan of the
    future is no rescan. *)
From Verif Require Import Base CbfModel CbfSpec.
From Verif Require InvModel DispModel NodeModel.
Open Scope N_scope.

(** ** Filters *)

Definition filter_message (i : input) : Prop := match i_op i with CCFilter _ _ _ _ => True | _ => False end.
(** What is reported as scanned, and the blocks that are fetched for it. *)
Definition scanned (x : list cout) : list cout :=
  List.filter (fun o => match o with CoFilterProcessed _ _ _ _ _ => true | _ => false end) x.
Definition fetched (x : list cout) : list cout :=
  List.filter (fun o => match o with CoGetBlock _ => true | _ => false end) x.
Definition stops (x : list cout) : Prop := exists h, CoRescanStopped h ∈ x.
(** No block has two different filters among the messages that fit the
    filter headers (filter hashes do not collide). *)
Definition one_filter (P : params) (s : cbf) (ms : list input) : Prop :=
  forall i j from from' ft ft' hash h f g, i ∈ ms -> j ∈ ms ->
    i_op i = CCFilter from ft hash f -> i_op j = CCFilter from' ft' hash g ->
    tr_get (i_tree i) hash = Some h -> authentic P s h f -> authentic P s h g -> f = g.
(** The outcome of the scan, without the cache of filters. *)
Record same_scan (s1 s2 : cbf) : Prop := {
  ss_next : r_current (c_rescan s1) = r_current (c_rescan s2);
  ss_asked : r_requested (c_rescan s1) = r_requested (c_rescan s2);
  ss_waiting : r_received (c_rescan s1) = r_received (c_rescan s2);
  ss_watched : r_watch (c_rescan s1) = r_watch (c_rescan s2) /\ r_txs (c_rescan s1) = r_txs (c_rescan s2);
  ss_blocks : c_pending s1 = c_pending s2;
  ss_headers : c_filters s1 = c_filters s2
}.

(** ** Filter headers *)

(** Messages that each make the chain of filter headers longer, and the
    filter hashes they carry. *)
Fixpoint all_accepted (P : params) (ms : list input) (s : cbf) : Prop :=
  match ms with
  | [] => True
  | i :: ms' => (exists from ft stop prev hs, i_op i = CCFHeaders from ft stop prev hs) /\
      forall s' x, step_on P i s = Val (s', x) -> f_height s < f_height s' /\ all_accepted P ms' s'
  end.
Definition carried (i : input) : list N := match i_op i with CCFHeaders _ _ _ _ hs => hs | _ => [] end.

(** Where a rescan starts. *)
Definition starts_at (t : tree) (from : bound) : N := match from with Unbounded => tr_height t + 1 | Included h => h | Excluded h => h + 1 end.
(** No rescan is asked for and no block is reverted. *)
Definition keeps_begin (i : input) : Prop :=
  match i_op i with CRescan _ _ _ => False | CImported reverted => reverted = [] | _ => True end.

(** ** Blocks *)

(** The blocks are all on the chain, at different heights, and blocks with
    the same hash are the same. *)
Definition on_chain (height_of : N -> option N) (bs : list InvModel.block) : Prop :=
  (forall b, b ∈ bs -> is_Some (height_of (InvModel.b_hash b))) /\
  (forall a b h, height_of a = Some h -> height_of b = Some h -> a = b) /\
  (forall b b', b ∈ bs -> b' ∈ bs -> InvModel.b_hash b = InvModel.b_hash b' -> b = b').
Definition arrivals (height_of : N -> option N) (bs : list InvModel.block) : list InvModel.inv_op :=
  (fun b => InvModel.IBlock b height_of) <$> bs.

(** The state and everything that was put out, or where it panics. *)
Definition outcome (m : M (InvModel.inv * list (list InvModel.iout))) : M (InvModel.inv * list InvModel.iout) :=
  '(s, xs) <-- m ;; Val (s, concat xs).

(** ** Commands *)

(** Commands that only name things. *)
Definition names_only (o : NodeModel.nop) : Prop :=
  match o with NodeModel.NWatch _ | NodeModel.NSubmit _ | NodeModel.NRequestBlock _ => True | _ => False end.
(** The managers of two nodes are in the same state. *)
Definition same_managers (n n' : NodeModel.node) : Prop :=
  NodeModel.n_cache n' = NodeModel.n_cache n /\ NodeModel.n_sync n' = NodeModel.n_sync n /\
  NodeModel.n_cbf n' = NodeModel.n_cbf n /\ NodeModel.n_inv n' = NodeModel.n_inv n.
(** Nothing but a request to be woken up. *)
Definition wakes_up (x : DispModel.fitem NodeModel.nmsg NodeModel.nev) : Prop :=
  exists c d, x = DispModel.FQueued c (DispModel.IoTimer d).
