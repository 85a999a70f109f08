(** Vocabulary for the theorems about the node. *)
From Verif Require Import Base PowModel BlockModel BlockSpec DispModel LoadModel NodeModel.
From Verif Require SyncModel SyncSpec CbfModel CbfSpec.
Open Scope N_scope.

Notation state := (fsm node nmsg nev).

(** Headers that peers or the user presented. *)
Definition headers_of (o : nop) : list header :=
  match o with NMessage _ (MHeaders hds) | NImport hds => hds | _ => [] end.
(** The inputs that present headers. *)
Definition presents (o : nop) : bool :=
  match o with NMessage _ (MHeaders _) | NImport _ => true | _ => false end.
Definition node_headers (os : list nop) : list header := concat (map headers_of os).

(** Hash maps are traversed in some order, and each element once. *)
Definition fair_node (env : nat -> nenv) : Prop :=
  forall n, SyncSpec.fair_env (ne_sync (env n)) /\ forall i, fair_choice (ne_import (env n) i).
(** The filter header store works. *)
Definition filter_io (env : nat -> nenv) : Prop :=
  forall n, CbfModel.k_put (ne_cbf (env n)) = None /\ CbfModel.k_rollback_ok (ne_cbf (env n)) = true.

(** The header store works, and headers come one at a time. *)
Definition block_io (env : nat -> nenv) : Prop := forall n i, io_ok_choice (ne_import (env n) i).
Definition one_by_one (os : list nop) : Prop := Forall (fun o => lenN (headers_of o) <= 1) os.

Definition height_of (s : state) : N := c_height (n_cache (f_state s)).
Definition filter_height_of (s : state) : N := CbfModel.f_height (n_cbf (f_state s)).
(** All outputs have been taken. *)
Definition drained (s : state) : Prop := forall c, f_box s c = [].

Section Runs.
Context (step : nop -> state -> M (state * list (fitem nmsg nev))).

(** The height of the active chain never goes down in a run. *)
Fixpoint never_drops (os : list nop) (s : state) : Prop :=
  match os with
  | [] => True
  | o :: os' =>
      match step o s with
      | Val (s', _) => height_of s <= height_of s' /\ never_drops os' s'
      | Panic _ => True
      end
  end.

(** The outputs are taken before the next input is handled. *)
Fixpoint settled (os : list nop) (s : state) : Prop :=
  match os with
  | [] => True
  | o :: os' =>
      (o = NNext \/ drained s) /\
      match step o s with Val (s', _) => settled os' s' | Panic _ => True end
  end.

(** Changes of the active chain are reported, and exactly: the outbox of the
    sync manager gets the event that carries the reverted blocks. *)
Definition reported (H : header -> N) (s s' : state) (t : list (fitem nmsg nev)) : Prop :=
  let old := tree_of H (n_cache (f_state s)) in
  let new := tree_of H (n_cache (f_state s')) in
  (forall b k h rv cn, FQueued CSync (IoEvent (EvSync (SyncModel.SoImported b k h rv cn))) ∈ t ->
     CbfSpec.reorganises old new rv.*1) /\
  ((forall b k h rv cn, FQueued CSync (IoEvent (EvSync (SyncModel.SoImported b k h rv cn))) ∉ t) -> new = old).
Fixpoint all_reported (H : header -> N) (os : list nop) (s : state) : Prop :=
  match os with
  | [] => True
  | o :: os' =>
      match step o s with
      | Val (s', t) => (presents o = true -> reported H s s' t) /\ all_reported H os' s'
      | Panic _ => True
      end
  end.
End Runs.

(** The panics that any run of the node may end in: the user asks for filters
    beyond the filter headers; filter headers arrive while a rescan is active
    and no peer with filters is connected; the body of a block spends more
    than it has. *)
Definition known_panic (s : state) (o : nop) (p : panic) : Prop :=
  (p = PAssert 449 /\ exists a b, o = NRequestFilters a b /\ filter_height_of s < b) \/
  (p = PAssert 707 /\ exists from stop prev hs, o = NMessage from (MCFHeaders 0 stop prev hs) /\
     CbfModel.r_active (CbfModel.c_rescan (n_cbf (f_state s))) = true /\ CbfModel.c_peers (n_cbf (f_state s)) = ∅) \/
  (p = PAssert 169 /\ exists from b, o = NMessage from (MBlock b)).

(** A node over loaded stores: the headers [hs] that it will be presented link
    to no cycle, hash maps behave, the filter header store works and does not
    reach beyond the header store. *)
Record setup (H : header -> N) (ng : network -> N) (P : CbfModel.params) (env : nat -> nenv)
    (st : store) (ps : params) (cps : list (N * N)) (fst0 : list (N * N)) (c0 : cache) (hs : list header) : Prop := {
  su_params : params_ok ps;
  su_load : from_store H ng st ps cps = Val (Ok c0);
  su_linked : linked_from H (H (s_genesis st)) (s_tail st);
  su_acyclic : acyclic H (s_tail st ++ hs);
  su_length : lenN (s_tail st) + lenN hs < 2 ^ 64;
  su_fair : fair_node env;
  su_io : filter_io env;
  su_chained : CbfSpec.chained P ((CbfModel.p_genesis P, CbfModel.p_header P (CbfModel.p_genesis P) 0) :: fst0);
  su_below : lenN fst0 <= c_height c0;
}.
