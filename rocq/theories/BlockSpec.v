(** Vocabulary for the statements about the block header cache. *)
From Coq Require Import Sorted.
From Verif Require Import Base PowModel BlockModel.
Open Scope N_scope.

Section Spec.
Context (H : header -> N).

(** [hs] is a chain of headers on top of the block with hash [base]: each
    header names its predecessor as its parent. *)
Fixpoint linked_from (base : N) (hs : list header) : Prop :=
  match hs with
  | [] => True
  | h :: t => h_prev h = base /\ linked_from (H h) t
  end.

(** Hash of the last block of the chain [hs] on top of [base]. *)
Definition last_hash (base : N) (hs : list header) : N := foldl (fun _ h => H h) base hs.

(** Parent links of the headers [hs] contain no cycle: hashes can be ranked so
    that every header ranks above its parent. *)
Definition acyclic (hs : list header) : Prop :=
  exists rank : N -> nat, Forall (fun h => (rank (h_prev h) < rank (H h))%nat) hs.

(** Headers and environment choices presented by a history of operations. *)
Definition op_inputs (o : op) : list (header * choice) :=
  match o with OImport l _ => l | OExtend hd _ ch => [(hd, ch)] end.
Definition inputs (os : list op) : list (header * choice) := concat (map op_inputs os).
Definition presented (os : list op) : list header := map fst (inputs os).

(** HashMap iteration visits every key exactly once, in some order. *)
Definition fair_choice (ch : choice) : Prop := forall l, ch_perm ch l ≡ₚ l.
Definition fair (os : list op) : Prop := Forall (fun x => fair_choice x.2) (inputs os).

(** No store call fails. *)
Definition io_ok_choice (ch : choice) : Prop := ch_rollback_ok ch = true /\ ch_put ch = None.
Definition io_ok (os : list op) : Prop := Forall (fun x => io_ok_choice x.2) (inputs os).

(** Sensible consensus parameters: a positive adjustment interval. *)
Definition params_ok (ps : params) : Prop := 0 < p_spacing ps /\ p_spacing ps <= p_timespan ps.

(** Total work of a list of headers. *)
Fixpoint sum_work (hs : list header) : N :=
  match hs with [] => 0 | h :: t => h_work h + sum_work t end.

(** The active chain as a user sees it, genesis first. *)
Definition active (c : cache) : list header := map snd (c_iter c).

(** A header is known but not active. *)
Definition stale (c : cache) (hd : header) : Prop := c_orphans c !! H hd = Some hd.

(** Times of the (at most eleven) blocks below [height]; a height that the
    chain [hs] does not have counts as time zero. *)
Definition past_times (hs : list header) (height : N) : list N :=
  (fun i => default 0 (h_time <$> hs !! (N.to_nat height - i)%nat)) <$> seq 1 (Nat.min 11 (N.to_nat height)).

(** A time is later than the median of [ts]. *)
Definition after_median (ts : list N) (t : N) : Prop :=
  (length ts / 2 < length (List.filter (fun x => (x <? t)%N) ts))%nat.

(** Compact form of the easiest target of each network. *)
Definition easiest (n : network) : N :=
  match n with
  | Bitcoin | Testnet => 0x1d00ffff
  | Regtest => 0x207fffff
  | Signet => 0x1e0377ae
  end.

(** The compact target required of [hd] after the block [parent] at height
    [height], where [hs] is the active chain.  Networks that allow easy blocks,
    between adjustments: the easiest one if [hd] is more than two spacings
    later than its parent, else that of the last active block that is not easy
    or starts a period.  Otherwise the adjustment rule (see C25). *)
Definition rule_bits (ps : params) (hs : list header) (g : header) (height : N) (parent hd : header)
    (bits : N) : Prop :=
  let n := p_timespan ps / p_spacing ps in
  let easy := easiest (p_network ps) in
  (p_allow_min ps = true -> (height + 1) mod n <> 0 ->
     ((h_time parent + 2 * p_spacing ps) mod 2 ^ 32 < h_time hd -> bits = easy) /\
     (h_time hd <= (h_time parent + 2 * p_spacing ps) mod 2 ^ 32 ->
        exists i x, hs !! i = Some x /\ bits = h_bits x /\ (bits <> easy \/ N.of_nat i mod n = 0) /\
          forall j y, (i < j)%nat -> hs !! j = Some y -> h_bits y = easy /\ N.of_nat j mod n <> 0)) /\
  (p_allow_min ps = false \/ (height + 1) mod n = 0 ->
     next_difficulty_target ps (fun h => hs !! N.to_nat h) g height (h_time parent) (h_target parent) = Val bits).

(** [hd] may follow the block [parent] at height [height]: it names it as its
    parent, claims the required target, meets it, agrees with a checkpoint at
    the next height, is later than the median time past and at most two hours
    ahead of the clock [now].  Required target and median are read off the
    active chain of [c]. *)
Definition valid_at (c : cache) (now height : N) (parent hd : header) : Prop :=
  h_prev hd = H parent /\
  (exists bits, rule_bits (c_params c) (active c) (c_genesis c) height parent hd bits /\
     h_target hd = target_of_bits bits) /\
  pow_value (H hd) <= h_target hd /\
  (forall k, c_checkpoints c !! (height + 1) = Some k -> H hd = k) /\
  after_median (past_times (active c) (height + 1)) (h_time hd) /\
  h_time hd <= (now + 7200) mod 2 ^ 32.

(** Every header of [path] may follow its predecessor, starting from [parent]. *)
Fixpoint valid_path (c : cache) (now height : N) (parent : header) (path : list header) : Prop :=
  match path with
  | [] => True
  | hd :: path' => valid_at c now height parent hd /\ valid_path c now (height + 1) hd path'
  end.

End Spec.

(** A state reached from loading a linked header store [s], by a history [os]
    of operations with outputs [outs], in which parent links are acyclic. *)
Record reachable (H : header -> N) (ng : network -> N) (s : store) (ps : params)
    (cps : list (N * N)) (os : list op) (c : cache)
    (outs : list (result import_result err)) : Prop := {
  r_linked : linked_from H (H (s_genesis s)) (s_tail s);
  r_acyclic : acyclic H (s_tail s ++ presented os);
  r_fair : fair os;
  r_run : exists c0, from_store H ng s ps cps = Val (Ok c0) /\ run H c0 os = Val (c, outs);
}.

(** One more operation [o] after such a history, taking [c] to [c'] with result [r]. *)
Record transition (H : header -> N) (ng : network -> N) (s : store) (ps : params)
    (cps : list (N * N)) (os : list op) (c : cache) (o : op) (c' : cache)
    (r : result import_result err) : Prop := {
  t_before : exists outs, reachable H ng s ps cps os c outs;
  t_acyclic : acyclic H (s_tail s ++ presented (os ++ [o]));
  t_fair : fair [o];
  t_step : step H c o = Val (c', r);
}.

(** [path] branches off the active chain of [c] at the block [f] of height [h]
    and consists of stale headers and possibly [hd]. *)
Definition branch_off (H : header -> N) (c : cache) (hd : header) (h : N) (f : header)
    (path : list header) : Prop :=
  active c !! N.to_nat h = Some f /\ path <> [] /\ linked_from H (H f) path /\
  Forall (fun x => stale H c x \/ x = hd) path.

(** The history as single-header operations. *)
Definition single (o : op) : list op :=
  match o with
  | OImport l now => map (fun x => OImport [x] now) l
  | OExtend hd now ch => [OExtend hd now ch]
  end.
Definition singles (os : list op) : list op := concat (map single os).
Definition clock_of (o : op) : N := match o with OImport _ now => now | OExtend _ now _ => now end.

(** A tip-change report says exactly which blocks left ([rv], by descending
    height) and joined ([cn], by ascending height) the active chain. *)
Definition report_exact (before after : list header) (rv cn : list (N * header)) : Prop :=
  StronglySorted (fun p q => q.1 < p.1) rv /\
  StronglySorted (fun p q => p.1 < q.1) cn /\
  (forall h x, (h, x) ∈ rv <-> before !! N.to_nat h = Some x /\ x ∉ after) /\
  (forall h x, (h, x) ∈ cn <-> after !! N.to_nat h = Some x /\ x ∉ before).
