(** Property theorems about the wallet (C58), each followed by a concrete
    case. *)
From Verif Require Import Base RunEx WalletModel WalletSpec WalletProofs.
Open Scope N_scope.

(** After any events whose matched blocks are in chain order, the coins are
    exactly the outputs paying watched scripts that were created and not spent,
    each once, and nothing panics. *)
Theorem C58_coins addr_of script_of watch es : watch_ok addr_of script_of watch ->
  Forall tx_fits (matched es) -> chain_ordered (matched es) ->
  exists t, handle_events addr_of script_of watch [] es = Val t /\
    NoDup (map fst (utxos script_of t)) /\
    forall op out, (op, out) ∈ utxos script_of t <->
      created watch (matched es) op out /\ ~ spent (matched es) op.
Proof.
  intros W F C. destruct (history_coins addr_of script_of watch W (matched es) F C) as (t & R & ND & _ & H).
  exists t. rewrite events_matched. split; [exact R|]. split; [|exact H].
  unfold utxos. rewrite map_map. exact ND.
Qed.
Print Assumptions C58_coins.

(** The balance is the sum of the coins, if it is below [2^63]. *)
Theorem C58_balance addr_of script_of watch es t : watch_ok addr_of script_of watch ->
  Forall tx_fits (matched es) -> chain_ordered (matched es) ->
  handle_events addr_of script_of watch [] es = Val t -> total (utxos script_of t) < 2 ^ 63 ->
  balance t = Ok (total (utxos script_of t)).
Proof.
  intros W F C R T. destruct (history_coins addr_of script_of watch W (matched es) F C) as (t' & R' & _ & Snd & _).
  rewrite events_matched in R. assert (t' = t) as -> by congruence.
  exact (balance_total addr_of script_of watch t (matched es) Snd F T).
Qed.
Print Assumptions C58_balance.

(** Applying the last blocks of the history again, as a new scan does, leaves
    the same coins. *)
Theorem C58_again addr_of script_of watch p s : watch_ok addr_of script_of watch ->
  Forall tx_fits (matched (p ++ s)) -> chain_ordered (matched (p ++ s)) ->
  exists t t', handle_events addr_of script_of watch [] (p ++ s) = Val t /\
    handle_events addr_of script_of watch t s = Val t' /\
    NoDup (map fst (utxos script_of t')) /\
    forall c, c ∈ utxos script_of t' <-> c ∈ utxos script_of t.
Proof.
  intros W. assert (matched (p ++ s) = matched p ++ matched s) as ->.
  { induction p as [|[txs| |] p IH]; cbn [matched app]; try done. by rewrite IH, app_assoc. }
  intros F C. destruct (again_coins addr_of script_of watch W _ _ F C) as (t & t' & R & R' & ND & H).
  exists t, t'. rewrite !events_matched. split; [|split; [exact R'|split; [|exact H]]].
  - replace (matched (p ++ s)) with (matched p ++ matched s); [exact R|].
    clear. induction p as [|[txs| |] p IH]; cbn [matched app]; try done. by rewrite <- IH, app_assoc.
  - unfold utxos. rewrite map_map. exact ND.
Qed.
Print Assumptions C58_again.

(** Witnesses: scripts below 100 are those of addresses. *)
Definition wt_addr (s : N) : option N := if s <? 100 then Some (s + 1000) else None.
Definition wt_script (a : N) : N := a - 1000.
(** A payment to scripts 7 and 8, its spending with change to 7, and another
    payment. *)
Definition wt_1 : tx := {| tx_id := 1; tx_in := [(90, 0)]; tx_out := [(7, 50); (200, 3); (8, 20)] |}.
Definition wt_2 : tx := {| tx_id := 2; tx_in := [(1, 0); (91, 5)]; tx_out := [(200, 30); (7, 19)] |}.
Definition wt_3 : tx := {| tx_id := 3; tx_in := [(2, 0)]; tx_out := [(8, 4)] |}.

Lemma wt_ok : watch_ok wt_addr wt_script [7; 8].
Proof.
  intros s [->|[->|[]%elem_of_nil]%elem_of_cons]%elem_of_cons; [exists 1007|exists 1008]; by split.
Qed.
Lemma fits_by (x : tx) : (lenN (tx_out x) <=? 2 ^ 32) && forallb (fun o => o.2 <? 2 ^ 64) (tx_out x) = true -> tx_fits x.
Proof.
  intros [H1%N.leb_le H2]%andb_true_iff. split; [exact H1|].
  apply Forall_forall. intros o Ho. apply N.ltb_lt. rewrite forallb_forall in H2. by apply H2, elem_of_list_In.
Qed.
Lemma wt_fits : Forall tx_fits [wt_1; wt_2; wt_3].
Proof. repeat apply Forall_cons_2; [..|apply Forall_nil_2]; apply fits_by; vm_compute; reflexivity. Qed.
Lemma wt_chain : chain_ordered [wt_1; wt_2; wt_3].
Proof.
  cbn [chain_ordered map tx_id tx_in wt_1 wt_2 wt_3].
  repeat match goal with |- _ /\ _ => split end;
    try (intros op Hop; repeat (apply elem_of_cons in Hop as [->|Hop]; [cbn [fst]|]); [..|by apply elem_of_nil in Hop]);
    try done; set_solver by lia.
Qed.

Example C58_case : exists t,
  handle_events wt_addr wt_script [7; 8] [] [BlockMatched [wt_1; wt_2]; OtherEvent; BlockMatched [wt_3]] = Val t /\
  (utxos wt_script t = [((1, 2), (8, 20)); ((2, 1), (7, 19)); ((3, 0), (8, 4))] /\ balance t = Ok 43 /\
   utxo wt_script t (1, 0) = None /\ utxo wt_script t (3, 0) = Some (8, 4)).
Proof. apply val_ex. vm_compute. by repeat split. Qed.

(** The events meet the hypotheses of all three theorems. *)
Example C58_hypotheses : let es := [BlockMatched [wt_1; wt_2]; OtherEvent; BlockMatched [wt_3]] in
  watch_ok wt_addr wt_script [7; 8] /\ Forall tx_fits (matched es) /\ chain_ordered (matched es).
Proof. exact (conj wt_ok (conj wt_fits wt_chain)). Qed.

(** Scanning again from the first block up to a height below the tip brings
    spent coins back. *)
Theorem C58_resurrect_refuted : exists es b t t',
  watch_ok wt_addr wt_script [7; 8] /\ Forall tx_fits (matched es) /\ chain_ordered (matched es) /\
  b ∈ es /\ handle_events wt_addr wt_script [7; 8] [] es = Val t /\
  handle_event wt_addr wt_script [7; 8] t b = Val t' /\
  ((1, 0), (7, 50)) ∈ utxos wt_script t' /\ spent (matched es) (1, 0) /\
  balance t = Ok 43 /\ balance t' = Ok 93.
Proof.
  exists [BlockMatched [wt_1]; BlockMatched [wt_2; wt_3]], (BlockMatched [wt_1]).
  assert (exists t, handle_events wt_addr wt_script [7; 8] [] [BlockMatched [wt_1]; BlockMatched [wt_2; wt_3]] = Val t /\
    exists t', handle_event wt_addr wt_script [7; 8] t (BlockMatched [wt_1]) = Val t' /\
    (In ((1, 0), (7, 50)) (utxos wt_script t') /\ balance t = Ok 43 /\ balance t' = Ok 93)) as (t & R & t' & R' & H1 & H2 & H3).
  { assert (match handle_events wt_addr wt_script [7; 8] [] [BlockMatched [wt_1]; BlockMatched [wt_2; wt_3]] with
      | Val t => match handle_event wt_addr wt_script [7; 8] t (BlockMatched [wt_1]) with
                 | Val t' => In ((1, 0), (7, 50)) (utxos wt_script t') /\ balance t = Ok 43 /\ balance t' = Ok 93
                 | Panic _ => False end
      | Panic _ => False end) as H by (vm_compute; split; [tauto|by split]).
    destruct (handle_events _ _ _ _ _) as [t|]; [|done]. exists t. split; [done|].
    destruct (handle_event _ _ _ _ _) as [t'|]; [|done]. by exists t'. }
  exists t, t'. split; [exact wt_ok|]. split; [exact wt_fits|]. split; [exact wt_chain|].
  split; [by left|]. split; [exact R|]. split; [exact R'|]. split; [by apply elem_of_list_In|].
  split; [|by split]. exists wt_2. split; [right; by left|by left].
Qed.
Print Assumptions C58_resurrect_refuted.

(** After a re-organization the wallet keeps the coins of the blocks that were
    disconnected, and keeps coins spent only there as spent. *)
Theorem C58_reorg_refuted : exists stale fresh t,
  handle_events wt_addr wt_script [7; 8] [] [BlockMatched stale; BlockDisconnected; BlockMatched fresh] = Val t /\
  chain_ordered fresh /\ Forall tx_fits fresh /\
  exists op out, (op, out) ∈ utxos wt_script t /\ ~ created [7; 8] fresh op out.
Proof.
  exists [wt_1], [wt_3].
  assert (exists t, handle_events wt_addr wt_script [7; 8] [] [BlockMatched [wt_1]; BlockDisconnected; BlockMatched [wt_3]] = Val t /\
    In ((1, 0), (7, 50)) (utxos wt_script t)) as (t & R & H).
  { apply val_ex. vm_compute. tauto. }
  exists t. split; [exact R|]. split; [exact (proj2 (proj2 (proj2 (proj2 wt_chain))))|].
  split; [by pose proof wt_fits as [_ [_ ?]%Forall_cons]%Forall_cons|]. exists (1, 0), (7, 50). split; [by apply elem_of_list_In|].
  intros (x & [->|[]%elem_of_nil]%elem_of_cons & E & _). discriminate E.
Qed.
Print Assumptions C58_reorg_refuted.

(** A watched script that is not that of an address stops the wallet. *)
Example C58_not_an_address :
  handle_events wt_addr wt_script [200] [] [BlockMatched [wt_1]] = Panic (PAssert 75).
Proof. reflexivity. Qed.
