(** What a re-organisation does to the fee estimator. *)
From Verif Require Import Base FeeModel FeeSpec FeeProofs InvModel InvSpec.
Open Scope N_scope.

Lemma sched_est s : iv_est (schedule_tick s).1 = iv_est s.
Proof. unfold schedule_tick. by destruct (iv_tick s). Qed.
Lemma announce_est t s : iv_est (announce t s).1 = iv_est s.
Proof. unfold announce. by rewrite sched_est. Qed.
Lemma revert_txs_est ts : forall s, iv_est (revert_txs ts s).1 = iv_est s.
Proof.
  induction ts as [|t ts IH]; intros s; cbn [revert_txs]; [done|]. pose proof (announce_est t s) as A. destruct (announce t s) as [s1 o1]. cbn [fst] in A.
  specialize (IH s1). destruct (revert_txs ts s1). cbn [fst] in *. congruence.
Qed.
Lemma reverted_est hs : forall s s' x, Forall (fun h => 0 < h) hs -> blocks_reverted hs s = Val (s', x) -> rollbacks ((fun h => h - 1) <$> hs) (iv_est s) = Val (iv_est s').
Proof.
  induction hs as [|h hs IH]; intros s s' x F; cbn [blocks_reverted fmap list_fmap rollbacks]; [by intros [= <- _]|]. apply Forall_cons in F as [F Fs].
  unfold block_reverted. destruct (N.eqb_spec h 0); [lia|]. destruct (fee_rollback (h - 1) (iv_est s)) as [e|] eqn:R; [cbn [mbind_M]|done].
  assert (G : forall s1 o1, match iv_confirmed (set_est e s) !! h with
      | Some ts => Val (revert_txs ts (set_confirmed (delete h (iv_confirmed (set_est e s))) (set_est e s))) | None => Val (set_est e s, []) end = Val (s1, o1) -> iv_est s1 = e).
  { intros s1 o1. destruct (_ !! h) as [ts|]; [|by intros [= <- _]]. intros [= E].
    exact (eq_trans (eq_sym (f_equal (fun q => iv_est q.1) E)) (revert_txs_est ts _)). }
  destruct (match iv_confirmed (set_est e s) !! h with Some _ => _ | None => _ end) as [[s1 o1]|]; [|done]. cbn [mbind_M]. specialize (G s1 o1 eq_refl).
  destruct (blocks_reverted hs s1) as [[s2 o2]|] eqn:B; [cbn [mbind_M]|done]. intros [= <- _]. apply IH in B; [|exact Fs]. by rewrite G in B.
Qed.
Lemma reverts_undo os e rs bs e' rs' s s' x hs : fee_run os est0 = Val (e, rs) -> above (e_height e) bs -> (length bs <= 12)%nat ->
  fee_run (processing bs) e = Val (e', rs') -> iv_est s = e' -> Forall (fun h => e_height e' < h) hs -> length hs = length bs ->
  inv_step (IReverted hs) s = Val (s', x) -> e_utxos (iv_est s') = e_utxos e /\ e_height (iv_est s') = e_height e.
Proof.
  intros R A L R' Es F Lh St. cbn [inv_step] in St. apply reverted_est in St; [|eapply Forall_impl; [exact F|]; cbn; intros; lia].
  destruct (rollbacks_undo os e rs bs e' rs' ((fun h => h - 1) <$> hs) R A L R') as (e1 & E1 & E2 & E3).
  - apply Forall_fmap. eapply Forall_impl; [exact F|]. cbn. intros; lia.
  - by rewrite fmap_length.
  - rewrite Es in St. rewrite E1 in St. injection St as ->. done.
Qed.
