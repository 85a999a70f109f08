(** The order in which blocks arrive does not matter. *)
From Verif Require Import Base FeeModel InvModel InvSpec OrderSpec.
Open Scope N_scope.

Lemma outcome_cons o os s : outcome (inv_run (o :: os) s) =
  ('(s1, x) <-- inv_step o s ;; '(s2, y) <-- outcome (inv_run os s1) ;; Val (s2, x ++ y)).
Proof.
  unfold outcome. cbn [inv_run]. destruct (inv_step o s) as [[s1 x]|]; [|done]. cbn [mbind_M]. by destruct (inv_run os s1) as [[s2 xs]|].
Qed.
Lemma confirm_txs_remaining hash h ts : forall s, iv_remaining (confirm_txs hash h ts s).1 = iv_remaining s.
Proof.
  induction ts as [|t ts IH]; intros s; cbn [confirm_txs]; [done|]. unfold confirm_tx. destruct (iv_mempool s !! t_wid t); cbn.
  - match goal with |- context[confirm_txs hash h ts ?z] => specialize (IH z); destruct (confirm_txs hash h ts z) as [a b] end. cbn in *. exact IH.
  - specialize (IH s). destruct (confirm_txs hash h ts s) as [a b]. exact IH.
Qed.
Lemma process_block_remaining h b s s' x : process_block h b s = Val (s', x) -> iv_remaining s' = iv_remaining s.
Proof.
  unfold process_block. pose proof (confirm_txs_remaining (b_hash b) h (b_txs b) s) as R. destruct (confirm_txs _ _ _ _) as [s1 o]. cbn [fst] in R.
  destruct (fee_process _ _ _) as [[e fees]|]; [|done]. cbn [mbind_M]. intros [= <- <-]. exact R.
Qed.
Lemma process_queue_remaining hs : forall s s' x, process_queue hs s = Val (s', x) -> iv_remaining s' = iv_remaining s.
Proof.
  induction hs as [|h hs IH]; intros s s' x; cbn [process_queue]; [by intros [= <- <-]|]. destruct (iv_received s !! h) as [b|]; [|apply IH].
  destruct (process_block _ _ _) as [[s1 o]|] eqn:E; [|done]. cbn [mbind_M]. destruct (process_queue hs s1) as [[s2 o']|] eqn:E2; [|done]. cbn [mbind_M].
  intros [= <- <-]. apply IH in E2. apply process_block_remaining in E. cbn in E. congruence.
Qed.
Lemma block_remaining b ho s s' x h : received_block b ho s = Val (s', x) -> iv_remaining s !! h = None -> iv_remaining s' !! h = None.
Proof.
  unfold received_block. destruct (iv_remaining s !! b_hash b); [|by intros [= <- <-]]. intros E N.
  assert (D : delete (b_hash b) (iv_remaining s) !! h = None) by (apply lookup_delete_None; by right).
  destruct (ho (b_hash b)); [|injection E as <- <-; exact D].
  destruct (bool_decide _); [|injection E as <- <-; exact D]. apply process_queue_remaining in E. rewrite E. exact D.
Qed.

Lemma swap_blocks ho a b os s : on_chain ho [a; b] ->
  outcome (inv_run (IBlock a ho :: IBlock b ho :: os) s) = outcome (inv_run (IBlock b ho :: IBlock a ho :: os) s).
Proof.
  intros (K & Inj & Same). rewrite !outcome_cons. cbn [inv_step].
  assert (Skip : forall c z, iv_remaining z !! b_hash c = None -> received_block c ho z = Val (z, [])) by (intros c z E; unfold received_block; by rewrite E).
  destruct (iv_remaining s !! b_hash a) as [va|] eqn:Ea.
  2: { rewrite (Skip a s Ea). cbn [mbind_M]. rewrite !outcome_cons. cbn [inv_step]. destruct (received_block b ho s) as [[s1 x]|] eqn:Eb; [|done]. cbn [mbind_M].
       rewrite outcome_cons. cbn [inv_step]. rewrite (Skip a s1); [|by eapply block_remaining]. cbn [mbind_M].
       destruct (outcome _) as [[s2 y]|]; done. }
  destruct (iv_remaining s !! b_hash b) as [vb|] eqn:Eb.
  2: { rewrite (Skip b s Eb). cbn [mbind_M]. rewrite !outcome_cons. cbn [inv_step]. destruct (received_block a ho s) as [[s1 x]|] eqn:Ea1; [|done]. cbn [mbind_M].
       rewrite outcome_cons. cbn [inv_step]. rewrite (Skip b s1); [|by eapply block_remaining]. cbn [mbind_M].
       destruct (outcome _) as [[s2 y]|]; done. }
  destruct (decide (b_hash a = b_hash b)) as [E|Ne]; [by rewrite (Same a b ltac:(set_solver) ltac:(set_solver) E)|].
  destruct (K a ltac:(set_solver)) as [ha Ha]. destruct (K b ltac:(set_solver)) as [hb Hb].
  assert (ha <> hb) by (intros ->; apply Ne; by eapply Inj).
  assert (First : forall c d hc vd, b_hash c <> b_hash d -> is_Some (iv_remaining s !! b_hash c) -> iv_remaining s !! b_hash d = Some vd -> ho (b_hash c) = Some hc ->
    received_block c ho s = Val (set_received (<[hc := c]> (iv_received s)) (set_remaining (delete (b_hash c) (iv_remaining s)) s), [])).
  { intros c d hc vd Nc [vc Ec] Ed Hc. unfold received_block. rewrite Ec, Hc. cbn. rewrite bool_decide_false; [done|].
    intros X. assert (Y : delete (b_hash c) (iv_remaining s) !! b_hash d = Some vd) by (by rewrite lookup_delete_ne). by rewrite X, lookup_empty in Y. }
  rewrite (First a b ha vb Ne ltac:(by eexists) Eb Ha), (First b a hb va (not_eq_sym Ne) ltac:(by eexists) Ea Hb). cbn [mbind_M].
  rewrite !outcome_cons. cbn [inv_step]. unfold received_block. cbn [iv_remaining set_received set_remaining].
  rewrite !lookup_delete_ne by done. rewrite Ea, Eb, Ha, Hb. cbn [iv_remaining iv_received set_received set_remaining iv_peers iv_confirmed iv_est iv_mempool iv_tick].
  rewrite (insert_commute (iv_received s) ha hb) by done. rewrite (delete_commute (iv_remaining s) (b_hash a) (b_hash b)). done.
Qed.

Lemma blocks_order ho bs bs' : bs ≡ₚ bs' -> on_chain ho bs -> forall s, outcome (inv_run (arrivals ho bs) s) = outcome (inv_run (arrivals ho bs') s).
Proof.
  induction 1 as [|a l l' Pm IH|a b l|l l1 l2 P1 IH1 P2 IH2]; intros C s.
  - done.
  - cbn [arrivals fmap list_fmap]. rewrite !outcome_cons. destruct (inv_step _ s) as [[s1 x]|]; [|done]. cbn [mbind_M].
    change (list_fmap _ _ _ ?q) with (arrivals ho q). rewrite IH; [done|]. destruct C as (C1 & C2 & C3). split; [|split; [done|]].
    + intros b Hb. apply C1. by right.
    + intros b b' Hb Hb'. apply C3; by right.
  - apply swap_blocks. destruct C as (C1 & C2 & C3). split; [|split; [done|]].
    + intros c Hc. apply C1. set_solver.
    + intros c d Hc Hd. apply C3; set_solver.
  - rewrite IH1 by done. apply IH2. destruct C as (C1 & C2 & C3). split; [|split; [done|]].
    + intros c Hc. apply C1. by rewrite P1.
    + intros c d Hc Hd. rewrite <- P1 in Hc, Hd. by apply C3.
Qed.
