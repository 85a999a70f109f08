(** When the wallet's loop ends. *)
From Verif Require Import Base WalletModel ScreenModel ScreenSpec ScreenProofs.
Open Scope N_scope.

Section Proofs.
Context (addr_of : N -> option N) (script_of : N -> N) (balance_len : N -> N) (status_len : status -> N).
Context (watch : list N) (off : bool) (db0 : table) (addrs0 : list addr_row).
Notation refresh := (refresh addr_of script_of balance_len status_len).
Notation redraw := (redraw addr_of script_of balance_len status_len).
Notation wstep := (wstep addr_of script_of balance_len status_len watch off).
Notation wsteps := (wsteps addr_of script_of balance_len status_len watch off).
Notation wrun := (wrun addr_of script_of balance_len status_len watch db0 addrs0 off).
Notation inv := (inv addr_of script_of watch off db0 addrs0).
Notation ends := (ends addr_of script_of watch off db0).
Notation over_refresh := (over_refresh addr_of script_of balance_len status_len).

Lemma step_ends l w t w' : inv l w -> w_over w = false -> wstep w t = Val w' -> w_over w' = true <-> ends l t.
Proof.
  intros (I1 & I2 & I3 & I4 & I5 & I6 & I7 & I8 & I9) O E. unfold ScreenModel.wstep in E. rewrite O in E. unfold ScreenSpec.ends. rewrite <- I2.
  assert (G : forall w1, (if w_over w1 then Val w1 else refresh (tn_size t) (tn_now t) w1) = Val w' -> w_over w' = w_over w1).
  { intros w1 X. destruct (w_over w1) eqn:O1; [injection X as <-; exact O1|]. rewrite (over_refresh _ _ _ _ X). exact O1. }
  destruct (tn_pick t) as [k|s|ld|e] eqn:P.
  - destruct k as [| | |[]|]; try (rewrite (G _ E); cbn [set_ui w_over]; rewrite O; done).
    destruct (w_running w); [injection E as <-; done|]. rewrite (over_refresh _ _ _ _ E), O. done.
  - destruct s; cbn [on_sign] in E.
    + destruct (redraw (tn_size t) (tn_now t) w) as [w1|] eqn:R; cbn [mbind_M] in E; [|done]. rewrite (G _ E).
      unfold ScreenModel.redraw in R. rewrite (over_refresh _ _ _ _ R). cbn [set_screen set_ui w_over]. rewrite O. done.
    + cbn in E. injection E as <-. done.
  - destruct (w_running w); [injection E as <-; rewrite O; done|].
    destruct ld; try (rewrite (G _ E); cbn [set_ui w_over]; rewrite O; done). injection E as <-. cbn. rewrite O. done.
  - destruct (w_running w) eqn:RW.
    2: { injection E as <-. rewrite O. destruct e; split; try done. by intros (? & _). }
    destruct (on_event _ _ _ _ watch off e (tn_size t) (tn_now t) w) as [w1|] eqn:V; cbn [mbind_M] in E; [|done]. rewrite (G _ E).
    destruct e as [h|h|h|h|txs|h|]; cbn [on_event] in V; try (injection V as <-; cbn; rewrite O; done).
    destruct (apply_all _ _ _ _ _) as [db|] eqn:A; cbn [mbind_M] in V; [|done].
    assert (HB : handle_events addr_of script_of watch db0 (blocks (heard off l ++ [EMatched txs])) = Val db).
    { unfold blocks. rewrite map_app. cbn [map block_of]. unfold blocks in I8. rewrite (handle_events_snoc addr_of script_of watch), I8. exact A. }
    destruct (balance db) as [b|[]] eqn:B.
    + unfold ScreenModel.redraw in V. rewrite (over_refresh _ _ _ _ V). cbn [set_screen set_ui set_db w_over]. rewrite O. split; [done|].
      intros (_ & db' & X & Y). rewrite HB in X. injection X as <-. congruence.
    + injection V as <-. cbn. split; [|done]. intros _. split; [done|]. exists db. done.
Qed.
Lemma steps_ends l0 l w w' : inv l0 w -> w_over w = false -> wsteps w l = Val w' ->
  w_over w' = true <-> exists l1 t l2, l = l1 ++ t :: l2 /\ ends (l0 ++ l1) t.
Proof.
  revert l0 w. induction l as [|t l IH]; intros l0 w I O E; cbn [ScreenModel.wsteps] in E.
  - injection E as <-. rewrite O. split; [done|]. intros ([] & ? & ? & ? & _); done.
  - destruct (wstep w t) as [w1|] eqn:S; cbn [mbind_M] in E; [|done].
    pose proof (step_ends l0 w t w1 I O S) as X. destruct (w_over w1) eqn:O1.
    + rewrite (over_steps addr_of script_of balance_len status_len watch off w1 l O1) in E. injection E as <-. rewrite O1. split; [|done]. intros _.
      exists [], t, l. split; [done|]. rewrite app_nil_r. by apply X.
    + pose proof (proj1 (inv_step addr_of script_of balance_len status_len watch off db0 addrs0 l0 w t w1 I O S O1)) as I1.
      rewrite (IH _ _ I1 O1 E). split.
      * intros (l1 & u & l2 & -> & Y). exists (t :: l1), u, l2. split; [done|]. by rewrite <- app_assoc in Y.
      * intros ([|v l1] & u & l2 & Q & Y); cbn [app] in Q; injection Q as -> ->.
        { rewrite app_nil_r in Y. apply X in Y. done. }
        exists l1, u, l2. split; [done|]. by rewrite <- app_assoc.
Qed.
Lemma run_ends size now l w : wrun size now l = Val w ->
  w_over w = true <-> balance db0 = Err tt \/ exists l1 t l2, l = l1 ++ t :: l2 /\ ends l1 t /\ exists b, balance db0 = Ok b.
Proof.
  unfold ScreenModel.wrun. destruct (wstart _ _ _ _ db0 addrs0 off size now) as [w0|] eqn:S; cbn [mbind_M]; [|done]. intros E.
  destruct (balance db0) as [b|[]] eqn:B.
  - assert (O0 : w_over w0 = false).
    { unfold ScreenModel.wstart in S. rewrite B in S. destruct off; [by rewrite (over_refresh _ _ _ _ S)|by injection S as <-]. }
    rewrite (steps_ends [] l w0 w (proj1 (inv_start addr_of script_of balance_len status_len watch off db0 addrs0 size now w0 S O0)) O0 E).
    cbn [app]. split.
    + intros (l1 & t & l2 & Q & Y). right. exists l1, t, l2. split; [exact Q|]. split; [exact Y|by exists b].
    + intros [?|(l1 & t & l2 & Q & Y & _)]; [done|]. by exists l1, t, l2.
  - unfold ScreenModel.wstart in S. rewrite B in S. injection S as <-. rewrite over_steps in E by done. injection E as <-. split; [by left|done].
Qed.
End Proofs.
