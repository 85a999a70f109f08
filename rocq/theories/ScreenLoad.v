(** The wallet's screen while the client loads. *)
From Verif Require Import Base WalletModel ScreenModel ScreenSpec ScreenProofs.
Open Scope N_scope.

Section Proofs.
Context (addr_of : N -> option N) (script_of : N -> N) (balance_len : N -> N) (status_len : status -> N).
Notation refresh := (refresh addr_of script_of balance_len status_len).
Notation redraw := (redraw addr_of script_of balance_len status_len).
Notation wstep := (wstep addr_of script_of balance_len status_len).
Notation wsteps := (wsteps addr_of script_of balance_len status_len).
Notation wstart := (wstart addr_of script_of balance_len status_len).
Notation wrun := (wrun addr_of script_of balance_len status_len).
Notation on_event := (on_event addr_of script_of balance_len status_len).

(** The last redraw was at one of these times. *)
Definition drawn_at (ts : list N) (w : wallet) : Prop := match ui_last (w_ui w) with None => True | Some u => u ∈ ts end.
Lemma refresh_at ts size now w w' : drawn_at ts w -> refresh size now w = Val w' -> drawn_at (now :: ts) w'.
Proof.
  intros D. unfold ScreenModel.refresh. intros E.
  repeat match type of E with context [mbind_M ?m _] => destruct m; cbn [mbind_M] in E; [|discriminate E] end.
  destruct (_ || _ || _); injection E as <-; unfold drawn_at; cbn; [by left|].
  unfold drawn_at in D. destruct (ui_last (w_ui w)); [by right|done].
Qed.
Lemma at_more now ts w : drawn_at ts w -> drawn_at (now :: ts) w.
Proof. unfold drawn_at. destruct (ui_last (w_ui w)); [by right|done]. Qed.
Lemma at_dup now ts w : drawn_at (now :: now :: ts) w -> drawn_at (now :: ts) w.
Proof. unfold drawn_at. destruct (ui_last (w_ui w)) as [u|]; [|done]. intros I. apply elem_of_cons in I as [->|I]; [by left|exact I]. Qed.
Lemma step_at watch off ts w t w' : drawn_at ts w -> wstep watch off w t = Val w' -> drawn_at (tn_now t :: ts) w'.
Proof.
  intros D E. unfold ScreenModel.wstep in E. destruct (w_over w) eqn:O; [injection E as <-; by apply at_more|].
  assert (G : forall w1, drawn_at (tn_now t :: ts) w1 -> (if w_over w1 then Val w1 else refresh (tn_size t) (tn_now t) w1) = Val w' -> drawn_at (tn_now t :: ts) w').
  { intros w1 D1 X. destruct (w_over w1); [by injection X as <-|]. apply at_dup. exact (refresh_at _ _ _ _ _ D1 X). }
  apply (at_more (tn_now t)) in D as D'.
  destruct (tn_pick t) as [k|s|ld|e].
  - assert (K : drawn_at (tn_now t :: ts) (set_ui (ui_key k (w_ui w)) w)) by (destruct k; exact D').
    destruct k as [| | |[]|]; try exact (G _ K E). destruct (w_running w); [by injection E as <-|]. refine (G w D' _). rewrite O. exact E.
  - destruct s; cbn [on_sign] in E.
    + destruct (redraw (tn_size t) (tn_now t) w) as [w1|] eqn:R; cbn [mbind_M] in E; [|done]. refine (G w1 _ E).
      exact (refresh_at _ _ _ (set_screen blank (set_ui (ui_all (w_ui w)) w)) _ D R).
    + cbn in E. by injection E as <-.
  - destruct (w_running w); [by injection E as <-|]. destruct ld; try (refine (G (set_ui (ui_load _ _ _) _) _ E); exact D'). by injection E as <-.
  - destruct (w_running w); [|by injection E as <-].
    destruct (on_event watch off e (tn_size t) (tn_now t) w) as [w1|] eqn:V; cbn [mbind_M] in E; [|done]. refine (G w1 _ E).
    unfold ScreenModel.on_event in V. destruct e as [h|h|h|h|txs|h|]; try (injection V as <-; exact D').
    destruct (apply_all _ _ _ _ _) as [db|]; cbn [mbind_M] in V; [|done]. destruct (balance db); [|injection V as <-; exact D'].
    match type of V with redraw _ _ ?x = _ => exact (refresh_at ts _ _ (set_screen blank (set_ui (ui_all (w_ui x)) x)) _ D V) end.
Qed.
Lemma steps_at watch off ts w l w' : drawn_at ts w -> wsteps watch off w l = Val w' -> drawn_at (map tn_now l ++ ts) w'.
Proof.
  revert ts w. induction l as [|t l IH]; intros ts w D E; cbn [ScreenModel.wsteps map app] in *; [by injection E as <-|].
  destruct (wstep watch off w t) as [w1|] eqn:S; cbn [mbind_M] in E; [|done].
  pose proof (IH _ _ (step_at _ _ _ _ _ _ D S) E) as X. unfold drawn_at in *. destruct (ui_last (w_ui w')); [|done].
  apply elem_of_app in X as [X|X]; [right; apply elem_of_app; by left|]. apply elem_of_cons in X as [->|X]; [by left|right; apply elem_of_app; by right].
Qed.
Lemma run_at watch off db addrs size now l w : wrun watch db addrs off size now l = Val w -> drawn_at (map tn_now l ++ [now]) w.
Proof.
  unfold ScreenModel.wrun. destruct (wstart db addrs off size now) as [w0|] eqn:S; cbn [mbind_M]; [|done]. intros E.
  refine (steps_at _ _ _ _ _ _ _ E). unfold ScreenModel.wstart in S. destruct (balance db); [|by injection S as <-].
  destruct off; [refine (refresh_at [] _ _ _ _ _ S); exact Logic.I|by injection S as <-].
Qed.

Lemma refresh_head size now w w' : rd_header (w_ui w) = true -> refresh size now w = Val w' ->
  sc_header (w_screen w') = Some (ui_tab (w_ui w), ui_status (w_ui w), ui_balance (w_ui w)).
Proof.
  intros R. unfold ScreenModel.refresh. rewrite R.
  destruct (draw_header _ _ _ _ _) as [sc1|] eqn:H; cbn [mbind_M]; [|done].
  apply (draw_header_spec balance_len status_len) in H as (H & _ & _).
  destruct (if rd_main (w_ui w) then _ else _) as [sc2|] eqn:E2; cbn [mbind_M]; [|done].
  assert (H2 : sc_header sc2 = sc_header sc1).
  { destruct (rd_main (w_ui w)); [|by injection E2 as <-]. destruct (draw_main _ _ _ _ _ _); cbn [mbind_M] in E2; [|done]. by injection E2 as <-. }
  destruct (if _ || _ then _ else _) as [sc3|] eqn:E3; cbn [mbind_M]; [|done].
  assert (H3 : sc_header sc3 = sc_header sc2).
  { destruct (_ || _); [|by injection E3 as <-]. unfold draw_footer in E3. destruct (_ =? 0); [done|]. by injection E3 as <-. }
  cbn [orb]. intros [= <-]. cbn. congruence.
Qed.

Lemma loading_run watch off db addrs size now l t w : wrun watch db addrs off size now (l ++ [t]) = Val w -> w_over w = false ->
  loaded off l = false -> Forall (fun u => u + 16 < tn_now t) (now :: map tn_now l) ->
  forall st, loads t = Some st -> exists tb b, sc_header (w_screen w) = Some (tb, st, b).
Proof.
  intros E O LF F st L. unfold ScreenModel.wrun in E. destruct (wstart db addrs off size now) as [w0|] eqn:S; cbn [mbind_M] in E; [|done].
  rewrite (wsteps_app addr_of script_of balance_len status_len watch off) in E.
  destruct (wsteps watch off w0 l) as [w1|] eqn:S1; cbn [mbind_M ScreenModel.wsteps] in E; [|done].
  assert (R : wrun watch db addrs off size now l = Val w1) by (unfold ScreenModel.wrun; rewrite S; exact S1).
  pose proof (run_at _ _ _ _ _ _ _ _ R) as D.
  destruct (w_over w1) eqn:O1.
  { unfold ScreenModel.wstep in E. rewrite O1 in E. cbn [mbind_M] in E. congruence. }
  pose proof (inv_run addr_of script_of balance_len status_len watch off db addrs size now l w1 R O1) as (_ & RW & _). rewrite LF in RW.
  assert (K : match ui_last (w_ui w1) with None => true | Some u => 16 <? tn_now t - u end = true).
  { unfold drawn_at in D. destruct (ui_last (w_ui w1)) as [u|]; [|done]. rewrite Forall_forall in F.
    assert (u + 16 < tn_now t). { apply F. apply elem_of_app in D as [D|D]; [by right|]. apply elem_of_list_singleton in D as ->. by left. }
    apply N.ltb_lt. lia. }
  assert (V : forall s, (w' <-- refresh (tn_size t) (tn_now t) (set_ui (ui_load s (tn_now t) (w_ui w1)) w1) ;; Val w') = Val w -> exists tb b, sc_header (w_screen w) = Some (tb, s, b)).
  { intros s X. destruct (refresh _ _ _) as [w2|] eqn:Y; cbn [mbind_M] in X; [|done]. injection X as <-.
    eexists _, _. refine (refresh_head _ _ (set_ui (ui_load s (tn_now t) (w_ui w1)) w1) _ _ Y). cbn. rewrite K. apply orb_true_r. }
  unfold ScreenModel.wstep in E. rewrite O1, RW in E. unfold loads in L.
  destruct (tn_pick t) as [|?|[h|h|h|]|]; try discriminate L; injection L as <-; cbn [set_ui w_over] in E; rewrite O1 in E; exact (V _ E).
Qed.
End Proofs.
