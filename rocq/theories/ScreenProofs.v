(** The wallet's screen: what it shows is current. *)
From Verif Require Import Base WalletModel ScreenModel ScreenSpec.
Open Scope N_scope.

Section Proofs.
Context (addr_of : N -> option N) (script_of : N -> N) (balance_len : N -> N) (status_len : status -> N).
Notation refresh := (refresh addr_of script_of balance_len status_len).
Notation redraw := (redraw addr_of script_of balance_len status_len).
Notation wstep := (wstep addr_of script_of balance_len status_len).
Notation wsteps := (wsteps addr_of script_of balance_len status_len).
Notation on_event := (on_event addr_of script_of balance_len status_len).
Notation is_area := (is_area addr_of script_of).

(** What the status line may say. *)
Definition fits (p : option status) (st : status) : Prop :=
  match p with Some s => st = s | None => match st with Synced _ => False | _ => True end end.
(** What the header says is current. *)
Definition head_ok (p : option status) (w : wallet) : Prop :=
  exists st, sc_header (w_screen w) = Some (ui_tab (w_ui w), st, ui_balance (w_ui w)) /\ fits p st.
Definition main_ok (w : wallet) : Prop :=
  exists a, sc_main (w_screen w) = Some a /\ is_area (ui_tab (w_ui w)) (w_db w) (w_addrs w) a.
(** Whatever is not current is marked. *)
Definition pre (p : option status) (w : wallet) : Prop :=
  (rd_header (w_ui w) = true \/ head_ok p w) /\
  (rd_main (w_ui w) = true \/ main_ok w) /\
  (rd_footer (w_ui w) || rd_main (w_ui w) = true \/ sc_footer (w_screen w) = true).
Definition shows (p : option status) (w : wallet) : Prop := head_ok p w /\ main_ok w /\ sc_footer (w_screen w) = true.
Definition same (w w' : wallet) : Prop :=
  w_db w' = w_db w /\ w_addrs w' = w_addrs w /\ w_header w' = w_header w /\ w_running w' = w_running w /\ w_over w' = w_over w /\
  ui_status (w_ui w') = ui_status (w_ui w) /\ ui_balance (w_ui w') = ui_balance (w_ui w) /\ ui_tab (w_ui w') = ui_tab (w_ui w) /\
  ui_tip (w_ui w') = ui_tip (w_ui w).

Lemma draw_coins_spec i l r : draw_coins addr_of i l = Val r ->
  Forall2 (fun c d => d.1 = c.1 /\ addr_of c.2.1 = Some d.2.1 /\ d.2.2 = c.2.2) l r.
Proof.
  revert i r. induction l as [|[op [s v]] l IH]; intros i r; cbn [draw_coins].
  - intros [= <-]. constructor.
  - destruct (addr_of s) as [a|] eqn:A; [|done]. destruct (2 ^ 16 <=? _); [done|].
    destruct (draw_coins addr_of (i + 1) l) as [r'|] eqn:D; cbn [mbind_M]; [|done]. intros [= <-].
    constructor; [cbn; done|]. exact (IH _ _ D).
Qed.
Lemma draw_rows_spec width i l r : draw_rows width i l = Val r -> r = l.
Proof.
  revert i r. induction l as [|x l IH]; intros i r; cbn [draw_rows]; [by intros [= <-]|].
  destruct (2 ^ 16 <=? _); [done|]. destruct (width =? 0); [done|].
  destruct (draw_rows width (i + 1) l) as [r'|] eqn:D; cbn [mbind_M]; [|done]. intros [= <-]. by rewrite (IH _ _ D).
Qed.
Lemma draw_main_spec size u db addrs a : draw_main addr_of script_of size u db addrs = Val a -> is_area (ui_tab u) db addrs a.
Proof.
  unfold draw_main, ScreenSpec.is_area. destruct (ui_tab u).
  - destruct (draw_coins _ _ _) as [l|] eqn:D; cbn [mbind_M]; [|done]. intros [= <-]. exists l. split; [done|]. exact (draw_coins_spec _ _ _ D).
  - by intros [= <-].
  - destruct (draw_rows _ _ _) as [l|] eqn:D; cbn [mbind_M]; [|done]. intros [= <-]. by rewrite (draw_rows_spec _ _ _ _ D).
Qed.

Lemma draw_header_spec size u sc sc' : draw_header balance_len status_len size u sc = Val sc' ->
  sc_header sc' = Some (ui_tab u, ui_status u, ui_balance u) /\ sc_main sc' = sc_main sc /\ sc_footer sc' = sc_footer sc.
Proof. unfold draw_header. repeat case_match; intros E; try discriminate E. by injection E as <-. Qed.

Lemma refresh_spec p size now w w' : pre p w -> fits p (ui_status (w_ui w)) ->
  refresh size now w = Val w' -> same w w' /\ shows p w' /\ pre p w'.
Proof.
  intros (PH & PM & PF) PS. unfold ScreenModel.refresh.
  set (u := w_ui w) in *.
  destruct (if rd_header u then _ else _) as [sc1|] eqn:E1; cbn [mbind_M]; [|done].
  assert (H1 : (exists st, sc_header sc1 = Some (ui_tab u, st, ui_balance u) /\ fits p st) /\
    sc_main sc1 = sc_main (w_screen w) /\ sc_footer sc1 = sc_footer (w_screen w)).
  { destruct (rd_header u) eqn:RH.
    - apply draw_header_spec in E1 as (? & ? & ?). split; [|done]. exists (ui_status u). done.
    - injection E1 as <-. destruct PH as [?|PH]; [done|]. split; [exact PH|done]. }
  clear E1. destruct H1 as (H1 & M1 & F1).
  destruct (if rd_main u then _ else _) as [sc2|] eqn:E2; cbn [mbind_M]; [|done].
  assert (H2 : sc_header sc2 = sc_header sc1 /\ (exists a, sc_main sc2 = Some a /\ is_area (ui_tab u) (w_db w) (w_addrs w) a) /\
    (rd_main u = false -> sc_footer sc2 = sc_footer sc1)).
  { destruct (rd_main u) eqn:RM.
    - destruct (draw_main _ _ _ _ _ _) as [a|] eqn:D; cbn [mbind_M] in E2; [|done]. injection E2 as <-.
      split; [done|]. split; [|done]. exists a. split; [done|]. exact (draw_main_spec _ _ _ _ _ D).
    - injection E2 as <-. destruct PM as [?|PM]; [done|]. split; [done|]. split; [|done]. rewrite M1. exact PM. }
  clear E2. destruct H2 as (H2 & M2 & F2).
  destruct (if rd_footer u || rd_main u then _ else _) as [sc3|] eqn:E3; cbn [mbind_M]; [|done].
  assert (H3 : sc_header sc3 = sc_header sc2 /\ sc_main sc3 = sc_main sc2 /\ sc_footer sc3 = true).
  { destruct (rd_footer u || rd_main u) eqn:RF.
    - unfold draw_footer in E3. destruct (_ =? 0); [done|]. by injection E3 as <-.
    - injection E3 as <-. destruct PF as [?|PF]; [done|]. apply orb_false_iff in RF as [_ RM]. rewrite (F2 RM), F1. done. }
  clear E3. destruct H3 as (H3 & M3 & F3). rewrite H2 in H3.
  intros E.
  assert (S : same w w' /\ w_screen w' = sc3).
  { destruct (rd_header u || rd_main u || rd_footer u); injection E as <-; by repeat split. }
  destruct S as [S SC]. split; [exact S|].
  destruct S as (Sd & Sa & _ & _ & _ & _ & Sb & St & _).
  assert (SH : shows p w').
  { split; [|split].
    - unfold head_ok. rewrite SC, H3, Sb, St. exact H1.
    - unfold main_ok. rewrite SC, M3, St, Sd, Sa. exact M2.
    - rewrite SC. exact F3. }
  split; [exact SH|]. destruct SH as (? & ? & ?). split; [by right|]. split; by right.
Qed.
Lemma redraw_spec p size now w w' : fits p (ui_status (w_ui w)) ->
  redraw size now w = Val w' -> same w w' /\ shows p w' /\ pre p w'.
Proof.
  intros PS E. refine (refresh_spec p size now (set_screen blank (set_ui (ui_all (w_ui w)) w)) w' _ PS E).
  split; [by left|]. split; by left.
Qed.

Notation wstart := (wstart addr_of script_of balance_len status_len).
Notation wrun := (wrun addr_of script_of balance_len status_len).
Context (watch : list N) (off : bool) (db0 : table) (addrs0 : list addr_row).
Definition prog (l : list turn) : option status := progress off (rev (heard off l)).
Definition inv (l : list turn) (w : wallet) : Prop :=
  ui_tab (w_ui w) = selected l /\ w_running w = loaded off l /\ w_header w = imported (heard off l) /\ balance (w_db w) = Ok (ui_balance (w_ui w)) /\ fits (prog l) (ui_status (w_ui w)) /\ ui_tip (w_ui w) = tip_of (rev (heard off l)) /\ w_addrs w = addrs0 /\ handle_events addr_of script_of watch db0 (blocks (heard off l)) = Val (w_db w) /\ pre (prog l) w.

Lemma loaded_true l : loaded true l = true.
Proof. done. Qed.
Lemma heard_snoc o l t : heard o (l ++ [t]) = heard o l ++ match tn_pick t with PEvent e => if loaded o l then [e] else [] | _ => [] end.
Proof.
  revert o. induction l as [|x l IH]; intros o; cbn [heard app].
  - unfold loaded. cbn [existsb]. rewrite orb_false_r. destruct (tn_pick t) as [| |[]|e]; try done. by destruct o.
  - assert (L : forall o', loaded o' (x :: l) = match tn_pick x with PLoad LClosed => true | _ => loaded o' l end).
    { intros o'. unfold loaded. cbn [existsb]. destruct (tn_pick x) as [| |[]|]; try done. by destruct o'. }
    rewrite L. destruct (tn_pick x) as [k|s|[]|e]; rewrite IH; try done.
    by rewrite app_assoc.
Qed.
Lemma loaded_snoc l t : loaded off (l ++ [t]) = loaded off l || match tn_pick t with PLoad LClosed => true | _ => false end.
Proof. unfold loaded. rewrite existsb_app. cbn [existsb]. by rewrite orb_false_r, orb_assoc. Qed.
Lemma selected_snoc l t : selected (l ++ [t]) = press (selected l) t.
Proof. unfold selected. by rewrite fold_left_app. Qed.
Lemma handle_events_snoc db es e : handle_events addr_of script_of watch db (es ++ [e]) =
  (t <-- handle_events addr_of script_of watch db es ;; handle_event addr_of script_of watch t e).
Proof.
  revert db. induction es as [|x es IH]; intros db; cbn [handle_events app].
  - cbn [mbind_M]; by destruct (handle_event _ _ _ db e).
  - destruct (handle_event _ _ _ db x); cbn [mbind_M]; [apply IH|done].
Qed.

(** A turn that hears nothing from the client. *)
Lemma inv_quiet l t : (forall e, tn_pick t <> PEvent e) -> heard off (l ++ [t]) = heard off l.
Proof. intros Q. rewrite heard_snoc. destruct (tn_pick t) as [| | |e]; [by rewrite app_nil_r..|]. by destruct (Q e). Qed.
(** Drawing keeps the invariant and makes the screen current. *)
Lemma inv_refresh l size now w w' : inv l w -> refresh size now w = Val w' -> inv l w' /\ shows (prog l) w'.
Proof.
  intros (I1 & I2 & I3 & I4 & I5 & I6 & I7 & I8 & I9) E.
  destruct (refresh_spec (prog l) size now w w' I9 I5 E) as (S & SH & P). split; [|exact SH].
  destruct S as (Sd & Sa & Sh & Sr & _ & Ss & Sb & St & Stip).
  unfold inv. rewrite Sd, Sa, Sh, Sr, Ss, Sb, St, Stip. by repeat split; try apply P.
Qed.
Lemma inv_redraw l size now w w' : (ui_tab (w_ui w) = selected l /\ w_running w = loaded off l /\ w_header w = imported (heard off l) /\ balance (w_db w) = Ok (ui_balance (w_ui w)) /\ fits (prog l) (ui_status (w_ui w)) /\ ui_tip (w_ui w) = tip_of (rev (heard off l)) /\ w_addrs w = addrs0 /\ handle_events addr_of script_of watch db0 (blocks (heard off l)) = Val (w_db w)) ->
  redraw size now w = Val w' -> inv l w' /\ shows (prog l) w'.
Proof.
  intros (I1 & I2 & I3 & I4 & I5 & I6 & I7 & I8) E.
  refine (inv_refresh l size now (set_screen blank (set_ui (ui_all (w_ui w)) w)) w' _ E).
  repeat (split; [assumption|]). split; [by left|]. split; by left.
Qed.
Lemma imported_snoc es e : imported (es ++ [e]) = match e with EImported h => h | _ => imported es end.
Proof. unfold imported. rewrite fold_left_app. by destruct e. Qed.

Lemma over_refresh size now w w' : refresh size now w = Val w' -> w_over w' = w_over w.
Proof.
  unfold ScreenModel.refresh. intros E.
  repeat match type of E with context [mbind_M ?m _] => destruct m; cbn [mbind_M] in E; [|discriminate E] end.
  destruct (_ || _ || _); by injection E as <-.
Qed.

Lemma inv_step l w t w' : inv l w -> w_over w = false -> wstep watch off w t = Val w' -> w_over w' = false ->
  inv (l ++ [t]) w' /\ (taken off l t = true -> shows (prog (l ++ [t])) w').
Proof.
  intros I O E O'. pose proof I as (I1 & I2 & I3 & I4 & I5 & I6 & I7 & I8 & I9).
  unfold ScreenModel.wstep in E. rewrite O in E. unfold taken.
  assert (G : forall w1 : wallet, inv (l ++ [t]) w1 -> w_over w1 = false -> refresh (tn_size t) (tn_now t) w1 = Val w' ->
    inv (l ++ [t]) w' /\ (true = true -> shows (prog (l ++ [t])) w')).
  { intros w1 J _ R. destruct (inv_refresh _ _ _ _ _ J R) as [? ?]. done. }
  destruct (tn_pick t) as [k|s|ld|e] eqn:P.
  - assert (Q : heard off (l ++ [t]) = heard off l) by (apply inv_quiet; by rewrite P).
    assert (L : loaded off (l ++ [t]) = loaded off l) by (rewrite loaded_snoc, P; apply orb_false_r).
    assert (J : inv (l ++ [t]) (set_ui (ui_key k (w_ui w)) w)).
    { unfold inv, prog. rewrite Q, L, selected_snoc. unfold press. rewrite P, <- I1.
      destruct k; cbn [ui_key set_ui w_ui w_db w_addrs w_header w_running ui_tab ui_balance ui_status ui_tip ui_turn];
        repeat (split; [first [assumption|reflexivity|by destruct (ui_tab (w_ui w))]|]);
        first [exact I9 | split; [by left|]; split; left; [done|apply orb_true_r]]. }
    destruct k as [| | |[]|]; cbn [ui_key] in E, J.
    5: { unfold ui_key in J.
         assert (J' : inv (l ++ [t]) w) by (destruct w; exact J).
         destruct (w_running w); [injection E as <-; discriminate O'|]. exact (G _ J' O E). }
    all: cbn [set_ui w_over] in E; rewrite O in E; exact (G _ J O E).
  - assert (Q : heard off (l ++ [t]) = heard off l) by (apply inv_quiet; by rewrite P).
    assert (L : loaded off (l ++ [t]) = loaded off l) by (rewrite loaded_snoc, P; apply orb_false_r).
    destruct s; cbn [on_sign] in E.
    + destruct (redraw _ _ w) as [w1|] eqn:R; cbn [mbind_M] in E; [|done].
      assert (O1 : w_over w1 = false) by (unfold ScreenModel.redraw in R; rewrite (over_refresh _ _ _ _ R); exact O).
      rewrite O1 in E. refine (G w1 _ O1 E). refine (proj1 (inv_redraw _ _ _ w _ _ R)).
      unfold prog. rewrite Q, L, selected_snoc. unfold press. rewrite P. repeat (split; [assumption|]). exact I8.
    + cbn [mbind_M] in E. cbn [set_over w_over] in E. injection E as <-. discriminate O'.
  - assert (Q : heard off (l ++ [t]) = heard off l) by (apply inv_quiet; by rewrite P).
    assert (S : selected (l ++ [t]) = selected l) by (rewrite selected_snoc; unfold press; by rewrite P).
    destruct (w_running w) eqn:RW.
    + injection E as <-. assert (LT : loaded off l = true) by done. split; [|by rewrite LT; destruct ld].
      unfold inv, prog. rewrite Q, S, loaded_snoc, LT, RW. cbn [orb]. repeat (split; [assumption || reflexivity|]). exact I9.
    + assert (LF : loaded off l = false) by done.
      assert (NE : heard off l = []).
      { clear -LF. unfold loaded in LF. apply orb_false_iff in LF as [-> X]. induction l as [|x l IH]; [done|]. cbn [existsb] in X. apply orb_false_iff in X as [X1 X2].
        cbn [heard]. destruct (tn_pick x) as [| |[]|]; try done; exact (IH X2). }
      assert (OF : off = false) by (unfold loaded in LF; by apply orb_false_iff in LF as [? _]).
      assert (PN : forall l', heard off l' = [] -> prog l' = None) by (intros l' X; unfold prog; rewrite X; cbn [rev progress]; by rewrite OF).
      assert (J : forall st, ld <> LClosed -> fits None st -> inv (l ++ [t]) (set_ui (ui_load st (tn_now t) (w_ui w)) w)).
      { intros st LC FS. unfold inv. rewrite PN by (by rewrite Q). rewrite Q, S, loaded_snoc, P.
        assert (X : match ld with LClosed => true | _ => false end = false) by (by destruct ld). rewrite X, orb_false_r.
        cbn [ui_load set_ui w_ui w_db w_addrs w_header w_running ui_tab ui_balance ui_status ui_tip].
        repeat (split; [first [assumption|congruence|done]|]).
        rewrite PN in I9 by done. destruct I9 as (PH & PM & PF). split; [|split; [exact PM|exact PF]].
        destruct PH as [PH|PH]; [left; cbn; by rewrite PH|right; exact PH]. }
      destruct ld; cbn [set_ui w_over] in E; try (rewrite O in E; rewrite LF; first [exact (G _ (J (LoadingBlockHeaders height) ltac:(discriminate) Logic.I) O E)|exact (G _ (J (LoadingFilterHeaders height) ltac:(discriminate) Logic.I) O E)|exact (G _ (J (VerifyingFilterHeaders height) ltac:(discriminate) Logic.I) O E)]).
      injection E as <-. split; [|done]. unfold inv, prog. rewrite Q, S, loaded_snoc, P, orb_true_r. cbn [set_running w_ui w_db w_addrs w_header w_running].
      repeat (split; [assumption || reflexivity|]). exact I9.
  - destruct (w_running w) eqn:RW.
    2: { injection E as <-. assert (LF : loaded off l = false) by done. split; [|by rewrite LF].
         assert (Q : heard off (l ++ [t]) = heard off l) by (rewrite heard_snoc, P, LF; apply app_nil_r).
         assert (S : selected (l ++ [t]) = selected l) by (rewrite selected_snoc; unfold press; by rewrite P).
         unfold inv, prog. rewrite Q, S, loaded_snoc, P, LF, RW. cbn [orb]. repeat (split; [assumption || reflexivity|]). exact I9. }
    assert (LT : loaded off l = true) by done. rewrite LT.
    assert (Q : heard off (l ++ [t]) = heard off l ++ [e]) by (by rewrite heard_snoc, P, LT).
    assert (S : selected (l ++ [t]) = selected l) by (rewrite selected_snoc; unfold press; by rewrite P).
    assert (L : loaded off (l ++ [t]) = true) by (by rewrite loaded_snoc, LT).
    assert (PR : prog (l ++ [t]) = progress off (e :: rev (heard off l))) by (unfold prog; by rewrite Q, rev_unit).
    assert (B : blocks (heard off l ++ [e]) = blocks (heard off l) ++ [block_of e]) by (unfold blocks; by rewrite map_app).
    assert (HB : handle_events addr_of script_of watch db0 (blocks (heard off l ++ [e])) = handle_event addr_of script_of watch (w_db w) (block_of e)).
    { rewrite B, handle_events_snoc, I8. done. }
    destruct (on_event watch off e (tn_size t) (tn_now t) w) as [w1|] eqn:V; cbn [mbind_M] in E; [|done].
    assert (J : w_over w1 = false -> inv (l ++ [t]) w1).
    { intros O1. unfold ScreenModel.on_event in V. destruct e as [h|h|h|h|txs|h|]; cbn [block_of handle_event] in HB.
      5: { destruct (apply_all _ _ _ _ _) as [db|] eqn:A; cbn [mbind_M] in V; [|done].
           destruct (balance db) as [b|] eqn:BA; [|injection V as <-; discriminate O1].
           refine (proj1 (inv_redraw _ _ _ _ _ _ V)). rewrite Q, S, L, PR, imported_snoc, rev_unit, HB.
           cbn [set_ui set_db ui_set_balance w_ui w_db w_addrs w_header w_running ui_tab ui_balance ui_status ui_tip progress tip_of].
           repeat (split; [assumption || reflexivity|]). reflexivity. }
      all: injection V as <-; unfold inv; rewrite Q, S, L, PR, imported_snoc, rev_unit, HB; cbn [set_ui set_header set_cfilter ui_ready ui_peer ui_filter ui_synced ui_say
           w_ui w_db w_addrs w_header w_running ui_tab ui_balance ui_status ui_tip progress tip_of]; rewrite ?rev_involutive.
      all: repeat (split; [first [assumption|reflexivity|congruence|cbn [fits]; rewrite I3; reflexivity|cbn [fits]; rewrite I6; reflexivity]|]).
      all: first [exact I9|split; [by left|]; split; [exact (proj1 (proj2 I9))|exact (proj2 (proj2 I9))]]. }
    destruct (w_over w1) eqn:O1; [injection E as <-; congruence|]. exact (G w1 (J eq_refl) O1 E).
Qed.

Lemma inv_start size now w : wstart db0 addrs0 off size now = Val w -> w_over w = false -> inv [] w /\ (off = true -> shows (prog []) w).
Proof.
  unfold ScreenModel.wstart. destruct (balance db0) as [b|] eqn:B; [|by intros [= <-]].
  set (w0 := {| w_db := db0; w_running := off |}).
  assert (J : inv [] w0).
  { unfold inv, prog. cbn. repeat (split; [first [assumption|reflexivity|by destruct off]|]). split; [by left|]. split; by left. }
  intros E _. destruct off eqn:OF.
  - destruct (inv_refresh _ _ _ _ _ J E). done.
  - injection E as <-. done.
Qed.
Lemma over_steps w l : w_over w = true -> wsteps watch off w l = Val w.
Proof. intros O. induction l as [|t l IH]; cbn [ScreenModel.wsteps]; [done|]. unfold ScreenModel.wstep at 1. rewrite O. exact IH. Qed.
Lemma inv_steps l0 l w w' : inv l0 w -> w_over w = false -> wsteps watch off w l = Val w' -> w_over w' = false -> inv (l0 ++ l) w'.
Proof.
  revert l0 w. induction l as [|t l IH]; intros l0 w I O E O'; cbn [ScreenModel.wsteps] in E.
  - injection E as <-. by rewrite app_nil_r.
  - destruct (wstep watch off w t) as [w1|] eqn:S; cbn [mbind_M] in E; [|done].
    destruct (w_over w1) eqn:O1; [rewrite (over_steps w1 l O1) in E; congruence|].
    replace (l0 ++ t :: l) with ((l0 ++ [t]) ++ l) by (by rewrite <- app_assoc).
    exact (IH _ _ (proj1 (inv_step l0 w t w1 I O S O1)) O1 E O').
Qed.
Lemma wsteps_app w l1 l2 : wsteps watch off w (l1 ++ l2) = (w' <-- wsteps watch off w l1 ;; wsteps watch off w' l2).
Proof.
  revert w. induction l1 as [|t l1 IH]; intros w; cbn [ScreenModel.wsteps app]; [done|].
  destruct (wstep watch off w t) as [w1|]; cbn [mbind_M]; [apply IH|done].
Qed.
Lemma inv_run size now l w : wrun watch db0 addrs0 off size now l = Val w -> w_over w = false -> inv l w.
Proof.
  unfold ScreenModel.wrun. destruct (wstart db0 addrs0 off size now) as [w0|] eqn:S; cbn [mbind_M]; [|done]. intros E O.
  destruct (w_over w0) eqn:O0; [rewrite (over_steps w0 l O0) in E; congruence|].
  exact (inv_steps [] l w0 w (proj1 (inv_start _ _ _ S O0)) O0 E O).
Qed.
Lemma shows_run size now l t w : wrun watch db0 addrs0 off size now (l ++ [t]) = Val w -> w_over w = false -> taken off l t = true ->
  inv (l ++ [t]) w /\ shows (prog (l ++ [t])) w.
Proof.
  intros E O T. pose proof E as E'. unfold ScreenModel.wrun in E. destruct (wstart db0 addrs0 off size now) as [w0|] eqn:S; cbn [mbind_M] in E; [|done].
  rewrite wsteps_app in E. destruct (wsteps watch off w0 l) as [w1|] eqn:S1; cbn [mbind_M ScreenModel.wsteps] in E; [|done].
  destruct (w_over w1) eqn:O1.
  { unfold ScreenModel.wstep in E. rewrite O1 in E. cbn [mbind_M] in E. congruence. }
  assert (I : inv l w1).
  { apply (inv_run size now); [|done]. unfold ScreenModel.wrun. rewrite S. exact S1. }
  destruct (wstep watch off w1 t) as [w2|] eqn:S2; cbn [mbind_M] in E; [|done]. injection E as <-.
  destruct (inv_step l w1 t w2 I O1 S2 O) as [J K]. split; [exact J|exact (K T)].
Qed.

(** Where the last word on progress is that all is scanned. *)
Lemma progress_synced o r h : progress o r = Some (Synced h) -> exists q p, r = q ++ EScanned h :: p /\ imported (rev p) = h /\ Forall (fun e => speaks e = false) q.
Proof.
  induction r as [|e r IH]; cbn [progress]; [by destruct o|].
  destruct e as [x|x|x|x|txs|x|]; try discriminate.
  4: { destruct (imported (rev r) =? x) eqn:X; [|discriminate]. intros [= <-]. apply N.eqb_eq in X. exists [], r. done. }
  all: intros E; destruct (IH E) as (q & p & -> & ? & ?).
  all: eexists (_ :: q), p; split; [reflexivity|]; split; [assumption|]; constructor; [reflexivity|assumption].
Qed.
Lemma synced_run size now l x w t b h : wrun watch db0 addrs0 off size now (l ++ [x]) = Val w -> w_over w = false -> taken off l x = true ->
  sc_header (w_screen w) = Some (t, Synced h, b) ->
  exists p q, heard off (l ++ [x]) = p ++ EScanned h :: q /\ imported p = h /\ Forall (fun e => speaks e = false) q.
Proof.
  intros E O T H. destruct (shows_run _ _ _ _ _ E O T) as (_ & (st & H' & F) & _). rewrite H in H'. injection H' as _ <- _.
  unfold fits in F. destruct (prog (l ++ [x])) as [s|] eqn:P; [|done]. subst s.
  destruct (progress_synced _ _ _ P) as (q & p & X & Y & Z).
  exists (rev p), (rev q). split; [|split; [exact Y|by apply Forall_rev]].
  rewrite <- (rev_involutive (heard off (l ++ [x]))), X, rev_app_distr. cbn [rev]. by rewrite <- app_assoc.
Qed.
End Proofs.
