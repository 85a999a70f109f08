(** What the compact filter manager watches for and waits for, from outside. *)
From Coq Require Import Sorting.Sorted.
From Verif Require Import Base UtilModel UtilSpec UtilProofs CbfModel CbfSpec CbfProofs CbfStep CbfMain CbfScan CbfFacts CbfWait CbfAsked CbfWatch.
Open Scope N_scope.

(** ** Watch lists and timers *)
Definition same_view (s s' : cbf) : Prop :=
  r_watch (c_rescan s') = r_watch (c_rescan s) /\ r_txs (c_rescan s') = r_txs (c_rescan s) /\
  c_idle s' = c_idle s /\ c_processed s' = c_processed s.
Definition silent (o : cout) : Prop := match o with CoTimer _ | CoFilterProcessed _ _ _ _ _ => False | _ => True end.
Definition calm (s s' : cbf) (x : list cout) : Prop := same_view s s' /\ Forall silent x.

Lemma calm_refl s : calm s s [].
Proof. repeat split; constructor. Qed.
Lemma calm_one s s' o : same_view s s' -> silent o -> calm s s' [o].
Proof. split; [done|by repeat constructor]. Qed.
Lemma calm_nil s s' : same_view s s' -> calm s s' [].
Proof. split; [done|constructor]. Qed.
Lemma calm_trans s1 s2 s3 x y : calm s1 s2 x -> calm s2 s3 y -> calm s1 s3 (x ++ y).
Proof. intros [(A1 & A2 & A3 & A4) F] [(B1 & B2 & B3 & B4) G]. split; [repeat split; congruence|by apply Forall_app]. Qed.

Lemma cfilters_calm o a b t s s' x e : get_cfilters o a b t s = Val (s', x, e) -> calm s s' x.
Proof.
  intros E. assert (F : Forall silent x).
  { destruct (get_cfilters_spec o a b t s) as [[E' _]|(r & o' & e' & E' & _ & _ & _ & _ & F & _)]; [congruence|].
    rewrite E' in E. injection E as <- <- <-. eapply Forall_impl; [exact F|]. by intros ? (? & ? & ? & ->). }
  split; [|exact F]. clear F. unfold get_cfilters, assertM in E. destruct (decide _); [by injection E as <- _ _|]. destruct (_ <? _); [by injection E as <- _ _|].
  destruct (_ <=? _); [|done]. destruct (requests_spec a b t (c_rescan s)) as (r' & rs & Er & _ & _ & _ & _ & _ & _ & _ & _ & _ & _ & Ew & Et).
  rewrite Er in E. cbn [mbind_M] in E. destruct (ask_ranges _ _ _ _ _). injection E as <- _ _. by repeat split.
Qed.

Lemma sync_calm P k i now t s s' x : sync P k i now t s = Val (s', x) -> calm s s' x.
Proof.
  unfold sync, assertM. destruct (_ <=? _); [|done]. destruct (match tr_checkpoint t with Some _ => _ | None => _ end); [intros [= <- <-]; apply calm_refl|].
  destruct (if f_height s <? tr_height t then _ else _) as [[s1 o]|] eqn:E; [|done]. cbn [mbind_M].
  assert (E1 : calm s s1 o).
  { destruct (f_height s <? tr_height t); [|injection E as <- <-; apply calm_refl]. unfold send_getcfheaders in E.
    destruct (_ <? _); [injection E as <- <-; apply calm_refl|]. destruct (tr_at _ _) as [hash|]; [|done].
    unfold get_cfheaders in E. destruct (c_inflight s !! hash); [injection E as <- <-; apply calm_refl|].
    destruct (sample_peer _ _) as [[p b]|]; injection E as <- <-; [by apply calm_one|apply calm_refl]. }
  destruct (r_active (c_rescan s1)); [|by intros [= <- <-]].
  destruct (get_cfilters _ _ _ _ _) as [[[s2 o'] e]|] eqn:G; [|done]. cbn [mbind_M]. intros [= <- <-]. eapply calm_trans; [exact E1|by eapply cfilters_calm].
Qed.
Lemma expire_calm P k now hs : forall i s, calm s (expire P k now i hs s).1 (expire P k now i hs s).2.
Proof.
  induction hs as [|h hs IH]; intros i s; cbn [expire]; [apply calm_refl|].
  assert (X : forall s1 o, calm s s1 o -> calm s (let '(s, o') := expire P k now (Datatypes.S i) hs s1 in (s, o ++ o')).1 (let '(s, o') := expire P k now (Datatypes.S i) hs s1 in (s, o ++ o')).2).
  { intros s1 o E. specialize (IH (Datatypes.S i) s1). destruct (expire _ _ _ _ _ s1). cbn [fst snd] in *. by eapply calm_trans. }
  destruct (c_inflight s !! h) as [[[start addr] expiry]|]; [|apply X, calm_refl]. destruct (_ <=? _); [|apply X, calm_refl].
  destruct (sample_peer _ _) as [[a persistent]|]; [|apply X, calm_refl]. apply X. destruct (_ && _); (split; [by repeat split|by repeat constructor]).
Qed.
(** The idle timer: not yet, or the next headers are looked for and it is set again. *)
Lemma idle_view P k now t s s' x : idle P k now t s = Val (s', x) ->
  (now - default 0 (c_idle s) < 60000 /\ s' = s /\ x = []) \/
  (60000 <= now - default 0 (c_idle s) /\ exists s1 o, sync P k 0 now t s = Val (s1, o) /\ s' = set_idle (Some now) s1 /\ x = o ++ [CoTimer 60000]).
Proof.
  unfold idle. destruct (N.leb_spec cbf_idle_timeout (now - default 0 (c_idle s))) as [L|L]; [|intros [= <- <-]; by left].
  destruct (sync _ _ _ _ _ _) as [[s1 o]|] eqn:E; [|done]. cbn [mbind_M]. intros [= <- <-]. right. split; [exact L|]. by exists s1, o.
Qed.

Definition scripts_set (i : input) (w : gset N) : gset N :=
  match i_op i with CWatch l => list_to_set l ∪ w | CRescan _ _ l => list_to_set l | _ => w end.
Definition txs_set (i : input) (m : gmap N (gset N)) : gmap N (gset N) :=
  match i_op i with CTxConfirmed t => delete t m | CTxReverted t outs | CWatchTx t outs => <[t := list_to_set outs]> m | _ => m end.
Definition viewed (i : input) (s s' : cbf) (x : list cout) : Prop :=
  r_watch (c_rescan s') = scripts_set i (r_watch (c_rescan s)) /\ r_txs (c_rescan s') = txs_set i (r_txs (c_rescan s)) /\
  c_idle s' = idle_step i x (c_idle s) /\ c_processed s' = moved_step i x (c_processed s).

Lemma silent_timer d x : Forall silent x -> existsb (sets_timer d) x = false.
Proof. induction 1 as [|o x F _ IH]; [done|]. cbn [existsb]. rewrite IH. by destruct o. Qed.
Lemma silent_processed x : Forall silent x -> existsb is_processed x = false.
Proof. induction 1 as [|o x F _ IH]; [done|]. cbn [existsb]. rewrite IH. by destruct o. Qed.
Lemma calm_viewed i s s' x : calm s s' x -> (forall w, scripts_set i w = w) -> (forall m, txs_set i m = m) -> viewed i s s' x.
Proof.
  intros [(A & B & C & D) F] W T. unfold viewed, idle_step, moved_step. rewrite !silent_timer, silent_processed, W, T by exact F.
  repeat split; try congruence. by destruct (i_op i).
Qed.

Lemma cfheaders_calm P k now t from ft st pv hs s s' x : received_cfheaders P k now t from ft st pv hs s = Val (s', x) ->
  calm s s' x \/ (x = [CoTimer 1000] /\ r_watch (c_rescan s') = r_watch (c_rescan s) /\ r_txs (c_rescan s') = r_txs (c_rescan s) /\ c_processed s' = c_processed s /\ c_idle s' = None).
Proof.
  unfold received_cfheaders. intros E. destruct (c_inflight s !! st); [|injection E as <- <-; left; apply calm_refl].
  destruct (negb _); [injection E as <- <-; left; by apply calm_one|].
  destruct (tr_get _ _); [|injection E as <- <-; left; by apply calm_one].
  destruct (_ <=? _); [injection E as <- <-; left; by apply calm_nil|].
  destruct (negb _); [injection E as <- <-; by right|].
  destruct (_ <? _); [injection E as <- <-; left; by apply calm_one|].
  destruct (_ =? 0); [injection E as <- <-; left; by apply calm_one|].
  destruct (negb _); [injection E as <- <-; left; by apply calm_one|].
  left. unfold f_import in E. destruct (k_put k); [injection E as <- <-; by apply calm_one|].
  match type of E with mbind_M (headers_imported _ _ _ _ ?q) _ = _ => set (s1 := q) in E end. cbv beta in E.
  assert (C0 : calm s s1 []) by (by apply calm_nil).
  destruct (headers_imported k _ _ _ s1) as [[[s2 o2] e]|] eqn:E1; [|done]. cbn [mbind_M] in E.
  destruct e; [done|]. unfold assertM in E. destruct (_ <=? _); [|done].
  assert (Pd : calm s s2 o2).
  { unfold headers_imported in E1. destruct (r_active _); [|injection E1 as <- <-; exact C0]. destruct (_ <? _); [injection E1 as <- <-; exact C0|].
    apply cfilters_calm in E1. exact (calm_trans _ _ _ _ _ C0 E1). }
  destruct (_ =? _).
  + injection E as <- <-. eapply calm_trans; [exact Pd|]. by apply calm_one.
  + destruct (sync _ _ _ _ _ _) as [[s3 o3]|] eqn:E3; [|done]. cbn [mbind_M] in E. injection E as <- <-. eapply calm_trans; [exact Pd|]. by apply sync_calm in E3.
Qed.

Lemma processes_moved P r r' ms es : processes P r r' ms es -> existsb is_processed es = (r_current r <? r_current r') /\ forall d, existsb (sets_timer d) es = false.
Proof.
  intros Pr. pose proof (ps_cur _ _ _ _ _ Pr) as Lc. destruct (ps_events _ _ _ _ _ Pr) as (l & El & _ & Ee). rewrite Ee.
  assert (T : forall d, existsb (sets_timer d) (if bool_decide (r_end r = Some (r_current r')) then [CoRescanStopped (r_current r')] else []) = false) by (intros; by destruct (bool_decide _)).
  assert (Q : existsb is_processed (if bool_decide (r_end r = Some (r_current r')) then [CoRescanStopped (r_current r')] else []) = false) by (by destruct (bool_decide _)).
  assert (TI : forall d, existsb (sets_timer d) (imap (fun i '(f, hash, c) => CoFilterProcessed hash (r_current r + N.of_nat i) (bool_decide (is_Some (match_filter P r f hash))) (default false (match_filter P r f hash)) c) l) = false).
  { intros d. apply not_true_is_false. intros X. apply existsb_exists in X as (o & I & X). apply elem_of_list_In, elem_of_lookup_imap in I as (j & [[f hh] c] & -> & _). done. }
  split.
  - rewrite existsb_app, Q, orb_false_r. destruct l as [|[[f hh] c] l]; cbn [imap existsb].
    + cbn in El. symmetry. apply N.ltb_ge. lia.
    + cbn [length] in El. rewrite (proj2 (N.ltb_lt _ _)) by lia. done.
  - intros d. by rewrite existsb_app, TI, T.
Qed.
Lemma want_silent ms p : Forall silent (want_blocks ms p).2.
Proof. eapply Forall_impl; [apply want_quiet|]. by intros ? [? ->]. Qed.

Lemma cfilter_view P from ft ha f i s s' x : i_op i = CCFilter from ft ha f -> step_on P i s = Val (s', x) -> viewed i s s' x.
Proof.
  intros Op E. assert (W : forall w, scripts_set i w = w) by (intros; unfold scripts_set; by rewrite Op).
  assert (T : forall m, txs_set i m = m) by (intros; unfold txs_set; by rewrite Op).
  assert (C : forall y, calm s s' y -> x = y -> viewed i s s' x) by (intros y Y ->; by apply calm_viewed).
  unfold step_on in E. rewrite Op in E. cbn [cbf_step] in E. unfold received_cfilter in E.
  destruct (negb _); [injection E as <- <-; by apply (C [])|]. destruct (tr_get _ _) as [height|]; [|injection E as <- <-; by apply (C [])].
  destruct (f_get _ _ _) as [[]|]; [|injection E as <- <-; by apply (C [])]. destruct (f_prev _ _ _); [|done].
  destruct (negb _); [injection E as <- <-; apply (C [CoMisbehaved from]); [by apply calm_one|done]|].
  destruct (r_receive height f ha (c_rescan s)) as [[r rq]|] eqn:Rr; [|done]. cbn [mbind_M] in E. unfold r_receive in Rr.
  destruct rq; cbn [mbind_M] in E.
  - destruct (decide _); [|done]. destruct (fc_push _ _ _ _) as [[c b]|]; [|done]. cbn [mbind_M] in Rr. injection Rr as Rr.
    destruct (process_spec P r) as (r' & ms & es & Ep & Pr). rewrite Ep in E. cbn [mbind_M] in E.
    destruct (processes_moved _ _ _ _ _ Pr) as [Mv Tm]. destruct (ps_same _ _ _ _ _ Pr) as (_ & _ & _ & Ew & Et & _).
    set (s1 := if _ <? _ then _ else _) in E.
    pose proof (want_silent ms (c_pending s1)) as Ws. destruct (want_blocks ms (c_pending s1)) as [p o]. cbn [snd] in Ws. injection E as <- <-.
    assert (F : Forall silent (o ++ if decide (p = ∅) then [CoScanned (r_current (c_rescan s1))] else [])).
    { apply Forall_app. split; [exact Ws|]. destruct (decide _); by repeat constructor. }
    unfold viewed, idle_step, moved_step. rewrite W, T, Op.
    change (CoFilterReceived from ha height f :: es ++ o ++ ?z) with ([CoFilterReceived from ha height f] ++ es ++ (o ++ z)).
    rewrite !existsb_app, !Tm, Mv. cbn [existsb sets_timer is_processed orb].
    rewrite <- !existsb_app. change (c_rescan (set_pending p s1)) with (c_rescan s1). rewrite !silent_timer, silent_processed, orb_false_r by exact F.
    assert (E1 : c_rescan s1 = r') by (unfold s1; by destruct (_ <? _)). rewrite E1, Ew, Et, <- Rr. cbn [r_watch r_txs r_current].
    assert (Er : r_current (c_rescan s) = r_current r) by (by rewrite <- Rr). rewrite Er. split; [done|]. split; [done|]. clear. subst s1. by destruct (r_current r <? r_current r').
  - destruct (decide _); [by destruct (fc_push _ _ _ _) as [[]|]|]. injection Rr as <-. cbn [want_blocks] in E. injection E as <- <-.
    eapply C; [|reflexivity]. split; [by repeat split|]. constructor; [done|]. cbn [app]. destruct (decide _); by repeat constructor.
Qed.

Lemma step_viewed P i s s' x : step_on P i s = Val (s', x) -> viewed i s s' x.
Proof.
  intros E. destruct (i_op i) as [|addr ob fl pe|addr|block hh|hh|rv|tx|tx ou|from ft st pv hs|from ft a st|from ft ha f| |scr|tx ou|fr to w|a b] eqn:Op.
  11: { by eapply cfilter_view. }
  all: assert (C : forall y, (forall w, scripts_set i w = w) -> (forall m, txs_set i m = m) -> calm s s' y -> x = y -> viewed i s s' x) by (intros y W T Y ->; by apply calm_viewed).
  all: unfold step_on in E; rewrite Op in E; cbn [cbf_step] in E.
  all: unfold viewed, scripts_set, txs_set in *; rewrite Op in *.
  - destruct (idle_view _ _ _ _ _ _ _ E) as [(_ & -> & ->)|(_ & s1 & o & Sy & -> & ->)]; [apply (C []); [done|done|apply calm_refl|done]|].
    apply sync_calm in Sy as [(A & B & _ & D) F]. split; [exact A|]. split; [exact B|]. unfold idle_step, moved_step. rewrite Op, existsb_app. cbn [existsb sets_timer]. rewrite orb_true_r. by split.
  - unfold cbf_negotiated in E. destruct (_ && _); [|injection E as <- <-; apply (C []); [done..|apply calm_refl|done]].
    apply sync_calm in E. by apply (C x).
  - injection E as <- <-. apply (C []); [done|done|by apply calm_nil|done].
  - destruct (decide _); injection E as <- <-; (eapply C; [done|done| |reflexivity]); [|apply calm_refl]. split; [by repeat split|by repeat constructor].
  - injection E as <- <-. apply (C []); [done|done|by apply calm_nil|done].
  - match type of E with mbind_M ?m _ = _ => destruct m as [[s1 o1]|] eqn:E1; [|done] end. cbn [mbind_M] in E.
    destruct (sync _ _ _ _ _ _) as [[s2 o2]|] eqn:E2; [|done]. cbn [mbind_M] in E. injection E as <- <-. apply sync_calm in E2.
    eapply C; [done|done| |reflexivity]. eapply calm_trans; [|exact E2].
    destruct (last rv) as [h'|]; [|injection E1 as <- <-; apply calm_refl]. unfold cbf_rollback in E1.
    destruct (_ <=? _); [injection E1 as <- <-; apply calm_refl|]. unfold r_rollback in E1. destruct (fc_rollback _ _ _) as [c|]; [|done]. cbn [mbind_M] in E1.
    unfold f_rollback in E1. destruct (k_rollback_ok _); [|injection E1 as <- <-; by apply calm_one].
    destruct (_ && _); injection E1 as <- <-; by apply calm_nil.
  - injection E as <- <-. unfold idle_step, moved_step. rewrite Op. by repeat split.
  - injection E as <- <-. unfold idle_step, moved_step. rewrite Op. by repeat split.
  - destruct (cfheaders_calm _ _ _ _ _ _ _ _ _ _ _ _ E) as [Y|(-> & A & B & D & F)]; [by apply (C x)|]. unfold idle_step, moved_step. rewrite Op, D, F. by repeat split.
  - eapply C; [done|done| |reflexivity]. unfold received_getcfheaders in E. destruct (negb _); [injection E as <- <-; by apply calm_one|]. destruct (tr_get _ _); [|injection E as <- <-; apply calm_refl].
    destruct (f_range _ _ _ _); [injection E as <- <-; apply calm_refl|]. destruct (f_prev _ _ _); [injection E as <- <-; by apply calm_one|done].
  - unfold cbf_timer in E. destruct (idle _ _ _ _ _) as [[s1 o1]|] eqn:E1; [|done]. cbn [mbind_M] in E.
    pose proof (expire_calm P (i_k i) (i_now i) (k_order (i_k i) 3 (fst <$> map_to_list (c_inflight s1))) 0 s1) as X. destruct (expire _ _ _ _ _ _) as [s2 o2]. cbn [fst snd] in X.
    assert (Y : exists y, calm s1 s' y /\ x = o1 ++ y).
    { destruct (_ && _); [|injection E as <- <-; by exists o2].
      destruct (get_cfilters _ _ _ _ _) as [[[s3 o3] e]|] eqn:G; [|done]. cbn [mbind_M] in E. injection E as <- <-. exists (o2 ++ o3). split; [|done].
      eapply calm_trans; [exact X|]. apply cfilters_calm in G. exact G. }
    destruct Y as (y & [(A & B & D & G) F] & ->).
    destruct (idle_view _ _ _ _ _ _ _ E1) as [(_ & -> & ->)|(_ & s4 & o & Sy & -> & ->)]; [by apply (C y)|].
    apply sync_calm in Sy as [(A' & B' & _ & D') F']. split; [cbn in A; congruence|]. split; [cbn in B; congruence|]. unfold idle_step, moved_step. rewrite Op, !existsb_app. cbn [existsb sets_timer].
    rewrite (N.eqb_refl 60000), !orb_true_l, orb_true_r. cbn in D, G. split; [done|congruence].
  - injection E as <- <-. unfold idle_step, moved_step. rewrite Op. by repeat split.
  - injection E as <- <-. unfold idle_step, moved_step. rewrite Op. by repeat split.
  - unfold cbf_rescan in E. set (s0 := set_rescan (r_restart _ _ _ _) s) in E.
    assert (V0 : r_watch (c_rescan s0) = list_to_set w /\ r_txs (c_rescan s0) = r_txs (c_rescan s) /\ c_idle s0 = c_idle s /\ c_processed s0 = c_processed s) by (by repeat split).
    clearbody s0. unfold idle_step, moved_step. rewrite Op.
    destruct (decide _); [injection E as <- <-; exact V0|]. destruct (_ <? _); [injection E as <- <-; exact V0|].
    destruct (get_cfilters _ _ _ _ _) as [[[s3 o3] e]|] eqn:G; [|done]. cbn [mbind_M] in E. apply cfilters_calm in G as [(A & B & D & G) F].
    destruct (process_spec P (c_rescan s3)) as (r & ms & es & Ep & Pr). rewrite Ep in E. cbn [mbind_M] in E.
    destruct (processes_moved _ _ _ _ _ Pr) as [_ Tm]. destruct (ps_same _ _ _ _ _ Pr) as (_ & _ & _ & Ew & Et & _).
    assert (F2 : Forall silent (CoGetBlock <$> ms.*2)) by (apply Forall_fmap, Forall_true; done).
    assert (E' : s' = set_rescan r s3 /\ exists st sp, x = [CoRescanStarted st sp] ++ o3 ++ es ++ (CoGetBlock <$> ms.*2)).
    { destruct e as [[]|]; [done| |]; injection E as <- <-; (split; [done|]); by eexists _, _. }
    destruct E' as [-> (st & sp & ->)]. destruct V0 as (V1 & V2 & V3 & V4). rewrite !existsb_app, !Tm, !silent_timer by (assumption || by repeat constructor). cbn [c_rescan set_rescan c_idle c_processed].
    split; [congruence|]. split; [congruence|]. split; [|congruence]. cbn [existsb sets_timer orb]. congruence.
  - destruct (get_cfilters _ _ _ _ _) as [[[s3 o3] e]|] eqn:G; [|done]. cbn [mbind_M] in E. injection E as <- <-. apply cfilters_calm in G.
    eapply C; [done|done| |reflexivity]. eapply calm_trans; [exact G|]. by apply calm_one.
Qed.

Lemma run_viewed P ins : forall s s' outs (w : list N) (m : gmap N (list N)) d v, cbf_run P ins s = Val (s', outs) ->
  r_watch (c_rescan s) = list_to_set w -> r_txs (c_rescan s) = (list_to_set <$> m) -> c_idle s = d -> c_processed s = v ->
  r_watch (c_rescan s') = list_to_set (foldl scripts_in w ins) /\ r_txs (c_rescan s') = (list_to_set <$> foldl txs_in m ins) /\
  c_idle s' = since_when idle_step ins outs d /\ c_processed s' = since_when moved_step ins outs v.
Proof.
  induction ins as [|i ins IH]; intros s s' outs w m d v; cbn [cbf_run]; [by intros [= <- <-]|].
  destruct (step_on P i s) as [[s1 x]|] eqn:E; [cbn [mbind_M]|done]. destruct (cbf_run P ins s1) as [[s2 xs]|] eqn:R; [cbn [mbind_M]|done].
  intros [= <- <-] Hw Hm Hd Hv. destruct (step_viewed P i s s1 x E) as (V1 & V2 & V3 & V4). cbn [foldl since_when].
  eapply IH; [exact R|..].
  - rewrite V1, Hw. unfold scripts_set, scripts_in. destruct (i_op i); try done. by rewrite list_to_set_app_L.
  - rewrite V2, Hm. unfold txs_set, txs_in. destruct (i_op i); try done; [by rewrite fmap_delete|by rewrite fmap_insert|by rewrite fmap_insert].
  - by rewrite V3, Hd.
  - by rewrite V4, Hv.
Qed.
Lemma reach_viewed P cap st ins s outs : cbf_reach P cap st ins s outs ->
  r_watch (c_rescan s) = list_to_set (watched_scripts ins) /\ r_txs (c_rescan s) = (list_to_set <$> watched_txs ins) /\
  c_idle s = since_when idle_step ins outs None /\ c_processed s = since_when moved_step ins outs None.
Proof. intros R. eapply run_viewed; [exact R|done|by rewrite fmap_empty|done|done]. Qed.

Lemma wanted_looked P r ins f block : r_watch r = list_to_set (watched_scripts ins) -> r_txs r = (list_to_set <$> watched_txs ins) ->
  wanted P r f block <-> looked_for P ins f block.
Proof.
  intros W T. unfold wanted, looked_for. rewrite W.
  assert (Z : (list_to_set (watched_scripts ins) : gset N) <> ∅ <-> watched_scripts ins <> []).
  { destruct (watched_scripts ins) as [|a l]; [done|]. split; [done|]. intros _ Z. cut (a ∈ (∅ : gset N)); [apply not_elem_of_empty|]. rewrite <- Z. apply elem_of_list_to_set. left. }
  rewrite Z. assert (Y : (exists txid outs, r_txs r !! txid = Some outs /\ p_all P f block outs = Some true) <->
    (exists txid outs, watched_txs ins !! txid = Some outs /\ p_all P f block (list_to_set outs) = Some true)).
  { rewrite T. setoid_rewrite lookup_fmap. split.
    - intros (t & o & E & A). destruct (watched_txs ins !! t) as [o'|] eqn:Eo; [|done]. injection E as <-. by exists t, o'.
    - intros (t & o & E & A). exists t, (list_to_set o). by rewrite E. }
  by rewrite Y.
Qed.

Lemma vouched_app P h b f ins1 : forall ins2 s, vouched P h b f ins1 s -> vouched P h b f (ins1 ++ ins2) s.
Proof.
  induction ins1 as [|i ins1 IH]; intros ins2 s; [done|]. cbn [vouched app]. destruct (step_on P i s) as [[s1 x]|]; [|done].
  intros [V|V]; [by left|right; by apply IH].
Qed.
Lemma vouched_last P h b f ins : forall i s s1 xs s' x, cbf_run P ins s = Val (s1, xs) -> step_on P i s1 = Val (s', x) ->
  tr_at (i_tree i) h = Some b -> authentic P s' h f -> vouched P h b f (ins ++ [i]) s.
Proof.
  induction ins as [|j ins IH]; intros i s s1 xs s' x R E T A; cbn [cbf_run app vouched] in *.
  - injection R as -> <-. rewrite E. by left.
  - destruct (step_on P j s) as [[s2 y]|]; [cbn [mbind_M] in R|done]. destruct (cbf_run P ins s2) as [[s3 ys]|] eqn:R'; [cbn [mbind_M] in R|done].
    injection R as -> <-. right. by eapply IH.
Qed.

(** A filter that is processed matches what is watched. *)
Lemma matched_watched P cap st ins s outs i s' x block h v m c : chained P ((p_genesis P, p_header P (p_genesis P) 0) :: st) ->
  cbf_reach P cap st ins s outs -> step_on P i s = Val (s', x) -> CoFilterProcessed block h v m c ∈ x ->
  exists f, vouched P h block f (ins ++ [i]) (cbf0 cap st) /\ (m = true <-> looked_for P (ins ++ [i]) f block) /\
    (m = true -> CoGetBlock block ∈ x \/ waiting h ins outs false = true).
Proof.
  intros C R E I. pose proof (reach_ok P cap st ins s outs C R) as Ok. destruct (step_origin P cap i s s' x Ok E) as [_ O].
  destruct (O _ _ _ _ _ I) as (f & H1 & H2 & H3). exists f. split; [|split].
  - destruct H1 as [H1|[H1 A]]; [|exact (vouched_last P h block f ins i _ _ _ _ _ R E H1 A)].
    destruct (run_origin P cap ins _ s outs (cbf0_ok P cap st C) R) as [Q _]. destruct (Q _ _ _ _ H1) as [Q'|Q']; [done|]. by apply vouched_app.
  - rewrite H2. pose proof (run_snoc P ins i _ _ _ _ _ R E) as R'. destruct (reach_viewed P cap st _ _ _ R') as (V1 & V2 & _). by apply wanted_looked.
  - intros M. rewrite (reach_wait P cap st ins s outs h C R). exact (proj1 (H3 M)).
Qed.

(** ** Filters that came *)
Definition held (s : cbf) (h : N) : Prop := is_Some (r_received (c_rescan s) !! h) \/ is_Some (fc_get (r_cache (c_rescan s)) h).
Lemma quiet_held t s s' x h : quiet t s s' x -> held s' h -> held s h.
Proof.
  intros Q [[v V]|V].
  - destruct (q_received _ _ _ _ Q _ _ V) as [V'|(f & hash & _ & V' & _)]; [left; by exists v|right; by exists f].
  - right. destruct (q_scan _ _ _ _ Q) as (_ & _ & _ & _ & Ec). by rewrite <- Ec.
Qed.
Lemma processes_held P r r' ms es h : processes P r r' ms es ->
  is_Some (r_received r' !! h) \/ is_Some (fc_get (r_cache r') h) -> is_Some (r_received r !! h) \/ is_Some (fc_get (r_cache r) h).
Proof.
  intros Pr. rewrite (ps_received _ _ _ _ _ Pr). destruct (ps_same _ _ _ _ _ Pr) as (_ & _ & -> & _). destruct (decide _); [|done].
  intros [[? ?]|]; [done|by right].
Qed.
Lemma step_held P cap i s s' x h : cbf_ok P cap s -> step_on P i s = Val (s', x) -> held s' h -> held s h \/ exists from b f, CoFilterReceived from b h f ∈ x.
Proof.
  intros Ok E. apply (step_effect P cap) in E; [|done].
  destruct E as [s' x _ Q|from sh prev hs stop st s' x _ _ _ _ Ep _ _ _ Q|from hash height f s' x _ _ _ R Q|
    from hash height f c b r' ms es s' x _ _ A _ Ec Pr E1 E2 E3 E4 _|rev hh c s' x ok _ _ L -> Ec Q|from to w start stop s1 r' ms es x y _ Q Pr _].
  - intros Hd. left. by eapply quiet_held.
  - intros Hd. left. eapply quiet_held in Hd; [|exact Q]. exact Hd.
  - intros Hd. left. by eapply quiet_held.
  - unfold held. rewrite E4. intros Hd. apply (processes_held _ _ _ _ _ _ Pr) in Hd. cbn [after_receive r_received r_cache] in Hd.
    destruct (push_total cap (r_cache (c_rescan s)) height f (ok_cache _ _ _ Ok)) as (c' & b' & Ec' & I' & G). rewrite Ec in Ec'. injection Ec' as <- <-.
    destruct (decide (height = h)) as [<-|Ne]; [right; exists from, hash, f; left|left].
    destruct Hd as [Hd|[g Hd]]; [left; by rewrite lookup_insert_ne in Hd|right]. destruct (G _ _ Hd) as [[-> _]|Hd']; [done|by exists g].
  - intros Hd. left. eapply quiet_held in Hd; [|exact Q]. destruct (rollback_ok lenN cap (r_cache (c_rescan s)) (hh - 1) (ok_cache _ _ _ Ok)) as (c' & Ec' & I' & G & _).
    rewrite Ec in Ec'. injection Ec' as <-. assert (Hd' : is_Some (r_received (c_rescan s) !! h) \/ is_Some (fc_get c h)) by (unfold held, rolled_back in Hd; by destruct (k_rollback_ok _)).
    destruct Hd' as [Hd'|Hd']; [by left|right]. rewrite G in Hd'. destruct (hh - 1 <? h); [by destruct Hd'|exact Hd'].
  - intros Hd. left. assert (H1 : held s1 h) by (destruct Pr as [(-> & _)|Pr]; [exact Hd|exact (processes_held _ _ _ _ _ _ Pr Hd)]).
    eapply quiet_held in H1; [|exact Q]. exact H1.
Qed.
Lemma run_held P cap ins h : forall s s' xs, cbf_ok P cap s -> cbf_run P ins s = Val (s', xs) -> held s' h -> held s h \/ exists from b f, CoFilterReceived from b h f ∈ concat xs.
Proof.
  induction ins as [|i ins IH]; intros s s' xs Ok; cbn [cbf_run]; [intros [= <- <-]; by left|].
  destruct (step_on P i s) as [[s1 x]|] eqn:E; [cbn [mbind_M]|done]. destruct (cbf_run P ins s1) as [[s2 ys]|] eqn:R; [cbn [mbind_M]|done].
  intros [= <- <-] Hd. cbn [concat]. setoid_rewrite elem_of_app. destruct (IH _ _ _ (step_ok _ _ _ _ _ _ Ok E) R Hd) as [H1|(from & b & f & I)].
  - destruct (step_held _ _ _ _ _ _ _ Ok E H1) as [?|(from & b & f & I)]; [by left|right; exists from, b, f; by left].
  - right. exists from, b, f. by right.
Qed.
Lemma never_held P cap st ins s outs h : chained P ((p_genesis P, p_header P (p_genesis P) 0) :: st) -> cbf_reach P cap st ins s outs ->
  never_received h outs -> ~ held s h.
Proof.
  intros C R N Hd. destruct (run_held P cap ins h _ _ _ (cbf0_ok P cap st C) R Hd) as [Z|(from & b & f & I)]; [|by apply (N from b f)].
  unfold held in Z. destruct Z as [[? Z]|[? Z]]; [done|]. cbn in Z. unfold fc_get in Z. done.
Qed.

(** ** Answers with filter headers *)
Definition asking (o : cout) : Prop := match o with CoGetCFHeaders _ _ _ | CoGetCFilters _ _ _ => True | _ => False end.
Lemma cfilters_asking o a b t s s' x e : get_cfilters o a b t s = Val (s', x, e) -> Forall asking x /\ c_filters s' = c_filters s.
Proof.
  intros E. destruct (get_cfilters_spec o a b t s) as [[E' _]|(r & o' & e' & E' & _ & _ & _ & _ & F & _)]; [congruence|].
  rewrite E' in E. injection E as <- <- <-. split; [|done]. eapply Forall_impl; [exact F|]. by intros ? (? & ? & ? & ->).
Qed.
Lemma sync_asking P k i now t s s' x : sync P k i now t s = Val (s', x) -> Forall asking x /\ c_filters s' = c_filters s.
Proof.
  unfold sync, assertM. destruct (_ <=? _); [|done]. destruct (match tr_checkpoint t with Some _ => _ | None => _ end); [intros [= <- <-]; split; [constructor|done]|].
  destruct (if f_height s <? tr_height t then _ else _) as [[s1 o]|] eqn:E; [|done]. cbn [mbind_M].
  assert (E1 : Forall asking o /\ c_filters s1 = c_filters s).
  { destruct (f_height s <? tr_height t); [|injection E as <- <-; split; [constructor|done]]. unfold send_getcfheaders in E.
    destruct (_ <? _); [injection E as <- <-; split; [constructor|done]|]. destruct (tr_at _ _) as [hash|]; [|done].
    unfold get_cfheaders in E. destruct (c_inflight s !! hash); [injection E as <- <-; split; [constructor|done]|].
    destruct (sample_peer _ _) as [[p b]|]; injection E as <- <-; (split; [by repeat constructor|done]). }
  destruct (r_active (c_rescan s1)); [|by intros [= <- <-]].
  destruct (get_cfilters _ _ _ _ _) as [[[s2 o'] e]|] eqn:G; [|done]. cbn [mbind_M]. intros [= <- <-].
  apply cfilters_asking in G as [G1 G2]. destruct E1 as [E1 E2]. split; [by apply Forall_app|congruence].
Qed.
Lemma asking_not x o : Forall asking x -> ~ asking o -> o ∉ x.
Proof. intros F N I. rewrite Forall_forall in F. by apply N, F. Qed.

Lemma cfheaders_reply P k now t from ft stop prev hs s s' x : received_cfheaders P k now t from ft stop prev hs s = Val (s', x) ->
  let fh := f_height s in let tip := (f_tip P s).2 in
  (c_inflight s !! stop = None /\ c_filters s' = c_filters s /\ x = []) \/
  (is_Some (c_inflight s !! stop) /\
   ((malformed t fh tip ft stop prev hs /\ c_filters s' = c_filters s /\ x = [CoMisbehaved from]) \/
    (old_news t fh ft stop /\ c_filters s' = c_filters s /\ x = []) \/
    (elsewhere t fh tip ft stop prev /\ c_filters s' = c_filters s /\ x = [CoTimer 1000]) \/
    (well_formed t fh tip ft stop prev hs /\ c_filters s' = c_filters s ++ chain_headers P prev hs /\ (forall a, CoMisbehaved a ∉ x) /\
      (k_put k = None -> c_store s = c_filters s -> forall h, CoHeadersSynced h ∈ x <-> h = f_height s' /\ h = tr_height t)))).
Proof.
  cbn zeta. unfold received_cfheaders. destruct (c_inflight s !! stop) as [q|]; [|intros [= <- <-]; by left].
  intros E. right. split; [done|]. destruct (N.eqb_spec ft 0) as [->|Nf]; cbn [negb] in E.
  2: { injection E as <- <-. left. split; [by left|done]. }
  destruct (tr_get t stop) as [h|] eqn:T.
  2: { injection E as <- <-. left. split; [right; by left|done]. }
  match type of E with context [f_height ?q] => assert (Hq : f_height q = f_height s) by done end. rewrite Hq in E.
  match type of E with context [f_tip P ?q] => assert (Tq : f_tip P q = f_tip P s) by done end. rewrite Tq in E.
  destruct (N.leb_spec h (f_height s)) as [L|L].
  { injection E as <- <-. right. left. split; [|done]. split; [done|]. by exists h. }
  destruct (N.eqb_spec prev (f_tip P s).2) as [Ep|Np]; cbn [negb] in E.
  2: { injection E as <- <-. right. right. left. split; [|done]. split; [done|]. by exists h. }
  assert (M : ~ (1 <= lenN hs <= 2000 /\ f_height s + lenN hs = h) -> malformed t (f_height s) (f_tip P s).2 0 stop prev hs).
  { intros Y. right. right. by exists h. }
  destruct (N.ltb_spec max_cfheaders (lenN hs)) as [L2|L2].
  { injection E as <- <-. left. split; [|done]. apply M. unfold max_cfheaders in L2. lia. }
  destruct (N.eqb_spec (lenN hs) 0) as [L3|L3].
  { injection E as <- <-. left. split; [|done]. apply M. lia. }
  destruct (N.eqb_spec (h - f_height s) (lenN hs)) as [L4|L4]; cbn [negb] in E.
  2: { injection E as <- <-. left. split; [|done]. apply M. lia. }
  right. right. right. split.
  { split; [done|]. exists h. unfold max_cfheaders in L2. repeat split; try done; lia. }
  unfold f_import in E. destruct (k_put k) as [n|].
  { injection E as <- <-. split; [done|]. split; [|done]. intros a I%elem_of_list_singleton. done. }
  match type of E with mbind_M (headers_imported _ _ _ _ ?q) _ = _ => set (s1 := q) in E end. cbv beta in E.
  destruct (headers_imported k _ _ _ s1) as [[[s2 o2] e]|] eqn:E1; [|done]. cbn [mbind_M] in E.
  destruct e; [done|]. unfold assertM in E. destruct (_ <=? tr_height t); [|done].
  assert (Pd : Forall asking o2 /\ c_filters s2 = c_filters s ++ chain_headers P prev hs).
  { unfold headers_imported in E1. destruct (r_active _); [|injection E1 as <- <-; split; [constructor|done]].
    destruct (_ <? _); [injection E1 as <- <-; split; [constructor|done]|]. apply cfilters_asking in E1. exact E1. }
  destruct Pd as [Pd Pf].
  assert (Hh : c_store s = c_filters s -> lenN (c_store s1) = f_height s2).
  { intros St. unfold f_height. rewrite Pf. subst s1. cbn [c_store set_filters set_inflight]. by rewrite St. }
  change (c_store (set_inflight (delete stop (c_inflight s)) s)) with (c_store s) in E.
  destruct (N.eqb_spec (lenN (c_store s ++ chain_headers P prev hs)) (tr_height t)) as [Le|Le].
  - injection E as <- <-. split; [exact Pf|]. split.
    + intros a I. apply elem_of_app in I as [I|I%elem_of_list_singleton]; [|done]. refine (asking_not o2 _ Pd _ I). by intros [].
    + intros _ St h'. specialize (Hh St). change (c_store s1) with (c_store s ++ chain_headers P prev hs) in Hh. split.
      * intros I. apply elem_of_app in I as [I|I%elem_of_list_singleton]; [exfalso; refine (asking_not o2 _ Pd _ I); by intros []|]. injection I as ->. cbn [c_store set_filters set_inflight] in *. lia.
      * intros [-> Hx]. apply elem_of_app. right. apply elem_of_list_singleton. f_equal. by rewrite <- Hh.
  - destruct (sync _ _ _ _ _ _) as [[s3 o3]|] eqn:E3; [|done]. cbn [mbind_M] in E. injection E as <- <-.
    apply sync_asking in E3 as [A3 F3]. split; [congruence|]. assert (A : Forall asking (o2 ++ o3)) by (by apply Forall_app). split.
    + intros a. apply asking_not; [exact A|by intros []].
    + intros _ St h'. specialize (Hh St). change (c_store s1) with (c_store s ++ chain_headers P prev hs) in Hh. split.
      * intros I. exfalso. refine (asking_not _ _ A _ I). by intros [].
      * intros [-> Hx]. exfalso. apply Le. rewrite Hh, <- Hx. unfold f_height. by rewrite F3.
Qed.

(** ** Filters *)
Lemma cfilter_judged P cap i s s' x from ft hash f : cbf_ok P cap s -> step_on P i s = Val (s', x) -> i_op i = CCFilter from ft hash f ->
  (forall h, ft = 0 -> tr_get (i_tree i) hash = Some h -> authentic P s h f -> CoFilterReceived from hash h f ∈ x) /\
  (forall a, CoMisbehaved a ∈ x <-> a = from /\ ft = 0 /\ exists h, tr_get (i_tree i) hash = Some h /\ h <= f_height s /\ ~ authentic P s h f).
Proof.
  intros Ok E Op. unfold step_on, cbf_step in E. rewrite Op in E. unfold received_cfilter in E.
  destruct (N.eqb_spec ft 0) as [->|Nf]; cbn [negb] in E.
  2: { injection E as <- <-. split; [done|]. intros a. split; [by intros ?%elem_of_nil|]. by intros (_ & ? & _). }
  destruct (tr_get (i_tree i) hash) as [h|] eqn:T.
  2: { injection E as <- <-. split; [done|]. intros a. split; [by intros ?%elem_of_nil|]. by intros (_ & _ & ? & ? & _). }
  destruct (f_get P s h) as [[fhash header]|] eqn:G.
  2: { injection E as <- <-. unfold f_get in G. split.
       - intros h' _ [= <-] (a & b & A & _). congruence.
       - intros a. split; [by intros ?%elem_of_nil|]. intros (_ & _ & h' & [= <-] & L & _). apply lookup_ge_None in G. unfold f_entries in G. cbn [length] in G. unfold f_height, lenN in L. lia. }
  assert (Lh : h <= f_height s). { unfold f_get in G. apply lookup_lt_Some in G. unfold f_entries in G. cbn [length] in G. unfold f_height, lenN. lia. }
  destruct (f_prev P s h) as [prev|] eqn:Pv; [|done].
  assert (Au : authentic P s h f <-> p_header P (p_hash P f) prev = header).
  { unfold authentic, f_get in *. unfold f_prev in Pv. destruct (N.eqb_spec h 0) as [->|Nh].
    - injection Pv as <-. split.
      + intros (a & b & A & [[_ B]|(e & L & _)]); [|lia]. rewrite A in G. injection G as -> ->. done.
      + intros B. exists fhash, header. split; [done|]. by left.
    - unfold f_get in Pv. destruct (f_entries P s !! N.to_nat (h - 1)) as [e|] eqn:G'; [|done]. injection Pv as <-. split.
      + intros (a & b & A & [[Z _]|(e' & L & A' & B)]); [done|]. rewrite A in G. injection G as -> ->. injection A' as ->. done.
      + intros B. exists fhash, header. split; [done|]. right. exists e. split; [lia|done]. }
  destruct (N.eqb_spec (p_header P (p_hash P f) prev) header) as [Eh|Nh]; cbn [negb] in E.
  2: { injection E as <- <-. split; [intros h' _ [= <-] A; by apply Au in A|]. intros a. rewrite elem_of_list_singleton. split.
       - intros [= ->]. split; [done|]. split; [done|]. exists h. split; [done|]. split; [done|]. by rewrite Au.
       - by intros (-> & _). }
  assert (Fin : forall es o (q : bool) (z : list cout), (forall a, CoMisbehaved a ∉ es) -> (forall a, CoMisbehaved a ∉ o) -> (forall a, CoMisbehaved a ∉ z) -> x = CoFilterReceived from hash h f :: es ++ o ++ z ->
    (forall h0, 0 = 0 -> Some h = Some h0 -> authentic P s h0 f -> CoFilterReceived from hash h0 f ∈ x) /\
    (forall a, CoMisbehaved a ∈ x <-> a = from /\ 0 = 0 /\ exists h0, Some h = Some h0 /\ h0 <= f_height s /\ ~ authentic P s h0 f)).
  { intros es o q z N1 N2 N3 ->. split; [intros h0 _ [= <-] _; left|]. intros a. split.
    - intros I. apply elem_of_cons in I as [I|I]; [done|]. exfalso. apply elem_of_app in I as [I|I]; [by apply (N1 a)|]. apply elem_of_app in I as [I|I]; [by apply (N2 a)|by apply (N3 a)].
    - intros (_ & _ & h0 & [= <-] & _ & NA). by apply Au in Eh. }
  destruct (r_receive h f hash (c_rescan s)) as [[r requested]|]; [|done]. cbn [mbind_M] in E.
  assert (NW : forall ms p o pend, want_blocks ms pend = (p, o) -> forall a, CoMisbehaved a ∉ o).
  { intros ms p o pend Ew a I. assert (Z : Forall (fun o => exists b, o = CoGetBlock b) (want_blocks ms pend).2) by (clear; revert pend; induction ms as [|[h0 hash0] ms IH]; intros pend; cbn [want_blocks]; [constructor|];
      destruct (decide _); [apply IH|]; specialize (IH ({[h0]} ∪ pend)); destruct (want_blocks ms _); cbn [snd] in *; constructor; [by eexists|done]).
    rewrite Ew in Z. cbn [snd] in Z. rewrite Forall_forall in Z. by destruct (Z _ I). }
  assert (NS : forall (b : bool) v a, CoMisbehaved a ∉ (if b then [CoScanned v] else [])).
  { intros [] v a I; [by apply elem_of_list_singleton in I|by apply elem_of_nil in I]. }
  destruct requested.
  - destruct (r_process P r) as [[[r' ms] es]|] eqn:Pr; [|done]. cbn [mbind_M] in E.
    destruct (want_blocks ms _) as [p o] eqn:Ew. injection E as _ <-.
    eapply (Fin es o true); [|by eapply NW| |reflexivity].
    + intros a I. destruct (process_spec P r) as (r2 & ms2 & es2 & Pr' & Pq). rewrite Pr in Pr'. injection Pr' as <- <- <-. destruct Pq as [_ _ _ _ _ (l & _ & _ & ->) _]. apply elem_of_app in I as [I|I].
      * apply elem_of_lookup_imap in I as (j & [[g b] c] & X & _). done.
      * destruct (bool_decide _); [apply elem_of_list_singleton in I; done|by apply elem_of_nil in I].
    + intros a. destruct (decide _); [exact (NS true _ a)|exact (NS false 0 a)].
  - cbn [mbind_M want_blocks] in E. injection E as _ <-. eapply (Fin [] [] true); [intros a; apply not_elem_of_nil|intros a; apply not_elem_of_nil| |reflexivity].
    intros a. destruct (decide _); [exact (NS true _ a)|exact (NS false 0 a)].
Qed.

(** ** Timers *)
Lemma expire_keeps P k now hs : forall n s, let s' := (expire P k now n hs s).1 in
  c_rescan s' = c_rescan s /\ c_filters s' = c_filters s /\ c_processed s' = c_processed s /\
  (forall h, is_Some (c_inflight s !! h) -> is_Some (c_inflight s' !! h)) /\ (c_peers s <> ∅ -> c_peers s' <> ∅).
Proof.
  induction hs as [|h hs IH]; intros n s; cbn [expire]; [done|].
  set (m := match c_inflight s !! h with Some _ => _ | None => _ end).
  assert (X : c_rescan m.1 = c_rescan s /\ c_filters m.1 = c_filters s /\ c_processed m.1 = c_processed s /\
    (forall h, is_Some (c_inflight s !! h) -> is_Some (c_inflight m.1 !! h)) /\ (c_peers s <> ∅ -> c_peers m.1 <> ∅)).
  { unfold m. destruct (c_inflight s !! h) as [[[start addr] e]|] eqn:E; [|done]. destruct (e <=? now); [|done].
    destruct (sample_peer (k_sample k n) (c_peers s)) as [[a pe]|] eqn:Sa; [|done].
    assert (Ins : forall s0 q, c_inflight s0 = c_inflight s -> forall h0, is_Some (c_inflight s !! h0) -> is_Some (c_inflight (set_inflight (<[h:=q]> (c_inflight s0)) s0) !! h0)).
    { intros s0 q E0 h0 Hh. cbn [c_inflight set_inflight]. rewrite E0. destruct (decide (h = h0)) as [->|Ne]; [rewrite lookup_insert; by eexists|by rewrite lookup_insert_ne]. }
    destruct (N.eqb_spec a addr) as [->|Na]; cbn [negb andb fst].
    - do 3 (split; [done|]). split; [by apply Ins|done].
    - destruct pe; cbn [negb]; do 3 (split; [done|]); (split; [by apply Ins|]); [done|]. intros _. cbn. intros Z.
      unfold sample_peer in Sa. apply elem_of_list_lookup_2, elem_of_map_to_list in Sa.
      assert (Y : delete addr (c_peers s) !! a = Some false) by (by rewrite lookup_delete_ne). rewrite Z in Y. done. }
  destruct m as [s1 o]. cbn [fst] in X. specialize (IH (Datatypes.S n) s1). destruct (expire P k now (Datatypes.S n) hs s1) as [s2 o2]. cbn [fst] in *.
  destruct X as (X1 & X2 & X3 & X4 & X5), IH as (Y1 & Y2 & Y3 & Y4 & Y5).
  split; [congruence|]. split; [congruence|]. split; [congruence|]. split; [intros h0 Hh; by apply Y4, X4|intros Pe; by apply Y5, X5].
Qed.

(** What is asked for when filters are asked for. *)
Lemma cfilters_ask o a b t s s' x e h : (forall l, o l ≡ₚ l) -> f_height s <= tr_height t -> c_peers s <> ∅ -> get_cfilters o a b t s = Val (s', x, e) ->
  a <= h <= b -> ~ held s h -> h ∉ r_requested (c_rescan s) -> (1 <= count (asks_filter t h) x)%nat.
Proof.
  intros O L Pe E Lh Nh Nr. unfold get_cfilters in E. rewrite decide_False in E by exact Pe.
  destruct (N.ltb_spec b a); [lia|]. unfold assertM in E. destruct (N.leb_spec b (f_height s)); [|done].
  destruct (requests_spec a b t (c_rescan s)) as (r' & rs & Er & A & F & C & Rq & Rv & _). rewrite Er in E. cbn [mbind_M] in E.
  destruct (ask_all o t (c_peers s) rs) with (i := 0%nat) as (x' & Ea & F2).
  { intros Em. specialize (O (fst <$> map_to_list (c_peers s))). rewrite Em in O. apply Permutation_nil in O. apply fmap_nil_inv, map_to_list_empty_iff in O. done. }
  { apply Forall_forall. intros [p q] I. cbn. apply tr_at_some. rewrite Forall_forall in F. specialize (F _ I). cbn in F.
    assert (Cy : covered rs q) by (exists p, q; split; [done|lia]). apply C in Cy. lia. }
  rewrite Ea in E. injection E as <- <- <-. assert (D : covered rs h).
  { apply C. split; [done|]. split; [|done]. apply with_cached_none; [done|]. intros [Z|[Z _]]; apply Nh; [by left|by right]. }
  destruct D as (p & q & I & Lp).
  apply elem_of_list_lookup in I as [j J]. destruct (Forall2_lookup_r _ _ _ _ _ F2 J) as (y & Y & pr & hash & -> & T). cbn in T.
  eapply count_pos; [by eapply elem_of_list_lookup_2|]. cbn. apply andb_true_iff. split; [apply N.leb_le; lia|]. apply bool_decide_eq_true.
  unfold tr_at in T. apply elem_of_list_lookup. exists (N.to_nat q - N.to_nat h)%nat. rewrite lookup_drop. by replace (N.to_nat h + (N.to_nat q - N.to_nat h))%nat with (N.to_nat q) by lia.
Qed.
Lemma ask_nth o t peers rs : forall i j y, (ask_ranges o t peers i rs).1 !! j = Some y ->
  exists p a b hash, y = CoGetCFilters p a hash /\ rs !! j = Some (a, b) /\ tr_at t b = Some hash /\ cycle_peer o peers (i + j) = Some p.
Proof.
  induction rs as [|[a b] rs IH]; intros i j y; cbn [ask_ranges]; [done|]. destruct (cycle_peer o peers i) as [p|] eqn:C; [|done].
  destruct (tr_at t b) as [hash|] eqn:T; [|done]. specialize (IH (Datatypes.S i)). destruct (ask_ranges o t peers (Datatypes.S i) rs) as [os e]. cbn [fst] in *.
  destruct j as [|j]; cbn [lookup list_lookup].
  - intros [= <-]. exists p, a, b, hash. by rewrite Nat.add_0_r.
  - intros E. destruct (IH _ _ E) as (p' & a' & b' & hash' & X1 & X2 & X3 & X4). exists p', a', b', hash'. by rewrite Nat.add_succ_r.
Qed.
Lemma cfilters_nth o a b t s s' x e j y : get_cfilters o a b t s = Val (s', x, e) -> x !! j = Some y ->
  exists p start last stop, y = CoGetCFilters p start stop /\ tr_at t last = Some stop /\ a <= start <= last /\ last <= b /\ last - start < 1000 /\
    (forall h, start <= h <= last -> ~ at_hand t (c_rescan s) h /\ h ∉ r_requested (c_rescan s)) /\ cycle_peer o (c_peers s) j = Some p.
Proof.
  intros E J. unfold get_cfilters in E. destruct (decide _) as [|Pe]; [injection E as <- <- <-; done|].
  destruct (N.ltb_spec b a); [injection E as <- <- <-; done|]. unfold assertM in E. destruct (N.leb_spec b (f_height s)); [|done].
  destruct (requests_spec a b t (c_rescan s)) as (r' & rs & Er & A & F & C & Rq & Rv & _). rewrite Er in E. cbn [mbind_M] in E.
  destruct (ask_ranges o t (c_peers s) 0 rs) as [os e'] eqn:Ea. injection E as <- <- <-.
  destruct (ask_nth o t (c_peers s) rs 0 j y) as (p & st & la & hash & -> & R & T & Cy); [by rewrite Ea|].
  rewrite Forall_forall in F. pose proof (elem_of_list_lookup_2 _ _ _ R) as I. specialize (F _ I). cbn in F.
  assert (Cov : forall h, st <= h <= la -> covered rs h) by (intros h Lh; by exists st, la).
  pose proof (proj1 (C st) (Cov st (conj (N.le_refl _) (proj1 F)))). pose proof (proj1 (C la) (Cov la (conj (proj1 F) (N.le_refl _)))).
  exists p, st, la, hash. split; [done|]. split; [done|]. split; [lia|]. split; [lia|]. split; [lia|]. split; [|done].
  intros h Lh. destruct (proj1 (C h) (Cov h Lh)) as (Z1 & Z2 & Z3). split; [|done]. by apply (with_cached_none t a b).
Qed.
Lemma cycle_in o peers j p : (forall l, o l ≡ₚ l) -> cycle_peer o peers j = Some p -> p ∈ dom peers.
Proof.
  intros O C. unfold cycle_peer in C. apply elem_of_list_lookup_2 in C. rewrite O in C. apply elem_of_list_fmap in C as ([q v] & -> & I).
  apply elem_of_map_to_list in I. by eapply elem_of_dom_2.
Qed.
Lemma cycle_same o peers j j' p p' : (forall l, o l ≡ₚ l) -> cycle_peer o peers j = Some p -> cycle_peer o peers j' = Some p' ->
  p = p' <-> (j mod size (dom peers) = j' mod size (dom peers))%nat.
Proof.
  intros O. unfold cycle_peer. set (l := o _).
  assert (Nd : NoDup l) by (unfold l; rewrite O; apply NoDup_fst_map_to_list).
  assert (Le : length l = size (dom peers)).
  { unfold l. rewrite O, fmap_length. by rewrite size_dom. }
  destruct (decide (l = [])) as [->|Ne]; [done|]. assert (0 < length l)%nat by (destruct l; [done|cbn; lia]).
  replace (Nat.max 1 (length l)) with (length l) by lia. rewrite <- Le. intros C C'. split.
  - intros <-. by eapply NoDup_lookup.
  - intros Em. rewrite Em in C. congruence.
Qed.

Lemma timer_asks_filters P i s s' x h : complete i -> c_peers s <> ∅ -> cbf_timer P (i_k i) (i_now i) (i_tree i) s = Val (s', x) ->
  f_height s <= tr_height (i_tree i) -> 6000 <= i_now i - default 0 (c_processed s) -> r_active (c_rescan s) = true -> r_current (c_rescan s) <= h <= f_height s -> ~ held s h ->
  (1 <= count (asks_filter (i_tree i) h) x)%nat.
Proof.
  intros Co Pe E Lt Lp Ac Lh Nh. unfold cbf_timer in E.
  destruct (idle_spec P (i_k i) (i_now i) (i_tree i) s) as [[_ E1]|(s1 & o1 & E1 & Q & Pe1)]; rewrite E1 in E; [done|]. cbn [mbind_M] in E.
  assert (Pp : c_processed s1 = c_processed s).
  { apply idle_view in E1 as [(_ & -> & _)|(_ & s0 & o & Sy & -> & _)]; [done|]. by apply sync_calm in Sy as [(_ & _ & _ & ?) _]. }
  pose proof (expire_keeps P (i_k i) (i_now i) (k_order (i_k i) 3 (map_to_list (c_inflight s1)).*1) 0 s1) as X.
  destruct (expire P (i_k i) (i_now i) 0 _ s1) as [s2 o2]. cbn [fst] in X. cbn zeta in X. destruct X as (X1 & X2 & X3 & _ & X5).
  destruct (q_scan _ _ _ _ Q) as (Qa & Qc & _ & _ & _). pose proof (q_filters _ _ _ _ Q) as Qf.
  rewrite X3, Pp, X1, Qa, Ac in E. unfold default_request_timeout in E. destruct (N.leb_spec 6000 (i_now i - default 0 (c_processed s))); [|lia]. cbn [andb] in E.
  destruct (get_cfilters _ _ _ _ _) as [[[s3 o3] e]|] eqn:G; [|done]. cbn [mbind_M] in E. injection E as <- <-.
  assert (Hf : f_height s2 = f_height s) by (unfold f_height; by rewrite X2, Qf).
  rewrite !count_app. enough (1 <= count (asks_filter (i_tree i) h) o3)%nat by lia. eapply cfilters_ask; [intros l; apply Co| | |exact G|..].
  - exact (N.le_trans _ _ _ (N.eq_le_incl _ _ Hf) Lt).
  - cbn [c_peers set_rescan]. apply X5. by rewrite Pe1.
  - cbn [c_rescan set_rescan r_reset r_current]. rewrite Qc. change (f_height (set_rescan (r_reset (c_rescan s1)) s2)) with (f_height s2). rewrite Hf. exact Lh.
  - intros Hd. apply Nh. eapply quiet_held; [exact Q|]. exact Hd.
  - cbn. apply not_elem_of_empty.
Qed.

Lemma reach_heights P cap st ins s outs old i s' x : chained P ((p_genesis P, p_header P (p_genesis P) 0) :: st) -> lenN st <= tr_height old ->
  cbf_reach P cap st ins s outs -> faithful old (ins ++ [i]) -> Forall io_ok (ins ++ [i]) -> step_on P i s = Val (s', x) ->
  f_height s <= tr_height (final_tree old ins) /\ c_store s = c_filters s /\ env_ok (final_tree old ins) i.
Proof.
  intros C Lo R F Io E. apply faithful_snoc in F as [F Ev]. apply Forall_app in Io as [Io _].
  destruct (run_heights P cap ins old _ s outs (cbf0_ok P cap st C) eq_refl Lo F Io R) as (H1 & H2 & _). done.
Qed.

Lemma run_join P ins1 : forall ins2 s s1 xs1 s2 xs2, cbf_run P ins1 s = Val (s1, xs1) -> cbf_run P ins2 s1 = Val (s2, xs2) ->
  cbf_run P (ins1 ++ ins2) s = Val (s2, xs1 ++ xs2).
Proof.
  induction ins1 as [|i ins1 IH]; intros ins2 s s1 xs1 s2 xs2; cbn [app cbf_run]; [by intros [= <- <-]|].
  destruct (step_on P i s) as [[s3 x]|]; [cbn [mbind_M]|done]. destruct (cbf_run P ins1 s3) as [[s4 ys]|] eqn:R; [cbn [mbind_M]|done].
  intros [= <- <-] R2. rewrite (IH _ _ _ _ _ _ R R2). done.
Qed.
Lemma scan_outs_running x : forall sc sc', scan_outs sc x = Some sc' -> (forall k, CoRescanStopped k ∉ x) -> sc_running sc = true -> sc_running sc' = true.
Proof.
  induction x as [|o x IH]; intros sc sc'; cbn [scan_outs]; [by intros [= <-]|].
  destruct (scan_out sc o) as [sc1|] eqn:E; [|done]. intros S NS A. apply (IH _ _ S); [intros k I; apply (NS k); by right|].
  destruct o; cbn in E; try (injection E as <-; done).
  - destruct (_ =? _); [|done]. by injection E as <-.
  - exfalso. apply (NS height). left.
Qed.
Lemma rescan_active P cap i ins s s1 start stop y s' xs from to watch : cbf_ok P cap s -> i_op i = CRescan from to watch ->
  step_on P i s = Val (s1, CoRescanStarted start stop :: y) -> cbf_run P ins s1 = Val (s', xs) -> Forall scan_goes_on ins ->
  (forall k, CoRescanStopped k ∉ y ++ concat xs) -> r_active (c_rescan s') = true.
Proof.
  intros Ok Op E R G NS. destruct (run_goes_on P cap ins s1 s' xs (step_ok _ _ _ _ _ _ Ok E) R G) as [S1 _].
  assert (K : keeps_genesis i) by (unfold keeps_genesis; by rewrite Op).
  pose proof (step_scan P cap i s s1 _ Ok E K) as X. cbn [scan_outs scan_out] in X.
  assert (Y : scan_outs (Scan start start true) (y ++ concat xs) = Some (scan_of s')) by (rewrite scan_outs_app, X; exact S1).
  exact (scan_outs_running _ _ _ Y NS eq_refl).
Qed.

(** A scan that makes no progress asks for its filters again. *)
Lemma filters_again P cap st ins0 s0 outs0 i s1 x ins s' xs i' s2 x' from to watch start stop y h old :
  chained P ((p_genesis P, p_header P (p_genesis P) 0) :: st) -> lenN st <= tr_height old -> cbf_reach P cap st ins0 s0 outs0 ->
  i_op i = CRescan from to watch -> step_on P i s0 = Val (s1, x) -> cbf_run P ins s1 = Val (s', xs) -> step_on P i' s' = Val (s2, x') ->
  i_op i' = CTimer -> complete i' -> Forall scan_goes_on ins -> faithful old ((ins0 ++ i :: ins) ++ [i']) -> Forall io_ok ((ins0 ++ i :: ins) ++ [i']) ->
  x = CoRescanStarted start stop :: y -> (forall k, CoRescanStopped k ∉ y ++ concat xs) ->
  6000 <= i_now i' - default 0 (since_when moved_step (ins0 ++ i :: ins) (outs0 ++ x :: xs) None) ->
  w_peers (watches (ins0 ++ i :: ins) (outs0 ++ x :: xs) watch0) <> ∅ ->
  start + lenN (processed_heights (y ++ concat xs)) <= h <= f_height s' -> never_received h (outs0 ++ x :: xs) ->
  (1 <= count (asks_filter (i_tree i') h) x')%nat.
Proof.
  intros C Lo R0 Op E R E' Op' Co G Fa Io Ex NS Lp NE Lh Nr.
  assert (R1 : cbf_reach P cap st (ins0 ++ i :: ins) s' (outs0 ++ x :: xs)).
  { unfold cbf_reach in *. apply (run_join P ins0 (i :: ins) _ s0 outs0 s' (x :: xs) R0). cbn [cbf_run]. rewrite E. cbn [mbind_M]. by rewrite R. }
  pose proof (reach_ok P cap st ins0 s0 outs0 C R0) as Ok0.
  destruct (rescan_consecutive P cap i ins s0 s1 x s' xs from to watch Ok0 Op E R G) as (start' & stop' & y' & n & X1 & X2 & _ & X4).
  rewrite Ex in X1. injection X1 as <- <- <-. rewrite X2 in Lh. unfold heights_from, lenN in Lh. rewrite fmap_length, seq_length in Lh.
  destruct (reach_viewed P cap st _ _ _ R1) as (_ & _ & _ & V). rewrite <- V in Lp.
  pose proof (run_watch P _ _ _ _ _ (agrees0 P cap st) R1) as A. pose proof (agrees_peers P _ _ A NE) as Pe.
  destruct (reach_heights P cap st _ _ _ old i' s2 x' C Lo R1 Fa Io E') as (Hh & _ & Ev).
  assert (Et : i_tree i' = final_tree old (ins0 ++ i :: ins)) by (unfold env_ok in Ev; by rewrite Op' in Ev).
  rewrite <- Et in Hh. unfold step_on, cbf_step in E'. rewrite Op' in E'.
  eapply (timer_asks_filters P i' s' s2 x' h Co Pe E' Hh Lp); [|rewrite X4; exact Lh|exact (never_held P cap st _ _ _ h C R1 Nr)].
  rewrite Ex in E. exact (rescan_active P cap i ins s0 s1 start stop y s' xs from to watch Ok0 Op E R G NS).
Qed.

(** What a rescan asks for. *)
Lemma rescan_asks P cap st ins s outs old i s' x from to watch : chained P ((p_genesis P, p_header P (p_genesis P) 0) :: st) -> lenN st <= tr_height old ->
  cbf_reach P cap st ins s outs -> faithful old (ins ++ [i]) -> Forall io_ok (ins ++ [i]) -> step_on P i s = Val (s', x) ->
  i_op i = CRescan from to watch -> complete i ->
  exists start stop y, x = CoRescanStarted start stop :: y /\
    (forall h, watch <> [] -> w_peers (watches ins outs watch0) <> ∅ -> start <= h -> h <= f_height s -> (forall e, stop = Some e -> h <= e) -> never_received h outs ->
      (1 <= count (asks_filter (i_tree i) h) x)%nat) /\
    (forall p a hash, CoGetCFilters p a hash ∈ x -> p ∈ w_peers (watches ins outs watch0) /\
      exists b, tr_at (i_tree i) b = Some hash /\ start <= a <= b /\ b <= f_height s /\ (forall e, stop = Some e -> b <= e) /\ b - a < 1000).
Proof.
  intros C Lo R Fa Io E Op Co. destruct (reach_heights P cap st _ _ _ old i s' x C Lo R Fa Io E) as (Hh & _ & Ev).
  assert (Et : i_tree i = final_tree old ins) by (unfold env_ok in Ev; by rewrite Op in Ev). rewrite <- Et in Hh. clear Et Ev.
  pose proof (run_watch P _ _ _ _ _ (agrees0 P cap st) R) as A. unfold step_on, cbf_step in E. rewrite Op in E. unfold cbf_rescan in E.
  match type of E with context [r_restart ?a ?b watch _] => set (start := a) in E; set (stop := b) in E end.
  set (s1 := set_rescan (r_restart start stop watch (c_rescan s)) s) in E. cbn zeta in E.
  assert (W1 : r_watch (c_rescan s1) = list_to_set watch) by reflexivity. assert (Hf : f_height s1 = f_height s) by reflexivity.
  assert (Q1 : r_requested (c_rescan s1) = ∅) by reflexivity. assert (P1 : c_peers s1 = c_peers s) by reflexivity.
  assert (D1 : forall h, held s1 h -> held s h) by (intros h Z; exact Z). clearbody s1.
  exists start, stop. destruct (decide (r_watch (c_rescan s1) = ∅)) as [We|We].
  { injection E as <- <-. exists []. split; [done|]. split.
    - intros h Wn. exfalso. apply Wn. destruct watch as [|a l]; [done|]. exfalso. cut (a ∈ (∅ : gset N)); [apply not_elem_of_empty|]. rewrite <- We, W1. apply elem_of_list_to_set. left.
    - intros p a hash I%elem_of_list_singleton. done. }
  set (la := match stop with Some h => N.min h (f_height s1) | None => f_height s1 end) in E.
  assert (La : forall h, h <= la <-> h <= f_height s /\ forall e, stop = Some e -> h <= e).
  { intros h. unfold la. rewrite Hf. destruct stop as [e|]; split.
    - intros L. split; [lia|]. intros e' [= <-]. lia.
    - intros [L1 L2]. specialize (L2 e eq_refl). lia.
    - intros L. by split.
    - by intros [L _]. }
  destruct (N.ltb_spec la start) as [Ll|Ll].
  { injection E as <- <-. exists []. split; [done|]. split.
    - intros h _ _ L1 L2 L3. exfalso. assert (h <= la) by (by apply La). lia.
    - intros p a hash I%elem_of_list_singleton. done. }
  destruct (get_cfilters (k_order (i_k i) 0) start la (i_tree i) s1) as [[[s2 o] e]|] eqn:G; [|done]. cbn [mbind_M] in E.
  assert (X : exists r ms es, r_process P (c_rescan s2) = Val (r, ms, es) /\ x = CoRescanStarted start stop :: (o ++ es ++ (CoGetBlock <$> ms.*2))).
  { destruct e as [[]|]; [done| |]; (destruct (r_process P (c_rescan s2)) as [[[r ms] es]|] eqn:Pr; [|done]; cbn [mbind_M] in E; injection E as _ <-; by exists r, ms, es). }
  destruct X as (r & ms & es & Pr & ->). clear E. eexists. split; [reflexivity|]. split.
  - intros h _ NE L1 L2 L3 Nr. pose proof (agrees_peers P _ _ A NE) as Pe.
    pose proof (never_held P cap st ins s outs h C R Nr) as Nh.
    assert (1 <= count (asks_filter (i_tree i) h) o)%nat.
    { rewrite <- Hf in Hh. rewrite <- P1 in Pe. refine (cfilters_ask _ _ _ _ _ _ _ _ h _ Hh Pe G _ _ _); [intros l; apply Co|split; [exact L1|by apply La]|intros Z; apply Nh, D1, Z|].
      rewrite Q1. apply not_elem_of_empty. }
    change (CoRescanStarted start stop :: o ++ es ++ (CoGetBlock <$> ms.*2)) with ([CoRescanStarted start stop] ++ o ++ es ++ (CoGetBlock <$> ms.*2)). rewrite !count_app. lia.
  - intros p a hash I. apply elem_of_cons in I as [I|I]; [done|]. apply elem_of_app in I as [I|I].
    + apply elem_of_list_lookup in I as [j J]. destruct (cfilters_nth _ _ _ _ _ _ _ _ _ _ G J) as (p' & st' & last & hash' & [= <- <- <-] & T & L1 & L2 & L3 & _ & Cy).
      destruct (proj1 (La last) L2) as [L4 L5]. split; [|by exists last].
      rewrite P1 in Cy. rewrite <- (proj1 A). eapply (cycle_in _ (c_peers s)); [intros l; apply Co|exact Cy].
    + exfalso. apply elem_of_app in I as [I|I]; [|apply elem_of_list_fmap in I as (? & ? & _); done].
      destruct (process_spec P (c_rescan s2)) as (r2 & ms2 & es2 & Pr' & Pq). rewrite Pr in Pr'. injection Pr' as <- <- <-.
      destruct Pq as [_ _ _ _ _ (l & _ & _ & ->) _]. apply elem_of_app in I as [I|I].
      * apply elem_of_lookup_imap in I as (j & [[g b] c] & X & _). done.
      * destruct (bool_decide _); [apply elem_of_list_singleton in I; done|by apply elem_of_nil in I].
Qed.

(** Consecutive requests go to different peers in turn. *)
Lemma requests_spread P cap st ins s outs i s' x a b j j' p p' st1 st2 h1 h2 : cbf_reach P cap st ins s outs -> step_on P i s = Val (s', x) ->
  i_op i = CRequestFilters a b -> complete i -> x !! j = Some (CoGetCFilters p st1 h1) -> x !! j' = Some (CoGetCFilters p' st2 h2) ->
  let n := size (w_peers (watches ins outs watch0)) in p ∈ w_peers (watches ins outs watch0) /\ (p = p' <-> (j mod n = j' mod n)%nat).
Proof.
  intros R E Op Co J J'. cbn zeta. pose proof (run_watch P _ _ _ _ _ (agrees0 P cap st) R) as [A _]. rewrite <- A.
  unfold step_on, cbf_step in E. rewrite Op in E. destruct (get_cfilters _ _ _ _ _) as [[[s1 o] e]|] eqn:G; [|done]. cbn [mbind_M] in E.
  assert (X : exists z, x = o ++ [CoReply z]) by (injection E as _ <-; by eexists). destruct X as [z ->].
  assert (Y : forall j y, (o ++ [CoReply z]) !! j = Some y -> (exists q c d, y = CoGetCFilters q c d) -> o !! j = Some y).
  { intros k y K (q & c & d & ->). apply lookup_app_Some in K as [K|[_ K]]; [done|]. destruct (k - length o)%nat as [|[]]; done. }
  apply Y in J; [|by eexists _, _, _]. apply Y in J'; [|by eexists _, _, _].
  destruct (cfilters_nth _ _ _ _ _ _ _ _ _ _ G J) as (q & ? & ? & ? & [= <- _ _] & _ & _ & _ & _ & _ & Cy).
  destruct (cfilters_nth _ _ _ _ _ _ _ _ _ _ G J') as (q' & ? & ? & ? & [= <- _ _] & _ & _ & _ & _ & _ & Cy').
  split; [by eapply cycle_in; [intros l; apply Co|exact Cy]|]. eapply cycle_same; [intros l; apply Co|exact Cy|exact Cy'].
Qed.

(** ** From outside *)
Lemma headers_replied P cap st ins s outs i s' x from ft stop prev hs : cbf_reach P cap st ins s outs -> step_on P i s = Val (s', x) ->
  i_op i = CCFHeaders from ft stop prev hs ->
  let t := i_tree i in let fh := f_height s in let tip := (f_tip P s).2 in
  (w_asked (watches ins outs watch0) !! stop = None /\ c_filters s' = c_filters s /\ x = []) \/
  (is_Some (w_asked (watches ins outs watch0) !! stop) /\
   ((malformed t fh tip ft stop prev hs /\ c_filters s' = c_filters s /\ x = [CoMisbehaved from]) \/
    (old_news t fh ft stop /\ c_filters s' = c_filters s /\ x = []) \/
    (elsewhere t fh tip ft stop prev /\ c_filters s' = c_filters s /\ x = [CoTimer 1000]) \/
    (well_formed t fh tip ft stop prev hs /\ (forall a, CoMisbehaved a ∉ x) /\ exists es, c_filters s' = c_filters s ++ es /\ es.*1 = hs))).
Proof.
  intros R E Op. cbn zeta. unfold step_on, cbf_step in E. rewrite Op in E. pose proof (run_watch P _ _ _ _ _ (agrees0 P cap st) R) as [_ A]. specialize (A stop).
  destruct (cfheaders_reply _ _ _ _ _ _ _ _ _ _ _ _ E) as [(H1 & H2 & H3)|([q Hq] & H)].
  - left. rewrite H1 in A. destruct (w_asked _ !! stop); [done|]. done.
  - right. rewrite Hq in A. split; [destruct (w_asked _ !! stop); [by eexists|done]|].
    destruct H as [H|[H|[H|(H1 & H2 & H3 & _)]]]; [by left|right; by left|right; right; by left|].
    right. right. right. split; [exact H1|]. split; [exact H3|]. exists (chain_headers P prev hs). split; [exact H2|]. apply chain_headers_fst.
Qed.
Definition not_synced (o : cout) : Prop := match o with CoHeadersSynced _ => False | _ => True end.
Lemma asking_unsynced x : Forall asking x -> Forall not_synced x.
Proof. intros F. eapply Forall_impl; [exact F|]. by intros []. Qed.
Lemma processes_unsynced P r r' ms es : processes P r r' ms es -> Forall not_synced es.
Proof.
  intros [_ _ _ _ _ (l & _ & _ & ->) _]. apply Forall_app. split.
  - apply Forall_forall. intros o I. apply elem_of_lookup_imap in I as (j & [[g b] c] & -> & _). done.
  - destruct (bool_decide _); by repeat constructor.
Qed.
Lemma expire_unsynced P k now hs : forall n s, Forall not_synced (expire P k now n hs s).2.
Proof.
  induction hs as [|h hs IH]; intros n s; cbn [expire]; [constructor|].
  set (m := match c_inflight s !! h with Some _ => _ | None => _ end).
  assert (X : Forall not_synced m.2).
  { unfold m. destruct (c_inflight s !! h) as [[[start addr] e]|]; [|constructor]. destruct (e <=? now); [|constructor].
    destruct (sample_peer _ _) as [[a pe]|]; [|constructor]. cbn [snd]. destruct (_ && _); by repeat constructor. }
  destruct m as [s1 o]. cbn [snd] in X. specialize (IH (Datatypes.S n) s1). destruct (expire P k now (Datatypes.S n) hs s1) as [s2 o2]. cbn [snd] in *. by apply Forall_app.
Qed.
Lemma want_unsynced ms : forall pend, Forall not_synced (want_blocks ms pend).2.
Proof.
  induction ms as [|[h hash] ms IH]; intros pend; cbn [want_blocks]; [constructor|]. destruct (decide _); [apply IH|].
  specialize (IH ({[h]} ∪ pend)). destruct (want_blocks ms _). cbn [snd] in *. by constructor.
Qed.
Lemma idle_unsynced P k now t s s' x : idle P k now t s = Val (s', x) -> Forall not_synced x.
Proof.
  intros E. apply idle_view in E as [(_ & _ & ->)|(_ & s1 & o & Sy & _ & ->)]; [constructor|]. apply sync_asking in Sy as [Sy _].
  apply Forall_app. split; [by apply asking_unsynced|by repeat constructor].
Qed.
Lemma synced_op P i s s' x h : step_on P i s = Val (s', x) -> CoHeadersSynced h ∈ x ->
  exists from ft stop prev hs, i_op i = CCFHeaders from ft stop prev hs.
Proof.
  intros E I. unfold step_on in E. destruct (i_op i) as [|addr ob fl pe|addr|block hh|hh|rv|tx|tx ou|from ft st pv hs|from ft a st|from ft ha f| |scr|tx ou|fr to w|a b]; cbn [cbf_step] in E.
  9: { by exists from, ft, st, pv, hs. }
  all: exfalso; cut (Forall not_synced x); [intros F; rewrite Forall_forall in F; exact (F _ I)|]; clear I.
  - by eapply idle_unsynced.
  - unfold cbf_negotiated in E. destruct (_ && _); [|injection E as _ <-; constructor]. apply sync_asking in E as [E _]. by apply asking_unsynced.
  - injection E as _ <-. constructor.
  - destruct (decide _); injection E as _ <-; by repeat constructor.
  - injection E as _ <-. constructor.
  - match type of E with mbind_M ?m _ = _ => destruct m as [[s1 o1]|] eqn:E1; [|done] end. cbn [mbind_M] in E.
    destruct (sync _ _ _ _ _ _) as [[s2 o2]|] eqn:E2; [|done]. cbn [mbind_M] in E. injection E as _ <-. apply sync_asking in E2 as [E2 _].
    apply Forall_app. split; [|by apply asking_unsynced]. destruct (last rv) as [h'|]; [|injection E1 as _ <-; constructor].
    destruct (cbf_rollback _ _ _) as [[s3 []]|]; [| |done]; cbn [mbind_M] in E1; injection E1 as _ <-; by repeat constructor.
  - injection E as _ <-. constructor.
  - injection E as _ <-. constructor.
  - unfold received_getcfheaders in E. destruct (negb _); [injection E as _ <-; by repeat constructor|]. destruct (tr_get _ _); [|injection E as _ <-; constructor].
    destruct (f_range _ _ _ _); [injection E as _ <-; constructor|]. destruct (f_prev _ _ _); [injection E as _ <-; by repeat constructor|done].
  - unfold received_cfilter in E. destruct (negb _); [injection E as _ <-; constructor|]. destruct (tr_get _ _) as [hh|]; [|injection E as _ <-; constructor].
    destruct (f_get _ _ _) as [[fa fb]|]; [|injection E as _ <-; constructor]. destruct (f_prev _ _ _); [|done]. destruct (negb _); [injection E as _ <-; by repeat constructor|].
    destruct (r_receive _ _ _ _) as [[r rq]|]; [|done]. cbn [mbind_M] in E.
    match type of E with mbind_M ?m _ = _ => destruct m as [[[s1 ms] es]|] eqn:E1; [|done] end. cbn [mbind_M] in E.
    pose proof (want_unsynced ms (c_pending s1)) as W. destruct (want_blocks ms _) as [p o]. cbn [snd] in W. injection E as _ <-.
    constructor; [done|]. apply Forall_app. split; [|apply Forall_app; split; [done|destruct (decide _); by repeat constructor]].
    destruct rq; [|injection E1 as _ _ <-; constructor]. destruct (process_spec P r) as (r2 & ms2 & es2 & Pr & Pq). rewrite Pr in E1. cbn [mbind_M] in E1.
    injection E1 as _ _ <-. by eapply processes_unsynced.
  - unfold cbf_timer in E. destruct (idle _ _ _ _ _) as [[s1 o1]|] eqn:E1; [|done]. cbn [mbind_M] in E. apply idle_unsynced in E1.
    pose proof (expire_unsynced P (i_k i) (i_now i) (k_order (i_k i) 3 (fst <$> map_to_list (c_inflight s1))) 0 s1) as X. destruct (expire _ _ _ _ _ _) as [s2 o2]. cbn [snd] in X.
    destruct (_ && _); [|injection E as _ <-; by apply Forall_app].
    destruct (get_cfilters _ _ _ _ _) as [[[s3 o3] e]|] eqn:G; [|done]. cbn [mbind_M] in E. injection E as _ <-. apply cfilters_asking in G as [G _]. apply asking_unsynced in G.
    by repeat (apply Forall_app; split).
  - injection E as _ <-. constructor.
  - injection E as _ <-. constructor.
  - unfold cbf_rescan in E. destruct (decide _); [injection E as _ <-; by repeat constructor|]. destruct (_ <? _); [injection E as _ <-; by repeat constructor|].
    destruct (get_cfilters _ _ _ _ _) as [[[s3 o3] e]|] eqn:G; [|done]. cbn [mbind_M] in E. apply cfilters_asking in G as [G _]. apply asking_unsynced in G.
    destruct (process_spec P (c_rescan s3)) as (r & ms & es & Ep & Pr). rewrite Ep in E. cbn [mbind_M] in E. apply processes_unsynced in Pr.
    assert (F2 : Forall not_synced (CoGetBlock <$> ms.*2)) by (apply Forall_fmap, Forall_true; done).
    destruct e as [[]|]; [done| |]; injection E as _ <-; (constructor; [done|]); by repeat (apply Forall_app; split).
  - destruct (get_cfilters _ _ _ _ _) as [[[s3 o3] e]|] eqn:G; [|done]. cbn [mbind_M] in E. injection E as _ <-. apply cfilters_asking in G as [G _].
    apply Forall_app. split; [by apply asking_unsynced|by repeat constructor].
Qed.
Lemma headers_synced P cap st ins s outs old i s' x h : chained P ((p_genesis P, p_header P (p_genesis P) 0) :: st) -> lenN st <= tr_height old ->
  cbf_reach P cap st ins s outs -> faithful old (ins ++ [i]) -> Forall io_ok (ins ++ [i]) -> step_on P i s = Val (s', x) ->
  CoHeadersSynced h ∈ x <-> f_height s < f_height s' /\ f_height s' = h /\ h = tr_height (i_tree i).
Proof.
  intros C Lo R Fa Io E. destruct (reach_heights P cap st _ _ _ old i s' x C Lo R Fa Io E) as (_ & St & _).
  pose proof (reach_ok P cap st ins s outs C R) as Ok. assert (Iok : k_put (i_k i) = None) by (apply Forall_app in Io as [_ Io]; apply Forall_cons in Io as [[Io _] _]; exact Io).
  split.
  - intros I. destruct (synced_op P i s s' x h E I) as (from & ft & stop & prev & hs & Op). unfold step_on, cbf_step in E. rewrite Op in E.
    destruct (cfheaders_reply _ _ _ _ _ _ _ _ _ _ _ _ E) as [(H1 & H2 & ->)|([q Hq] & [(_ & _ & ->)|[(_ & _ & ->)|[(_ & _ & ->)|(W & H2 & H3 & H4)]]])];
      try (apply elem_of_nil in I; done); try (apply elem_of_list_singleton in I; done).
    apply (H4 Iok St) in I as [-> I2]. split; [|split; [done|exact I2]]. destruct W as (_ & h' & _ & _ & _ & L & _).
    unfold f_height. rewrite H2. rewrite <- (chain_headers_fst P prev hs) in L. unfold lenN in *. rewrite app_length. rewrite fmap_length in L. lia.
  - intros (L & <- & Ht). destruct (step_grows P cap i s s' x Ok E L) as (from & sh & prev & hs & stop & Op & _).
    unfold step_on, cbf_step in E. rewrite Op in E. unfold f_height in L.
    destruct (cfheaders_reply _ _ _ _ _ _ _ _ _ _ _ _ E) as [(H1 & H2 & _)|([q Hq] & [(_ & H2 & _)|[(_ & H2 & _)|[(_ & H2 & _)|(W & H2 & H3 & H4)]]])];
      try (rewrite H2 in L; lia).
    apply (H4 Iok St). split; [done|exact Ht].
Qed.

(** When the idle time is over, the next filter headers are asked for. *)
Lemma headers_idle P cap st ins s outs i s' x : cbf_reach P cap st ins s outs -> step_on P i s = Val (s', x) ->
  i_op i = CTimer \/ i_op i = CInitialize -> 60000 <= i_now i - default 0 (since_when idle_step ins outs None) ->
  CoTimer 60000 ∈ x /\
  (past_checkpoints (i_tree i) -> f_height s' < tr_height (i_tree i) -> w_peers (watches ins outs watch0) <> ∅ ->
   exists stop, next_stop (i_tree i) (f_height s') = Some stop /\ is_Some (w_asked (foldl (watch_out i) (watch_in (watches ins outs watch0) i) x) !! stop)).
Proof.
  intros R E Op L. pose proof (run_watch P _ _ _ _ _ (agrees0 P cap st) R) as A. destruct (step_watch P i s s' x E _ A) as [A' _].
  destruct (reach_viewed P cap st ins s outs R) as (_ & _ & V & _). rewrite <- V in L.
  assert (X : exists s1 o1 y, idle P (i_k i) (i_now i) (i_tree i) s = Val (s1, o1) /\ x = o1 ++ y /\ c_filters s' = c_filters s1 /\
    forall h, is_Some (c_inflight s1 !! h) -> is_Some (c_inflight s' !! h)).
  { unfold step_on in E. destruct Op as [Op|Op]; rewrite Op in E; cbn [cbf_step] in E.
    - unfold cbf_timer in E. destruct (idle _ _ _ _ _) as [[s1 o1]|] eqn:E1; [|done]. cbn [mbind_M] in E. exists s1, o1.
      pose proof (expire_keeps P (i_k i) (i_now i) (k_order (i_k i) 3 (map_to_list (c_inflight s1)).*1) 0 s1) as X.
      destruct (expire P (i_k i) (i_now i) 0 _ s1) as [s2 o2]. cbn [fst] in X. cbn zeta in X. destruct X as (_ & X2 & _ & X4 & _).
      destruct (_ && _); [|injection E as <- <-; by exists o2].
      destruct (get_cfilters _ _ _ _ _) as [[[s3 o3] e]|] eqn:G; [|done]. cbn [mbind_M] in E. injection E as <- <-. exists (o2 ++ o3). split; [done|]. split; [done|].
      pose proof (cfilters_asking _ _ _ _ _ _ _ _ G) as [_ Gf]. split; [rewrite Gf; exact X2|].
      destruct (get_cfilters_spec (k_order (i_k i) 1) (r_current (c_rescan (set_rescan (r_reset (c_rescan s2)) s2))) (f_height (set_rescan (r_reset (c_rescan s2)) s2)) (i_tree i) (set_rescan (r_reset (c_rescan s2)) s2)) as [[E' _]|(r & o' & e' & E' & _)]; [congruence|].
      rewrite E' in G. injection G as <- <- <-. exact X4.
    - exists s', x, []. rewrite app_nil_r. by split. }
  destruct X as (s1 & o1 & y & Ei & -> & Hf & Hk).
  apply idle_view in Ei as [(L' & _)|(_ & s2 & o2 & Sy & -> & ->)]; [lia|]. split; [apply elem_of_app; left; apply elem_of_app; right; by apply elem_of_list_singleton|].
  intros Cp Lh NE. pose proof (sync_fine P i 0 s s2 o2 Sy) as [[F _] Nx]. cbn [c_filters set_idle] in Hf.
  unfold f_height in Lh |- *. rewrite Hf, F in Lh |- *. destruct (Nx Cp Lh (agrees_peers P _ _ A NE)) as (stop & N1 & N2). exists stop. split; [exact N1|].
  eapply agrees_asked; [exact A'|]. by apply Hk.
Qed.
