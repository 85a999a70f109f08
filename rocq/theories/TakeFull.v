(** The headers that the whole client takes. *)
From Verif Require Import Base PowModel PeerFacts BlockModel BlockSpec BlockProofs BlockRun BlockMain BlockFacts UtilModel FeeModel AddrModel AddrSpec PeerModel PeerSpec PeerMain PingModel
  DispModel DispSpec DispProofs LoadModel NodeModel NodeSpec NodeProofs NodeTip NodeLogSpec NodeLog FullModel FullSpec FullSim FullProofs FullChainSpec FullChain FullMgrSpec FullMgr FullLinkSpec
  FullLink FullLinked FullNodeSpec FullNode FullWrites ClientModel TakeSpec TakeProofs.
From Verif Require SyncModel SyncSpec SyncEvents CbfModel CbfSpec InvModel.
Open Scope N_scope.

Lemma same_joined a v e e' : similar e e' -> log_joined a v e = log_joined a v e'.
Proof. intros [_ _ _ A _ _]. unfold log_joined. by rewrite A. Qed.
Lemma none_joined a v e : neutral e -> log_joined a v e = v.
Proof. intros [_ A _ _]. unfold log_joined. by rewrite A. Qed.
Lemma corr_joined a l l' : corr l l' -> joined a l = joined a l'.
Proof. intros C. apply (corr_fold _ (same_joined a) (none_joined a) _ _ C). Qed.
Lemma same_fires e e' : similar e e' -> fires (e_op e) = fires (e_op e').
Proof. intros [[->|[I J]] _ _ _ _ _]; [done|]. by destruct (e_op e), (e_op e'). Qed.
Lemma same_asking b a w v e e' : similar e e' -> log_asking b a w v e = log_asking b a w v e'.
Proof. intros S. pose proof (same_fires _ _ S) as F. destruct S as [_ _ _ A _ W]. unfold log_asking. by rewrite A, W, F. Qed.
Lemma none_asking b a w v e : neutral e -> log_asking b a w v e = v.
Proof. intros [I A _ W]. unfold log_asking. rewrite A, W. cbn. replace (fires (e_op e)) with false by (by destruct (e_op e)). by rewrite andb_false_r. Qed.
Lemma corr_asking b a w l l' : corr l l' -> asking b a w l = asking b a w l'.
Proof. intros C. apply (corr_fold _ (same_asking b a w) (none_asking b a w) _ _ C). Qed.
Lemma corr_takes H b a w l l' hds chain : corr l l' -> takes H b a w l hds chain <-> takes H b a w l' hds chain.
Proof. intros C. unfold takes. by rewrite (corr_joined a _ _ C), (corr_asking b a w _ _ C). Qed.
Lemma corr_told l l' : corr l l' -> events l = events l'.
Proof.
  unfold events. intros C. induction C as [|e l l' Ne C IH|e e' l l' Si C IH]; [done| |]; cbn [fmap list_fmap concat]; rewrite !announced_app.
  - by rewrite (ne_announced _ Ne), IH.
  - by rewrite (si_announced _ _ Si), IH.
Qed.
Lemma wreported_items x : wreported x = reported (omap item_of x).
Proof.
  unfold wreported, reported, queued_events. induction x as [|i x IH]; [done|]. cbn [omap list_omap].
  destruct i as [c [w m|a|a r|t|e]|c [[w m]|a|[a r]|t|e]|e]; cbn [item_of]; try exact IH.
  - destruct m; try exact IH. destruct (decide (c = CMain)); cbn [omap list_omap]; exact IH.
  - destruct e as [| |a m|k| |e]; cbn [told_of fmap option_fmap option_map]; cbn [omap list_omap]; try exact IH.
    + destruct m; cbn [fmap option_fmap option_map omap list_omap chain_report]; exact IH.
    + destruct k; cbn [fmap option_fmap option_map omap list_omap chain_report]; exact IH.
    + destruct (chain_report e); [by rewrite IH|exact IH].
  - destruct (told_of e); cbn [fmap option_fmap option_map omap list_omap]; exact IH.
  - destruct (told_of e); cbn [fmap option_fmap option_map omap list_omap]; exact IH.
Qed.

Section Whole.
Context (H : header -> N) (ng : network -> N) (scf : SyncModel.sconf) (P : CbfModel.params) (kcf : kconf) (acf : aconf) (ping_timeout cap : N).
Context (env : nat -> nenv) (wenv_of : nat -> wenv) (magic : N) (hook : sockaddr -> wmsg -> bool).
Context (st : store) (ps : params) (cps : list (N * N)) (fst0 : list (N * N)) (c0 : cache) (white : gset ip) (am : amgr).
Notation fullstep := (full_step H scf P kcf acf ping_timeout env wenv_of magic hook).
Notation fullrun := (full_run H scf P kcf acf ping_timeout env wenv_of magic hook).
Notation wset := (wsetup H ng P kcf env wenv_of st ps cps fst0 c0 am).
Notation s0 := (full0 c0 (CbfModel.cbf0 cap fst0) white am).
Notation logs os := (whole_log H fullstep env (WInitialize :: os) s0).
Notation cache_of s := (n_cache (w_node (f_state s))).

Lemma taken_outcome os o s t n now c' r : wset (wheaders (os ++ [o])) -> fullrun (WInitialize :: os) s0 = Val (s, t) ->
  import_blocks H (cache_of s) (with_choices env n (wheaders_of o)) now = Val (c', r) -> outcome H (chain_of s) (active c') r.
Proof.
  intros [Su Sn Fw (e0 & known & F0 & Ea)] R Im. destruct Su as [S1 S2 S3 S4 S5 S6 S7 S8 S9].
  destruct (whole_run H scf P kcf acf ping_timeout env wenv_of magic hook Sn Fw cap fst0 c0 white e0 known am F0 Ea os s t R) as (ns & n1 & E & S & O & Sb & _). pose proof (sub_prefix os o ns Sb) as Sb'.
  assert (A : acyclic H (s_tail st ++ NodeSpec.node_headers ns)).
  { destruct S4 as [rank F]. exists rank. rewrite Forall_app in F |- *. destruct F as [F1 F2]. split; [exact F1|]. rewrite Forall_forall in F2 |- *. intros h Hh. apply F2. by eapply sublist_elem. }
  destruct (run_reach H ng scf P unkey env magic st ps cps c0 S2 S3 S6 _ ns n1 _ A E) as (hist & outs & Re & G). destruct S as [En _]. rewrite En in Re.
  assert (T : transition H ng st ps cps hist (cache_of s) (OImport (with_choices env n (wheaders_of o)) now) c' r).
  { constructor; [by exists outs| | |exact Im].
    - eapply given_acyclic; [|exact S4]. apply Forall_app. split.
      + eapply Forall_impl; [exact G|]. intros op. apply given_mono. intros h Hh. by eapply sublist_elem.
      + apply Forall_singleton. exists n, (wheaders_of o), now. split; [done|]. intros hd Ih. unfold wheaders. rewrite map_app, concat_app. apply elem_of_app. right. cbn. by rewrite app_nil_r.
    - unfold fair, inputs. cbn. rewrite app_nil_r. by apply with_choices_fair. }
  destruct (transition_reach H ng st ps cps hist _ _ _ _ S1 T) as [outs' R2]. destruct (reach_tip H ng st ps cps S1 _ _ _ R2) as (D1 & D2 & D3). destruct r as [[tip k h rv cn|]|e]; cbn [outcome].
  - destruct (batch_report_facts H ng st ps cps S1 _ _ _ _ _ _ T) as (Et & Eh & _ & _ & B1 & B2 & B3). unfold chain_of. split; [by rewrite Eh|]. split; [|done]. exists tip. rewrite D2, <- Et in *. by cbn in *.
  - exact (batch_report_facts H ng st ps cps S1 _ _ _ _ _ _ T).
  - destruct (aborted_height H ng st ps cps S1 _ _ _ _ _ _ T) as (e' & i & ->). exists e', i. f_equal. lia.
Qed.

Context (Fa : wfair wenv_of am).
Lemma whole_contains os s t : wset (wheaders os) -> fullrun (WInitialize :: os) s0 = Val (s, t) -> forall k, contains (cache_of s) k = true <-> k ∈ H <$> chain_of s.
Proof.
  intros Su R k. destruct (whole_reach H ng scf P kcf acf ping_timeout cap env wenv_of magic hook st ps cps fst0 c0 white am os s t Su R) as (hist & outs & Re & _).
  destruct Su as [[S1 _ _ _ _ _ _ _ _] _ _ _]. destruct (reach_inv H ng st ps cps S1 _ _ _ Re) as (rank & tl & I). unfold chain_of. rewrite (inv_contains I), (inv_active I), elem_of_list_fmap. naive_solver.
Qed.
Lemma wset_app os o : wset (wheaders (os ++ [o])) -> wset (wheaders os).
Proof. intros [Su Sn Fw Ad]. constructor; try done. refine (setup_sub _ _ _ _ _ _ _ _ _ _ _ _ Su). unfold wheaders. rewrite map_app, concat_app. by apply sublist_inserts_r. Qed.
Lemma log_started os s L : logs os = Val (s, L) -> started fullstep s0 (pairs L) s.
Proof.
  intros R. split; [|by eapply wlog_logged]. cbn [whole_log] in R. destruct (fullstep WInitialize s0) as [[s3 x0]|]; cbn [mbind_M] in R; [|done].
  destruct (whole_log H fullstep env os s3) as [[? L3]|]; cbn [mbind_M] in R; [|done]. injection R as <- <-. by eexists x0, _.
Qed.
Lemma received os s L o s' x a m : logs os = Val (s, L) -> fullstep o s = Val (s', x) -> WvMessage a m ∈ announced x -> o = WReceived a magic m.
Proof.
  intros R E A. destruct Fa as (Fw & Fo & e0 & known & F0 & Ea).
  by apply (passed H scf P kcf acf ping_timeout env wenv_of magic hook Fw Fo c0 _ white am e0 known F0 Ea _ _ _ _ _ _ _ (log_started _ _ _ R) E) in A as (-> & _).
Qed.

(** Headers that are told. *)
Theorem whole_taken os s L o s' x a hds : wset (wheaders (os ++ [o])) -> logs os = Val (s, L) -> fullstep o s = Val (s', x) ->
  WvMessage a (WNode (MHeaders hds)) ∈ announced x ->
  (takes H true (key a) a (entry_of <$> L) hds (chain_of s) ->
    exists hds' now r, hds'.*1 = hds /\ import_blocks H (cache_of s) hds' now = Val (cache_of s', r) /\ wreported x = SyncSpec.events_of r /\ outcome H (chain_of s) (chain_of s') r) /\
  (~ takes H false (key a) a (entry_of <$> L) hds (chain_of s) -> cache_of s' = cache_of s /\ wreported x = []).
Proof.
  intros Su R E A. pose proof (received _ _ _ _ _ _ _ _ R E A) as Eo. destruct (wlog_run H scf P kcf acf ping_timeout env wenv_of magic hook _ _ _ _ R) as [R' _].
  pose proof (whole_contains _ _ _ (wset_app _ _ Su) R') as K. pose proof Fa as (Fw & Fo & e0 & known & F0 & Ea). pose proof (wu_sane _ _ _ _ _ _ _ _ _ _ _ _ _ Su) as Sn.
  destruct (start_log H scf P kcf acf ping_timeout env wenv_of magic hook Sn Fw Fo cap fst0 c0 white am e0 known F0 Ea _ _ _ R) as (ns & n & L' & Rn & S & O & C & _).
  assert (Q : EvMessage (key a) (MHeaders hds) ∈ announced (omap item_of x)) by (apply told_in; eauto).
  destruct (one_sim H scf P kcf acf ping_timeout env wenv_of magic hook Sn Fw Fo o s n s' x O S E) as [_ [(no & n' & _ & En & S' & Si)|[Ne _]]].
  2:{ pose proof (ne_announced _ Ne) as Z. cbn [e_items entry_of wlog_step wl_items] in Z. rewrite Z in Q. by apply elem_of_nil in Q. }
  pose proof (si_announced _ _ Si) as Z. cbn [e_items entry_of wlog_step wl_items log_step] in Z. rewrite Z in Q.
  pose proof (one_announced H scf P env magic hook _ _ _ _ _ En Q) as A1.
  pose proof (si_events _ _ Si) as W. cbn [e_items entry_of wlog_step wl_items log_step] in W.
  assert (Rp : wreported x = reported (omap (erase_item magic) x)) by (rewrite wreported_items; unfold reported; by rewrite W).
  destruct S as [E1 _]. destruct S' as [E2 _].
  destruct (TakeProofs.node_headers H scf P unkey env magic c0 (CbfModel.cbf0 cap fst0) (su_fair _ _ _ _ _ _ _ _ _ _ (wu_node _ _ _ _ _ _ _ _ _ _ _ _ _ Su)) _ _ _ _ _ _ _ _ Rn En A1) as [Tk Ig].
  { rewrite E1. exact K. }
  rewrite E1, E2, unkey_key in Tk, Ig. rewrite <- Rp in Tk, Ig. split.
  - intros T. destruct Tk as (m & now & r & Im & Ev).
    + intros a' h ob nw fl re wt pe I Es. rewrite <- (corr_told _ _ C) in I. pose proof (told_key H scf P kcf acf ping_timeout env wenv_of magic hook _ _ _ _ _ _ _ _ _ R I) as Kk. cbn in Kk. rewrite <- Kk. by rewrite Es.
    + by apply (corr_takes _ _ _ _ _ _ _ _ C).
    + exists (with_choices env m hds), now, r. split; [apply (with_choices_fst env)|]. split; [exact Im|]. split; [exact Ev|]. rewrite Eo in Su. exact (taken_outcome _ _ _ _ _ _ _ _ Su R' Im).
  - intros T. apply Ig. intros T'. apply T. by apply (corr_takes _ _ _ _ _ _ _ _ C).
Qed.

Lemma takes_dec b k a l hds chain : takes H b k a l hds chain \/ ~ takes H b k a l hds chain.
Proof.
  unfold takes. destruct (joined k l); [|right; by intros (? & _)]. destruct (decide (lenN hds <= 2000)); [|right; by intros (_ & ? & _)].
  destruct (decide (asking b k a l = true \/ lenN hds <= 24)); [|right; by intros (_ & _ & ? & _)]. destruct (last hds) as [hd|]; [|right; intros (_ & _ & _ & hd & ? & _); done].
  destruct (decide (H hd ∉ H <$> chain)); [left; naive_solver|right; intros (_ & _ & _ & hd' & [= ->] & ?); done].
Qed.
(** Nothing else changes the chain. *)
Theorem whole_only os s L o s' x : wset (wheaders (os ++ [o])) -> logs os = Val (s, L) -> fullstep o s = Val (s', x) -> cache_of s' <> cache_of s \/ wreported x <> [] ->
  (exists a hds, WvMessage a (WNode (MHeaders hds)) ∈ announced x /\ takes H false (key a) a (entry_of <$> L) hds (chain_of s)) \/ exists hds, o = WCommand (CmdImportHeaders hds).
Proof.
  intros Su R E Ch. pose proof Fa as (Fw & Fo & e0 & known & F0 & Ea). pose proof (wu_sane _ _ _ _ _ _ _ _ _ _ _ _ _ Su) as Sn.
  destruct (start_log H scf P kcf acf ping_timeout env wenv_of magic hook Sn Fw Fo cap fst0 c0 white am e0 known F0 Ea _ _ _ R) as (ns & n & L' & Rn & S & O & C & _).
  destruct (one_sim H scf P kcf acf ping_timeout env wenv_of magic hook Sn Fw Fo o s n s' x O S E) as [_ [(no & n' & No & En & S' & Si)|[Ne S']]].
  2:{ exfalso. destruct S as [E1 _]. destruct S' as [E2 _]. destruct Ch as [Ch|Ch]; apply Ch; [by rewrite <- E1, <- E2|]. pose proof (ne_events _ Ne) as Z. cbn [e_items entry_of wlog_step wl_items] in Z.
      rewrite wreported_items. unfold reported. by rewrite Z. }
  pose proof (si_announced _ _ Si) as Z. pose proof (si_events _ _ Si) as W. cbn [e_items entry_of wlog_step wl_items log_step] in Z, W.
  assert (Rp : wreported x = reported (omap (erase_item magic) x)) by (rewrite wreported_items; unfold reported; by rewrite W).
  assert (D : (exists k hds, announced (omap (erase_item magic) x) = [EvMessage k (MHeaders hds)]) \/ forall k hds, announced (omap (erase_item magic) x) <> [EvMessage k (MHeaders hds)]).
  { destruct (announced (omap (erase_item magic) x)) as [|e [|? ?]]; [by right| |by right]. destruct e as [| |k m| | |]; try by right. destruct m; try by right. left. by eexists _, _. }
  destruct D as [(k & hds & A)|D].
  - left. assert (Q : EvMessage k (MHeaders hds) ∈ announced (omap item_of x)) by (rewrite Z, A; by left). apply told_in in Q as (w & Q & T).
    assert (Ow : match w with WvNode e => own e | _ => True end).
    { pose proof (wlog_snoc H scf P kcf acf ping_timeout env wenv_of magic hook _ _ _ _ _ _ _ R E) as R2. eapply (announced_owned H scf P kcf acf ping_timeout env wenv_of magic hook); [exact R2|].
      rewrite fmap_app, concat_app, announced_app. apply elem_of_app. right. cbn [fmap list_fmap concat wlog_step wl_items]. by rewrite app_nil_r. }
    destruct w as [| |a m|p| |e]; cbn in T; try done.
    + destruct m; try done. injection T as <- ->. exists a, hds. split; [exact Q|]. destruct (whole_taken _ _ _ _ _ _ _ _ Su R E Q) as [_ Ig].
      destruct (takes_dec false (key a) a (entry_of <$> L) hds (chain_of s)) as [T|T]; [exact T|]. apply Ig in T as [T1 T2]. by destruct Ch.
    + by destruct p.
    + injection T as ->. destruct Ow.
  - destruct no eqn:Eno. all: try (exfalso; destruct (node_quiet H scf P unkey env magic _ _ _ _ En D) as [Q1 Q2]; [done|]; destruct S as [E1 _]; destruct S' as [E2 _]; rewrite E1, E2, <- Rp in *; by destruct Ch).
    right. destruct o as [|b mg m|b lc lk|b rs|b| |cm|]; cbn [nop_of] in No; try done.
    + destruct (passes _ _ _ _ _ _); [|done]. destruct m; try done. by destruct (verack_of _ _).
    + by destruct (_ || _).
    + destruct cm; try done. by eexists.
    + destruct (take_first _ _) as [[[? ?] ?]|]; [|done]. by destruct (erase _ _).
Qed.
(** Headers that the user gives. *)
Theorem whole_import os s L hds s' x : let o := WCommand (CmdImportHeaders hds) in wset (wheaders (os ++ [o])) -> logs os = Val (s, L) -> fullstep o s = Val (s', x) ->
  exists hds' now r, node_reply H scf P kcf acf env wenv_of (CmdImportHeaders hds) s = Val (RpImport r) /\ hds'.*1 = hds /\
    import_blocks H (cache_of s) hds' now = Val (cache_of s', r) /\ wreported x = SyncSpec.events_of r /\ outcome H (chain_of s) (chain_of s') r.
Proof.
  intros o Su R E. destruct (wlog_run H scf P kcf acf ping_timeout env wenv_of magic hook _ _ _ _ R) as [R' _].
  pose proof Fa as (Fw & Fo & e0 & known & F0 & Ea). pose proof (wu_sane _ _ _ _ _ _ _ _ _ _ _ _ _ Su) as Sn.
  destruct (start_log H scf P kcf acf ping_timeout env wenv_of magic hook Sn Fw Fo cap fst0 c0 white am e0 known F0 Ea _ _ _ R) as (ns & n & L' & Rn & S & O & C & _).
  destruct (one_sim H scf P kcf acf ping_timeout env wenv_of magic hook Sn Fw Fo o s n s' x O S E) as [_ [(no & n' & No & En & S' & Si)|[Ne _]]]; [|by destruct (ne_idle _ Ne)].
  cbn in No. injection No as <-. pose proof (si_events _ _ Si) as W. cbn [e_items entry_of wlog_step wl_items log_step] in W.
  assert (Rp : wreported x = reported (omap (erase_item magic) x)) by (rewrite wreported_items; unfold reported; by rewrite W).
  destruct (node_import H scf P unkey env magic _ _ _ _ En) as (r & Im & Ev). destruct S as [E1 _]. destruct S' as [E2 _]. rewrite E1, E2 in *. rewrite <- Rp in Ev.
  set (e := ne_sync (env (n_calls (w_node (f_state s))))) in *. exists (with_choices env (w_node (f_state s)) hds), (SyncModel.se_block_time e), r. split.
  - unfold full_step in E. cbn [wop_fop fstep o] in E. unfold node_reply. cbn [exec] in E |- *.
    destruct (SyncModel.sync_import H _ _ _ _) as [[[c1 x1] r1]|] eqn:Is; cbn [mbind_M] in E |- *; [|done].
    destruct (SyncEvents.import_events H _ _ _ _ _ _ _ Is) as [I1 _]. pose proof (eq_trans (eq_sym Im) I1) as I2. injection I2 as _ <-.
    destruct (call_node _ _) as [[s1 q]|]; cbn [mbind_M] in E |- *; [reflexivity|discriminate E].
  - split; [apply (with_choices_fst env)|]. split; [exact Im|]. split; [exact Ev|]. exact (taken_outcome _ _ _ _ _ _ _ _ Su R' Im).
Qed.
End Whole.
