(** What the calls of a user say of the chain. *)
From Verif Require Import Base PowModel BlockModel BlockSpec BlockProofs BlockRun BlockMain BlockFacts UtilModel FeeModel AddrModel AddrSpec PeerModel PeerSpec PeerMain
  PingModel DispModel DispSpec DispProofs LoadModel NodeModel NodeSpec NodeProofs NodeTip FullModel FullSpec FullSim FullProofs FullChainSpec FullChain ClientModel ClientSpec ClientProofs.
From Verif Require SyncModel SyncSpec CbfModel InvModel.
Open Scope N_scope.

(** ** Traces *)
Section Trace.
Context (H : header -> N) (step : wop -> wstate -> M (wstate * list (fitem wmsg wev))) (reply_of : cmd -> wstate -> M reply).
Notation kstep := (kstep H step reply_of).
Notation krun := (krun H step reply_of).
Context (n0 : wstate).

(** An item of a trace, after those before. *)
Definition item_ok (a : list kitem) (i : kitem) : Prop :=
  match i with
  | KStep o n n' x => machine step (inputs a) n0 = Val (n, node_items a) /\ step o n = Val (n', x)
  | KExecuted t c n n' r => exists a' x, a = a' ++ [KStep (WCommand c) n n' x]
  | KPublished e => exists a' n n' x, a = a' ++ [KStep WNext n n' x] /\ e ∈ emitted_events x
  | _ => True
  end.
Definition trace_ok (tr : list kitem) : Prop := forall a i b, tr = a ++ i :: b -> item_ok a i.
Lemma trace_user tr x : trace_ok tr -> Forall user_item x -> trace_ok (tr ++ x).
Proof.
  intros T U a i b E. symmetry in E. apply split_in in E as [(b' & -> & _)|(a' & -> & ->)]; [by eapply T|]. apply Forall_app in U as [_ U]. apply Forall_cons in U as [U _]. by destruct i.
Qed.
Lemma trace_one tr i : trace_ok tr -> item_ok tr i -> trace_ok (tr ++ [i]).
Proof.
  intros T U a i' b E. symmetry in E. apply split_in in E as [(b' & -> & _)|(a' & -> & E)]; [by eapply T|]. destruct a' as [|? [|]]; [|done..]. injection E as <- <-. by rewrite app_nil_r.
Qed.
Lemma trace_stop tr : trace_ok tr -> trace_ok (tr ++ [KStopped]).
Proof. intros T. by apply trace_one. Qed.
Lemma trace_nil tr : trace_ok tr -> trace_ok (tr ++ []).
Proof. by rewrite app_nil_r. Qed.
Lemma trace_step o s tr : ginv H step reply_of n0 s tr -> trace_ok tr -> trace_ok (tr ++ (kstep o s).2).
Proof.
  intros G T. assert (M : forall n, k_node s = Some n -> machine step (inputs tr) n0 = Val (n, node_items tr)).
  { intros n E. destruct (g_run _ _ _ _ _ _ G) as (m & A & [B|B]); congruence. }
  assert (F : forall o n p, k_node s = Some n -> trace_ok (tr ++ (feed_node step o n p s).2)).
  { intros o' n p E. unfold feed_node. destruct (step o' n) as [[n' x]|] eqn:Es; [|by apply trace_stop]. apply trace_one; [exact T|]. split; [by apply M|exact Es]. }
  destruct o; cbn [ClientModel.kstep].
  - destruct (k_phase s); try by apply trace_nil. destruct (k_node s) eqn:E; [by apply F|by apply trace_nil].
  - destruct (k_node s) eqn:E; [|by apply trace_nil]. destruct (input_now _ _); [by apply F|by apply trace_nil].
  - destruct (k_phase s); try by apply trace_nil. destruct (k_node s); [|by apply trace_nil]. destruct (negb _); [by apply trace_nil|]. destruct (k_shutdown s); [by apply trace_stop|by apply trace_nil].
  - destruct (k_phase s); try by apply trace_nil. destruct (k_node s) as [n|] eqn:E; [|by apply trace_nil]. destruct (k_queue s) as [|[c t] q]; [by apply trace_nil|].
    destruct (reply_of c n); [|by apply trace_stop]. destruct (step (WCommand c) n) as [[n' x]|] eqn:Es; [|by apply trace_stop]. cbn [snd].
    change [?u; ?v] with ([u] ++ [v]). rewrite app_assoc. apply trace_one; [|by exists tr, x]. apply trace_one; [exact T|]. split; [by apply M|exact Es].
  - destruct (k_phase s); by apply trace_nil.
  - destruct (k_phase s); try by apply trace_nil. destruct (k_node s) as [n|] eqn:E; [|by apply trace_nil].
    destruct (step WNext n) as [[n' x]|] eqn:Es; [|by apply trace_stop]. assert (T1 : trace_ok (tr ++ [KStep WNext n n' x])) by (apply trace_one; [exact T|]; split; [by apply M|exact Es]).
    destruct (emits x); [|exact T1]. destruct (emitted_event x) as [e|] eqn:Ee; [|exact T1]. cbn [snd]. change [?u; ?v] with ([u] ++ [v]). rewrite app_assoc. apply trace_one; [exact T1|].
    exists tr, n, n', x. split; [done|]. unfold emitted_event in Ee. destruct x as [|y x _] using rev_ind; [done|]. rewrite last_app in Ee. rewrite emitted_app. apply elem_of_app. right.
    destruct y as [|c z|]; try done. destruct z; try done. injection Ee as ->. by left.
  - destruct (k_node s); [by apply trace_stop|by apply trace_nil].
  - destruct (k_threads s !! t); [by apply trace_nil|]. apply trace_user; [exact T|by repeat constructor].
  - apply trace_user; [exact T|]. exact (l_items _ _ _ _ (local_thread H t s)).
  - destruct (k_threads s !! t) as [[]|]; try by apply trace_nil. apply trace_user; [exact T|by repeat constructor].
  - destruct (k_threads s !! t) as [[]|]; try by apply trace_nil. apply trace_user; [exact T|by repeat constructor].
Qed.
Lemma run_trace os s tr : krun os (client0 n0) = (s, tr) -> trace_ok tr.
Proof.
  intros R. assert (Q : ginv H step reply_of n0 s tr /\ trace_ok tr); [|by destruct Q].
  refine (krun_inv H step reply_of (fun s tr => ginv H step reply_of n0 s tr /\ trace_ok tr) _ os _ [] _ _ _ R).
  - intros o s' tr' [G T]. split; [by apply ginv_step|by apply trace_step].
  - split; [apply ginv0|]. intros a i b E. by destruct a.
Qed.

(** The node is initialized first. *)
Definition first_ok (s : client) (tr : list kitem) : Prop := inputs tr = [] /\ k_phase s = PStart \/ exists l, inputs tr = WInitialize :: l.
Lemma first_step o s tr : first_ok s tr -> first_ok (kstep o s).1 (tr ++ (kstep o s).2).
Proof.
  unfold first_ok. rewrite inputs_app. intros [[A B]|(l & A)]; [|right; rewrite A; by eexists]. rewrite A. cbn [app].
  assert (L : forall t s' x, local t s s' x -> first_ok s' x). { intros t s' x Lo. left. split; [by apply user_inputs, (l_items _ _ _ _ Lo)|]. rewrite (l_phase _ _ _ _ Lo). exact B. }
  destruct o; cbn [ClientModel.kstep]; rewrite ?B; try (by left).
  - destruct (k_node s); [|by left]. unfold feed_node. destruct (step WInitialize _) as [[n' x]|]; [right; by eexists|by left].
  - destruct (k_node s); [|by left]. destruct o; by left.
  - destruct (k_node s); by left.
  - destruct (k_threads s !! t); by left.
  - exact (L t _ _ (local_thread H t s)).
  - destruct (k_threads s !! t) as [[]|]; by left.
  - destruct (k_threads s !! t) as [[]|]; by left.
Qed.
Lemma run_first os s tr : krun os (client0 n0) = (s, tr) -> inputs tr = [] \/ exists l, inputs tr = WInitialize :: l.
Proof.
  intros R. destruct (krun_inv H step reply_of first_ok first_step os (client0 n0) [] s tr) as [[A _]|A]; [left; by split|exact R|by left|by right].
Qed.
End Trace.

(** ** Events that were emitted were queued *)
Section Full.
Context (H : header -> N) (ng : network -> N) (scf : SyncModel.sconf) (P : CbfModel.params) (kcf : kconf) (acf : aconf) (ping_timeout cap : N).
Context (env : nat -> nenv) (wenv_of : nat -> wenv) (magic : N) (hook : sockaddr -> wmsg -> bool).
Context (st : store) (ps : params) (cps : list (N * N)) (fst0 : list (N * N)) (c0 : cache) (white : gset ip) (am : amgr).
Notation fullstep := (full_step H scf P kcf acf ping_timeout env wenv_of magic hook).
Notation fullrun := (full_run H scf P kcf acf ping_timeout env wenv_of magic hook).
Notation wset := (wsetup H ng P kcf env wenv_of st ps cps fst0 c0 am).
Notation s0 := (full0 c0 (CbfModel.cbf0 cap fst0) white am).

Lemma wset_sub hs hs' : hs' `sublist_of` hs -> wset hs -> wset hs'.
Proof. intros S [Su Sn Fw A]. split; try done. by eapply setup_sub. Qed.
Lemma full_order os : forall s s' t, fullrun os s = Val (s', t) -> forall c,
  map (wired magic) (f_box s c ++ queued_by c t) = emitted_by c t ++ map (wired magic) (f_box s' c).
Proof.
  induction os as [|o os IH]; intros s s' t R c; cbn [full_run] in R.
  - injection R as <- <-. cbn. by rewrite app_nil_r.
  - destruct (fullstep o s) as [[s1 t1]|] eqn:S1; cbn [mbind_M] in R; [|discriminate R].
    destruct (fullrun os s1) as [[s2 t2]|] eqn:S2; cbn [mbind_M] in R; [|discriminate R].
    injection R as <- <-. rewrite queued_by_app, emitted_by_app, <- app_assoc, <- (IH _ _ _ S2 c), app_assoc.
    rewrite map_app, (fstep_order _ _ _ _ _ _ S1 c). by rewrite map_app, app_assoc.
Qed.
Lemma run_item os i : forall s s' t, fullrun os s = Val (s', t) -> i ∈ t -> exists os1 o os2 s1 t1 s2 x, os = os1 ++ o :: os2 /\ fullrun os1 s = Val (s1, t1) /\ fullstep o s1 = Val (s2, x) /\ i ∈ x.
Proof.
  induction os as [|o os IH]; intros s s' t R I; cbn [full_run] in R.
  - injection R as <- <-. by apply elem_of_nil in I.
  - destruct (fullstep o s) as [[s1 t1]|] eqn:S1; cbn [mbind_M] in R; [|discriminate R]. destruct (fullrun os s1) as [[s2 t2]|] eqn:S2; cbn [mbind_M] in R; [|discriminate R].
    injection R as <- <-. apply elem_of_app in I as [I|I]; [by exists [], o, os, s, [], s1, t1|].
    destruct (IH _ _ _ S2 I) as (os1 & o1 & os2 & s3 & t3 & s4 & x & -> & A & B & C). exists (o :: os1), o1, os2, s3, (t1 ++ t3), s4, x. cbn [full_run]. rewrite S1. cbn [mbind_M]. by rewrite A.
Qed.
Lemma emitted_queued os s t e : fullrun os s0 = Val (s, t) -> e ∈ emitted_events t -> exists c, FQueued c (IoEvent e) ∈ t.
Proof.
  intros R I. apply elem_of_list_omap in I as (i & I & E). destruct i as [|c y|]; try done. destruct y; try done. injection E as ->. exists c.
  pose proof (full_order _ _ _ _ R c) as O. cbn [f_box full0 app] in O. assert (J : IoEvent e ∈ emitted_by c t).
  { unfold emitted_by. rewrite elem_of_list_In, in_flat_map. eexists. split; [by apply elem_of_list_In|]. cbn. rewrite decide_True by done. by left. }
  assert (K : IoEvent e ∈ map (wired magic) (queued_by c t)) by (rewrite O; apply elem_of_app; by left). apply elem_of_list_In, in_map_iff in K as (y & E & K).
  destruct y; try discriminate E. injection E as ->. unfold queued_by in K. apply in_flat_map in K as (i & Ii & K). apply elem_of_list_In in Ii. destruct i as [c' z| |]; cbn in K; try done.
  destruct (decide (c' = c)) as [->|]; [|done]. destruct K as [->|[]]. exact Ii.
Qed.
Lemma first_report s' x c b k h rv cn : wset [] -> fullstep WInitialize s0 = Val (s', x) ->
  FQueued c (IoEvent (WvNode (EvSync (SyncModel.SoImported b k h rv cn)))) ∈ x -> true_report H (chain_of s0) (chain_of s') k h rv cn.
Proof.
  intros [Su Sn Fw (e0 & known & F0 & Ea)] Es I. rewrite (init_same H scf P kcf acf ping_timeout env wenv_of magic hook cap fst0 c0 white am) in Es.
  pose proof (wstep_sim H scf P kcf acf ping_timeout env wenv_of magic hook Sn Fw WInitialize _ _ (start_ok cap fst0 c0 white e0 known am F0 Ea) (start_sim cap fst0 c0 white am)) as W.
  unfold wstep_ok, step_ok in W. rewrite Es in W. destruct W as [_ W].
  assert (J : FQueued c (IoEvent (EvSync (SyncModel.SoImported b k h rv cn))) ∈ omap (erase_item magic) x) by (apply elem_of_list_omap; by eexists).
  destruct (nop_of magic hook WInitialize _) as [no|] eqn:En; [|discriminate En]. destruct W as (n' & En' & S').
  pose proof (nop_headers _ _ _ _ _ En) as Hd. cbn [wheaders_of] in Hd. destruct Su as [S1 S2 S3 S4 S5 S6 S7 S8 S9].
  destruct (step_transition H ng scf P unkey env magic st ps cps c0 S2 S3 S6 _ [] no _ [] n' _ c b k h rv cn ltac:(cbn; rewrite Hd; exact S4) eq_refl En' J) as (_ & hist & now & tip & m & T).
  destruct S' as (E2 & _). rewrite E2 in T. change (n_cache (f_state (node0 c0 _))) with (n_cache (w_node (f_state s0))) in T.
  destruct (batch_report_facts H ng st ps cps S1 _ _ _ _ _ _ T) as (Et & Eh & _ & _ & A & B & C). destruct (transition_reach H ng st ps cps hist _ _ _ _ S1 T) as [outs R2].
  destruct (reach_tip H ng st ps cps S1 _ _ _ R2) as (D1 & D2 & D3). unfold chain_of. split; [by rewrite Eh|]. split; [|done]. exists tip. rewrite D2, <- Et in *. by cbn in *.
Qed.
(** A reported tip was the tip of the chain in some state before. *)
Lemma reported_tip os s t b k h rv cn : wset (wheaders os) -> fullrun (WInitialize :: os) s0 = Val (s, t) -> WvNode (EvSync (SyncModel.SoImported b k h rv cn)) ∈ emitted_events t ->
  exists os1 os2 s1 t1 hd, os = os1 ++ os2 /\ fullrun (WInitialize :: os1) s0 = Val (s1, t1) /\ chain_of s1 !! N.to_nat h = Some hd /\ H hd = k /\ last (chain_of s1) = Some hd.
Proof.
  intros Su R I. destruct (emitted_queued _ _ _ _ R I) as (c & Q). destruct (run_item _ _ _ _ _ R Q) as (os1 & o & os2 & s1 & t1 & s2 & x & E & R1 & E1 & Ix).
  assert (Tr : true_report H (chain_of s1) (chain_of s2) k h rv cn -> exists hd, chain_of s2 !! N.to_nat h = Some hd /\ H hd = k /\ last (chain_of s2) = Some hd).
  { intros (L & (hd & La & Eh) & _). exists hd. split; [|done]. rewrite last_lookup in La. unfold lenN in L. by replace (N.to_nat h) with (pred (length (chain_of s2))) by lia. }
  destruct os1 as [|o1 os1]; injection E as <- ->.
  - injection R1 as <- <-. destruct Tr as (hd & A & B & C); [|exists [], os2, s2, x, hd; cbn [full_run app]; rewrite E1; cbn [mbind_M]; by rewrite app_nil_r].
    eapply first_report; [|exact E1|exact Ix]. eapply wset_sub; [|exact Su]. apply sublist_nil_l.
  - destruct Tr as (hd & A & B & C).
    { eapply whole_report; [|exact R1|exact E1|exact Ix]. eapply wset_sub; [|exact Su]. unfold wheaders. rewrite !map_app, !concat_app. cbn [map concat]. rewrite app_nil_r, app_assoc. by apply sublist_inserts_r. }
    exists (os1 ++ [o]), os2, s2, (t1 ++ x), hd. split; [by rewrite <- app_assoc|]. split; [|done].
    rewrite <- machine_full in R1 |- *. exact (machine_snoc fullstep o s1 s2 x (WInitialize :: os1) _ _ R1 E1).
Qed.

(** ** Calls *)
Notation reply_of := (node_reply H scf P kcf acf env wenv_of).
Notation kr := (krun H fullstep reply_of).
(** A state that the node was in, while the first items of the trace happened. *)
Definition was_in (a : list kitem) (given : list header) (n : wstate) : Prop :=
  exists os1 os2 x, inputs a = WInitialize :: os1 ++ os2 /\ fullrun (WInitialize :: os1) s0 = Val (n, x) /\ given = wheaders os1.
Lemma inputs_mono tr a b l : tr = a ++ b -> inputs tr = WInitialize :: l -> inputs a = [] \/ exists l', inputs a = WInitialize :: l' /\ wheaders l' `sublist_of` wheaders (inputs tr).
Proof.
  intros -> E. rewrite inputs_app in *. destruct (inputs a) as [|o l'] eqn:Ea; [by left|]. right. injection E as -> E. exists l'. split; [done|].
  unfold wheaders. rewrite map_app, concat_app. apply sublist_inserts_r. cbn. done.
Qed.
Lemma executed_state os s a b t c n n' r : wset (wheaders (inputs (a ++ KExecuted t c n n' r :: b))) -> kr os (client0 s0) = (s, a ++ KExecuted t c n n' r :: b) ->
  reply_of c n = Val r /\ exists l x, wset (wheaders l) /\ fullrun (WInitialize :: l) s0 = Val (n, x) /\ inputs a = WInitialize :: l ++ [WCommand c].
Proof.
  intros Su R. pose proof (run_trace _ _ _ _ _ _ _ R) as T. pose proof (run_ginv _ _ _ _ _ _ _ R) as G. pose proof (run_first _ _ _ _ _ _ _ R) as F.
  destruct (g_exec _ _ _ _ _ _ G t c n n' r) as [Er _]; [apply elem_of_app; right; by left|]. split; [exact Er|].
  destruct (T _ _ _ eq_refl) as (a' & x & ->). rewrite <- !app_assoc in T. cbn [app] in T. destruct (T a' _ _ eq_refl) as [M _].
  rewrite machine_full in M. destruct (inputs a') as [|o l] eqn:Ea.
  - exfalso. rewrite inputs_app, inputs_app, Ea in F. cbn in F. destruct F as [F|(l & F)]; discriminate F.
  - rewrite 2!inputs_app, Ea in F, Su. rewrite inputs_app, Ea. cbn [app] in F. destruct F as [F|(l' & F)]; [discriminate F|]. injection F as -> F. exists l, (node_items a'). split.
    + eapply wset_sub; [|exact Su]. unfold wheaders. rewrite !map_app, !concat_app, <- app_assoc. apply sublist_inserts_r. cbn. done.
    + by split.
Qed.
Lemma call_height os s a b t v h : wset (wheaders (inputs (a ++ KReturned t (HOk v) :: b))) -> kr os (client0 s0) = (s, a ++ KReturned t (HOk v) :: b) ->
  called t (HWaitHeight h) (a ++ KReturned t (HOk v) :: b) -> exists n hs hd, was_in a hs n /\ a_chain H st hs (chain_of n) /\ chain_of n !! N.to_nat h = Some hd /\ v = VHash (H hd).
Proof.
  intros Su R C.
  assert (Ch : forall l n x, wset (wheaders l) -> fullrun (WInitialize :: l) s0 = Val (n, x) -> a_chain H st (wheaders l) (chain_of n)).
  { intros l n x W Rn. exact (proj1 (queries H ng scf P kcf acf ping_timeout cap env wenv_of magic hook st ps cps fst0 c0 white am l n x W Rn)). }
  destruct (waited _ _ _ _ _ _ _ _ _ _ _ _ R eq_refl C eq_refl) as [(_ & n & n' & r & Re & W)|(a1 & e & a2 & known & seen & -> & C1 & W)].
  - destruct Re as (cm & a1 & a2 & [= <-] & -> & _). rewrite <- app_assoc in R, Su. cbn [app] in R, Su. destruct (executed_state _ _ _ _ _ _ _ _ _ Su R) as (Er & l & x & Sl & Rl & Ei).
    destruct (queries H ng scf P kcf acf ping_timeout cap env wenv_of magic hook st ps cps fst0 c0 white am l n x Sl Rl) as (A & aside & _ & Q). destruct (Q (CmdGetByHeight h) I) as (_ & r' & E1 & E2).
    rewrite Er in E1. injection E1 as <-. cbn [tells] in E2. subst r. cbn [with_reply] in W. destruct (chain_of n !! N.to_nat h) as [hd|] eqn:El; [|discriminate W]. injection W as <-.
    exists n, (wheaders l), hd. split; [|done]. exists l, ([WCommand (CmdGetByHeight h)] ++ inputs (KExecuted t (CmdGetByHeight h) n n' (RpHeader (Some hd)) :: a2)), x. rewrite inputs_app, Ei. cbn [app]. by rewrite <- ?app_assoc.
  - cbn [waits_for] in W. destruct e as [| | | | |e]; try done. destruct e as [o| | | | | ]; try done. destruct o; try done. destruct (N.eqb_spec height h) as [->|]; [|done]. injection W as <-.
    rewrite <- app_assoc in R, Su. cbn [app] in R, Su. pose proof (run_trace _ _ _ _ _ _ _ R) as T. pose proof (run_first _ _ _ _ _ _ _ R) as F.
    destruct (T _ _ _ eq_refl) as (a' & n & n' & x & -> & Ie). rewrite <- !app_assoc in T. cbn [app] in T. destruct (T a' _ _ eq_refl) as [Mn Es].
    pose proof (machine_snoc fullstep _ _ _ _ _ _ _ Mn Es) as M. rewrite machine_full in M. destruct (inputs a') as [|o l] eqn:Ea.
    { exfalso. rewrite 2!inputs_app, Ea in F. cbn in F. destruct F as [F|(l & F)]; discriminate F. }
    rewrite 2!inputs_app, Ea in F, Su. cbn [app] in F. destruct F as [F|(l' & F)]; [discriminate F|]. injection F as -> F. cbn [app] in M.
    assert (Sl : wset (wheaders (l ++ [WNext]))). { eapply wset_sub; [|exact Su]. unfold wheaders. rewrite !map_app, !concat_app. cbn. rewrite app_nil_r, <- ?app_assoc. by apply sublist_inserts_r. }
    destruct (reported_tip _ _ _ reorg hash h reverted connected Sl M) as (os1 & os2 & s1 & t1 & hd & E & R1 & E1 & <- & _). { rewrite emitted_app. apply elem_of_app. right. exact Ie. }
    assert (S1 : wset (wheaders os1)). { eapply wset_sub; [|exact Sl]. rewrite E. unfold wheaders. rewrite map_app, concat_app. by apply sublist_inserts_r. }
    exists s1, (wheaders os1), hd. split; [|split; [by eapply Ch|done]]. exists os1, (os2 ++ inputs a2), t1. rewrite !inputs_app, Ea. cbn [app]. rewrite app_assoc, <- E. rewrite <- !app_assoc. done.
Qed.
End Full.
