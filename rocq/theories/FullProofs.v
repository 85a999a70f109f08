(** Proofs about the whole state machine, through NodeModel.v. *)
From Verif Require Import Base PowModel BlockModel BlockSpec BlockProofs BlockRun BlockMain BlockQueries UtilModel FeeModel AddrModel AddrSpec AddrProofs AddrFacts PeerModel PeerSpec PeerProofs PeerMain PeerFacts
  PingModel DispModel DispSpec DispProofs LoadModel NodeModel NodeSpec NodeProofs NodeSingle FullModel FullSpec FullSim.
From Verif Require SyncModel CbfModel InvModel.
Open Scope N_scope.

Lemma setup_sub H ng P env st ps cps fst0 c0 hs hs' : hs' `sublist_of` hs -> setup H ng P env st ps cps fst0 c0 hs -> setup H ng P env st ps cps fst0 c0 hs'.
Proof.
  intros Su [S1 S2 S3 S4 S5 S6 S7 S8 S9]. constructor; try done.
  - destruct S4 as [rank F]. exists rank. rewrite Forall_app in F |- *. destruct F as [F1 F2]. split; [exact F1|]. rewrite Forall_forall in F2 |- *. intros h Hh. apply F2. eapply elem_of_submseteq; [exact Hh|by apply sublist_submseteq].
  - apply sublist_length in Su. unfold lenN in *. lia.
Qed.

Section Proofs.
Context (H : header -> N) (scf : SyncModel.sconf) (P : CbfModel.params) (kcf : kconf) (acf : aconf) (ping_timeout : N).
Context (env : nat -> nenv) (wenv_of : nat -> wenv) (magic : N) (hook : sockaddr -> wmsg -> bool).
Notation fullstep := (full_step H scf P kcf acf ping_timeout env wenv_of magic hook).
Notation fullrun := (full_run H scf P kcf acf ping_timeout env wenv_of magic hook).
Notation nstep := (node_step H scf P unkey env magic).
Notation nrun := (node_run H scf P unkey env magic).
Notation nop_at := (nop_of magic hook).
Context (Sn : sane kcf) (Fw : fair_wenv wenv_of).

Definition wok (s : full) : Prop := addr_ok (w_addr s).
Lemma wok_node s n : wok s -> wok (Full n (w_peer s) (w_addr s) (w_ping s) (w_calls s)).
Proof. done. Qed.
Lemma wok_peer o s : proper o -> wok s -> match kstep kcf acf (o, kenv_at wenv_of s) (w_peer s, w_addr s) with
  | Val (p, am, _) => wok (Full (w_node s) p am (w_ping s) (S (w_calls s))) | Panic _ => False end.
Proof.
  intros Po O. destruct (step_total kcf acf o (kenv_at wenv_of s) (w_peer s) (w_addr s) Sn) as (p & am & x & E & Ok); [|exact O|].
  - split; [apply (proj1 (Fw (w_calls s)))|]. by destruct o.
  - by rewrite E.
Qed.
Lemma wok_addr o s : wok s -> match addr_step acf (o, we_addr (wenv_of (w_calls s))) (w_addr s) with
  | Val (am, _) => wok (Full (w_node s) (w_peer s) am (w_ping s) (S (w_calls s))) | Panic _ => False end.
Proof.
  intros O. destruct (addr_step_ok acf o _ (w_addr s) (proj2 (Fw (w_calls s))) O) as (am & x & E & Ok). by rewrite E.
Qed.
Lemma wok_ping s (p : pings) : wok s -> wok (Full (w_node s) (w_peer s) (w_addr s) p (S (w_calls s))).
Proof. done. Qed.
Definition wstep_ok := step_ok H scf P env magic hook wok.
Lemma wstep_sim o s n : wok (f_state s) -> sim s n -> wstep_ok o s n (fullstep o s).
Proof. exact (step_sim H scf P kcf acf ping_timeout env wenv_of magic hook wok wok_node wok_peer wok_addr wok_ping o s n). Qed.

(** What a run is for the node. *)
Fixpoint nops (os : list wop) (s : fsm full wmsg wev) : list nop :=
  match os with
  | [] => []
  | o :: os' => match nop_at o s with Some no => [no] | None => [] end ++ match fullstep o s with Val (s', _) => nops os' s' | Panic _ => [] end
  end.
Lemma run_sim os : forall s n s' t, wok (f_state s) -> sim s n -> fullrun os s = Val (s', t) ->
  exists n', nrun (nops os s) n = Val (n', omap (erase_item magic) t) /\ sim s' n' /\ wok (f_state s').
Proof.
  induction os as [|o os IH]; intros s n s' t O S R; cbn [full_run nops] in *.
  - injection R as <- <-. exists n. split; [done|]. by split.
  - pose proof (wstep_sim o s n O S) as W. unfold wstep_ok, step_ok in W. destruct (fullstep o s) as [[s1 t1]|p]; cbn [mbind_M] in R; [|discriminate R].
    destruct (fullrun os s1) as [[s2 t2]|p] eqn:R2; cbn [mbind_M] in R; [|discriminate R]. injection R as <- <-. destruct W as [O1 W]. rewrite omap_app'.
    destruct (nop_at o s) as [no|]; cbn [app].
    + destruct W as (n1 & E1 & S1). destruct (IH s1 n1 s2 t2 O1 S1 R2) as (n2 & E2 & S2 & O2). exists n2. split; [|by split].
      cbn [node_run]. rewrite E1. cbn [mbind_M]. by rewrite E2.
    + destruct W as [S1 ->]. destruct (IH s1 n s2 t2 O1 S1 R2) as (n2 & E2 & S2 & O2). exists n2. by split.
Qed.
Lemma sim_height s n : sim s n -> height_of n = w_height_of s /\ filter_height_of n = w_filter_height_of s.
Proof. intros (E & _). unfold height_of, filter_height_of, w_height_of, w_filter_height_of. by rewrite E. Qed.
Lemma sim_drained s n : sim s n -> w_drained s -> drained n.
Proof. intros (_ & B & _) D c. by rewrite B, (D c). Qed.
Lemma drops_sim os : forall s n, wok (f_state s) -> sim s n -> w_never_drops fullstep os s -> never_drops nstep (nops os s) n.
Proof.
  induction os as [|o os IH]; intros s n O S; cbn [w_never_drops nops]; [done|].
  pose proof (wstep_sim o s n O S) as W. unfold wstep_ok, step_ok in W. destruct (fullstep o s) as [[s1 t1]|p].
  - intros [L D]. destruct W as [O1 W]. destruct (nop_at o s) as [no|]; cbn [app never_drops].
    + destruct W as (n1 & E1 & S1). rewrite E1. split; [|by apply IH]. by rewrite (proj1 (sim_height _ _ S)), (proj1 (sim_height _ _ S1)).
    + destruct W as [S1 _]. by apply IH.
  - intros _. destruct W as [(no & -> & E)|(to & -> & _)]; cbn [app never_drops nop_of]; [by rewrite E|done].
Qed.
Lemma nop_next o s : o <> WNext -> nop_at o s <> Some NNext.
Proof. destruct o as [|a mg m|a l k|a r|a| |c|]; cbn [nop_of]; try done; intros _; repeat case_match; try done. destruct (verack_of a (f_state s)); done. Qed.
Lemma settled_sim os : forall s n, wok (f_state s) -> sim s n -> w_settled fullstep os s -> settled nstep (nops os s) n.
Proof.
  induction os as [|o os IH]; intros s n O S; cbn [w_settled nops]; [done|]. intros [D Se].
  pose proof (wstep_sim o s n O S) as W. unfold wstep_ok, step_ok in W.
  assert (Dn : forall no, nop_at o s = Some no -> no = NNext \/ drained n).
  { intros no E. destruct D as [->|D]; [|right; by eapply sim_drained]. cbn [nop_of] in E. clear -E.
    destruct (take_first sources (f_box s)) as [[[c x] b]|]; [|discriminate E]. destruct (erase c x); [|discriminate E]. injection E as <-. by left. }
  destruct (fullstep o s) as [[s1 t1]|p].
  - destruct W as [O1 W]. destruct (nop_at o s) as [no|]; cbn [app settled].
    + destruct W as (n1 & E1 & S1). rewrite E1. split; [by apply Dn|by apply IH].
    + destruct W as [S1 _]. by apply IH.
  - destruct W as [(no & E0 & E)|(to & -> & _)]; [|done]. rewrite E0 in *. cbn [app settled]. rewrite E. split; [by apply Dn|done].
Qed.
Lemma nop_headers o s no : nop_at o s = Some no -> headers_of no = wheaders_of o.
Proof.
  destruct o as [|a mg m|a l k|a r|a| |c|]; cbn [nop_of]; intros E; repeat case_match; try discriminate E; try (injection E as <-; reflexivity).
  destruct (verack_of a (f_state s)); [|discriminate E]. by injection E as <-.
Qed.
Lemma nops_headers os : forall s, node_headers (nops os s) `sublist_of` wheaders os.
Proof.
  unfold node_headers, wheaders. induction os as [|o os IH]; intros s; cbn [nops map concat]; [done|].
  rewrite map_app, concat_app. apply sublist_app.
  - destruct (nop_at o s) as [no|] eqn:E; cbn; [|apply sublist_nil_l]. by rewrite app_nil_r, (nop_headers o s no E).
  - destruct (fullstep o s) as [[s1 t1]|p]; [apply IH|apply sublist_nil_l].
Qed.
Lemma nops_single os : forall s, w_one_by_one os -> one_by_one (nops os s).
Proof.
  induction os as [|o os IH]; intros s; cbn [nops]; [intros _; by apply Forall_nil|]. intros [Ho Hs]%Forall_cons. apply Forall_app. split.
  - destruct (nop_at o s) as [no|] eqn:E; cbn; [|by apply Forall_nil]. apply Forall_cons. split; [|by apply Forall_nil]. by rewrite (nop_headers o s no E).
  - destruct (fullstep o s) as [[s1 t1]|p]; [by apply IH|by apply Forall_nil].
Qed.

(** ** The start *)
Context (ng : network -> N) (cap : N) (st : store) (ps : params) (cps : list (N * N)) (fst0 : list (N * N)) (c0 : cache) (white : gset ip).
Context (e0 : aenv) (known : gmap ip known) (am : amgr) (F0 : fair_aenv e0) (Ea : addr_new e0 known = Val am).
Notation s0 := (full0 c0 (CbfModel.cbf0 cap fst0) white am).
Notation n0 := (node0 c0 (CbfModel.cbf0 cap fst0)).
(** The address manager forgets when it last idled when it is initialized. *)
Definition am' : amgr := AMgr (am_peers am) (am_bans am) (am_ranges am) (am_connected am) (am_sources am) (am_local am) (am_request am) (Some 0).
Lemma init_same : fullstep WInitialize s0 = fullstep WInitialize (full0 c0 (CbfModel.cbf0 cap fst0) white am').
Proof. reflexivity. Qed.
Lemma init_nops os : nops (WInitialize :: os) s0 = nops (WInitialize :: os) (full0 c0 (CbfModel.cbf0 cap fst0) white am').
Proof. cbn [nops]. by rewrite init_same. Qed.
Lemma init_run os : fullrun (WInitialize :: os) s0 = fullrun (WInitialize :: os) (full0 c0 (CbfModel.cbf0 cap fst0) white am').
Proof. cbn [full_run]. by rewrite init_same. Qed.
Lemma init_drops os : w_never_drops fullstep (WInitialize :: os) s0 -> w_never_drops fullstep (WInitialize :: os) (full0 c0 (CbfModel.cbf0 cap fst0) white am').
Proof. cbn [w_never_drops]. by rewrite init_same. Qed.
Lemma init_settled os : w_settled fullstep (WInitialize :: os) s0 -> w_settled fullstep (WInitialize :: os) (full0 c0 (CbfModel.cbf0 cap fst0) white am').
Proof. cbn [w_settled]. rewrite init_same. intros [_ Se]. split; [right; by intros c|exact Se]. Qed.
Lemma start_ok : wok (f_state (full0 c0 (CbfModel.cbf0 cap fst0) white am')).
Proof.
  destruct (new_ok e0 known F0) as (s & E & W & _). rewrite Ea in E. injection E as <-. split; [exact W|]. by exists 0.
Qed.
Lemma start_sim : sim (full0 c0 (CbfModel.cbf0 cap fst0) white am') n0.
Proof. split; [done|]. split; [done|]. intros c. by apply Forall_nil. Qed.

(** A whole run is a run of the node. *)
Theorem whole_run os s t : fullrun (WInitialize :: os) s0 = Val (s, t) ->
  exists ns n, nrun ns n0 = Val (n, omap (erase_item magic) t) /\ sim s n /\ wok (f_state s) /\ node_headers ns `sublist_of` wheaders os /\
    (w_never_drops fullstep (WInitialize :: os) s0 -> never_drops nstep ns n0) /\
    (w_settled fullstep (WInitialize :: os) s0 -> settled nstep ns n0) /\ (w_one_by_one os -> one_by_one ns).
Proof.
  intros R. rewrite init_run in R. destruct (run_sim (WInitialize :: os) _ n0 s t start_ok start_sim R) as (n & E & S & O).
  exists (nops (WInitialize :: os) (full0 c0 (CbfModel.cbf0 cap fst0) white am')), n. split; [exact E|]. split; [exact S|]. split; [exact O|].
  split; [apply (nops_headers (WInitialize :: os))|]. split; [intros D; by apply (drops_sim _ _ n0 start_ok start_sim), init_drops|].
  split; [intros D; by apply (settled_sim _ _ n0 start_ok start_sim), init_settled|]. intros Ob. apply nops_single. by apply Forall_cons.
Qed.

(** ** Panics *)
Lemma known_whole s n o no p : sim s n -> nop_at o s = Some no -> known_panic n no p -> w_known_panic magic s o p.
Proof.
  intros S E K. pose proof (sim_height s n S) as [_ Hf]. pose proof S as (En & _). unfold known_panic in K. unfold w_known_panic.
  destruct K as [(-> & a & b & -> & L)|[(-> & from & stop & prev & hs & -> & A & B)|(-> & from & b & ->)]].
  - left. split; [done|]. exists a, b. rewrite Hf in L. split; [|exact L].
    destruct o as [|a' mg m|a' l k|a' r|a'| |c|]; cbn [nop_of] in E; repeat case_match; try discriminate E; [|by injection E as <- <-].
    destruct (verack_of a' (f_state s)); discriminate E.
  - right. left. split; [done|]. rewrite En in A, B.
    destruct o as [|a' mg m|a' l k|a' r|a'| |c|]; cbn [nop_of] in E; try (repeat case_match; discriminate E).
    unfold passes in E. destruct (mg =? magic) eqn:Em; cbn [andb] in E; [|discriminate E]. apply N.eqb_eq in Em as ->.
    destruct (connected_at _ a' && _); [|discriminate E]. destruct m; try discriminate E; [|destruct (verack_of a' (f_state s)); discriminate E].
    injection E as <- ->. exists a', stop, prev, hs. by split.
  - right. right. split; [done|].
    destruct o as [|a' mg m|a' l k|a' r|a'| |c|]; cbn [nop_of] in E; try (repeat case_match; discriminate E).
    unfold passes in E. destruct (mg =? magic) eqn:Em; cbn [andb] in E; [|discriminate E]. apply N.eqb_eq in Em as ->.
    destruct (connected_at _ a' && _); [|discriminate E]. destruct m; try discriminate E; [|destruct (verack_of a' (f_state s)); discriminate E].
    injection E as <- ->. by exists a', b.
Qed.

Context (Hps : params_ok ps) (Hload : from_store H ng st ps cps = Val (Ok c0)) (Hlink : linked_from H (H (s_genesis st)) (s_tail st)).
Lemma branch_total hs (n : node) to : NI H scf P cap c0 hs n -> bounded H st hs -> exists r, find_branch (n_cache n) to = Val r.
Proof.
  intros N B. destruct (ni_reach H ng scf P cap st ps cps c0 Hload Hlink hs n N B) as (hist & outs & R).
  destruct (reach_inv H ng st ps cps Hps _ _ _ R) as (rank & tl & I). destruct (find_branch_spec H rank _ _ tl to I) as (r & E & _). by exists r.
Qed.
Lemma whole_panic hs s n o p : sim s n -> wok (f_state s) -> weak H scf P cap c0 hs n -> bounded H st hs ->
  fullstep o s = Panic p -> exists no, nop_at o s = Some no /\ nstep no n = Panic p.
Proof.
  intros S O W B E. pose proof (wstep_sim o s n O S) as T. unfold wstep_ok, step_ok in T. rewrite E in T. destruct T as [T|(to & -> & T)]; [exact T|].
  destruct W as (N & _). destruct (branch_total hs (f_state n) to N B) as (r & Er). congruence.
Qed.
End Proofs.

Section Whole.
Context (H : header -> N) (ng : network -> N) (scf : SyncModel.sconf) (P : CbfModel.params) (kcf : kconf) (acf : aconf) (ping_timeout cap : N).
Context (env : nat -> nenv) (wenv_of : nat -> wenv) (magic : N) (hook : sockaddr -> wmsg -> bool).
Context (st : store) (ps : params) (cps : list (N * N)) (fst0 : list (N * N)) (c0 : cache) (white : gset ip) (am : amgr).
Notation fullstep := (full_step H scf P kcf acf ping_timeout env wenv_of magic hook).
Notation fullrun := (full_run H scf P kcf acf ping_timeout env wenv_of magic hook).
Notation s0 := (full0 c0 (CbfModel.cbf0 cap fst0) white am).
Notation wset hs := (wsetup H ng P kcf env wenv_of st ps cps fst0 c0 am hs).

Lemma whole_heights os s t : wset (wheaders os) -> fullrun (WInitialize :: os) s0 = Val (s, t) -> w_never_drops fullstep (WInitialize :: os) s0 ->
  w_filter_height_of s <= w_height_of s.
Proof.
  intros [Su Sn Fw (e0 & known & F0 & Ea)] R D.
  destruct (whole_run H scf P kcf acf ping_timeout env wenv_of magic hook Sn Fw cap fst0 c0 white e0 known am F0 Ea os s t R) as (ns & n & E & S & O & Sb & Dn & _ & _).
  apply (setup_sub _ _ _ _ _ _ _ _ _ _ _ Sb) in Su. destruct Su as [S1 S2 S3 S4 S5 S6 S7 S8 S9]. destruct (sim_height s n S) as [<- <-].
  exact (up_heights H ng scf P cap unkey env magic st ps cps c0 S1 S2 S3 S6 S7 fst0 S8 S9 ns n _ (conj S4 S5) E (Dn D)).
Qed.
Lemma last_sub os o (n : list nop) no s : node_headers n `sublist_of` wheaders os -> nop_of magic hook o s = Some no -> node_headers (n ++ [no]) `sublist_of` wheaders (os ++ [o]).
Proof.
  intros S E. unfold node_headers, wheaders in *. rewrite !map_app, !concat_app. apply sublist_app; [exact S|]. cbn. by rewrite (nop_headers magic hook o s no E).
Qed.
Lemma sub_prefix os o (n : list nop) : node_headers n `sublist_of` wheaders os -> node_headers n `sublist_of` wheaders (os ++ [o]).
Proof. intros S. unfold wheaders in *. rewrite map_app, concat_app. by apply sublist_inserts_r. Qed.
Lemma whole_panics os s t o p : wset (wheaders (os ++ [o])) -> fullrun (WInitialize :: os) s0 = Val (s, t) -> w_never_drops fullstep (WInitialize :: os) s0 ->
  fullstep o s = Panic p -> w_known_panic magic s o p.
Proof.
  intros [Su Sn Fw (e0 & known & F0 & Ea)] R D Ep.
  destruct (whole_run H scf P kcf acf ping_timeout env wenv_of magic hook Sn Fw cap fst0 c0 white e0 known am F0 Ea os s t R) as (ns & n & E & S & O & Sb & Dn & _ & _).
  pose proof (setup_sub _ _ _ _ _ _ _ _ _ _ _ (sub_prefix os o ns Sb) Su) as [S1 S2 S3 S4 S5 S6 S7 S8 S9].
  assert (B : bounded H st (node_headers ns)) by done. assert (B0 : bounded H st []) by (by apply (bounded_prefix H unkey magic st [] (node_headers ns))).
  pose proof (run_up H ng scf P cap unkey env magic st ps cps c0 S1 S2 S3 S6 S7 ns _ [] n _ (start H ng scf P cap st ps cps c0 S1 S2 S3 fst0 S8 S9 B0) B E (Dn D)) as St.
  destruct (whole_panic H scf P kcf acf ping_timeout env wenv_of magic hook Sn Fw ng cap st ps cps c0 S1 S2 S3 _ s n o p S O (strong_weak _ _ _ _ _ _ _ St) B Ep) as (no & En & Er).
  apply (known_whole magic hook s n o no p S En).
  apply (setup_sub _ _ _ _ _ _ _ _ _ _ _ (last_sub os o ns no s Sb En)) in Su. clear S4 S5 S6 S7. destruct Su as [_ _ _ S4 S5 S6 S7 _ _].
  exact (up_panics H ng scf P cap unkey env magic st ps cps c0 S1 S2 S3 S6 S7 fst0 S8 S9 ns n _ no p (conj S4 S5) E (Dn D) Er).
Qed.
Lemma whole_settled os s t o p : wset (wheaders (os ++ [o])) -> block_io env -> w_one_by_one os -> fullrun (WInitialize :: os) s0 = Val (s, t) ->
  w_settled fullstep (WInitialize :: os) s0 ->
  (w_drained s -> w_filter_height_of s <= w_height_of s) /\ ((o = WNext \/ w_drained s) -> fullstep o s = Panic p -> w_known_panic magic s o p).
Proof.
  intros [Su Sn Fw (e0 & known & F0 & Ea)] Bi Ob R Se.
  destruct (whole_run H scf P kcf acf ping_timeout env wenv_of magic hook Sn Fw cap fst0 c0 white e0 known am F0 Ea os s t R) as (ns & n & E & S & O & Sb & _ & Sen & Obn).
  pose proof (setup_sub _ _ _ _ _ _ _ _ _ _ _ (sub_prefix os o ns Sb) Su) as [S1 S2 S3 S4 S5 S6 S7 S8 S9].
  assert (B : bounded H st (node_headers ns)) by done. assert (B0 : bounded H st []) by (by apply (bounded_prefix H unkey magic st [] (node_headers ns))).
  pose proof (strong_weak _ _ _ _ _ _ _ (start H ng scf P cap st ps cps c0 S1 S2 S3 fst0 S8 S9 B0)) as W0.
  assert (Al : all_reported (node_step H scf P unkey env magic) H ns (node0 c0 (CbfModel.cbf0 cap fst0))).
  { eapply (single_reported H ng st ps cps S1 scf P cap unkey env magic c0 S2 S3 S6 Bi S7 ns _ [] n); [exact W0|exact B|by apply Obn|exact E|by apply Sen]. }
  split.
  - intros D. destruct (sim_height s n S) as [<- <-]. apply (sim_drained s n S) in D.
    exact (settled_heights H ng scf P cap unkey env magic st ps cps c0 S1 S2 S3 S6 S7 fst0 S8 S9 ns n _ B E (Sen Se) Al D).
  - intros D Ep. pose proof (run_settled H ng scf P cap unkey env magic st ps cps c0 S1 S2 S3 S6 S7 ns _ [] n _ W0 B E (Sen Se) Al) as Wk.
    destruct (whole_panic H scf P kcf acf ping_timeout env wenv_of magic hook Sn Fw ng cap st ps cps c0 S1 S2 S3 _ s n o p S O Wk B Ep) as (no & En & Er).
    apply (known_whole magic hook s n o no p S En).
    apply (setup_sub _ _ _ _ _ _ _ _ _ _ _ (last_sub os o ns no s Sb En)) in Su. clear S4 S5 S6 S7. destruct Su as [_ _ _ S4 S5 S6 S7 _ _].
    refine (settled_known H ng scf P cap unkey env magic st ps cps c0 S1 S2 S3 S6 S7 fst0 S8 S9 ns n _ no p (conj S4 S5) E (Sen Se) Al _ Er).
    destruct D as [->|D]; [|right; by eapply sim_drained]. left. cbn [nop_of] in En. clear -En.
    destruct (take_first sources (f_box s)) as [[[c x] b]|]; [|discriminate En]. destruct (erase c x); [|discriminate En]. by injection En as <-.
Qed.
End Whole.
