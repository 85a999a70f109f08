(** The chain of a running node. *)
From Verif Require Import Base PowModel BlockModel BlockSpec BlockProofs BlockRun BlockMain BlockFacts BlockOrigin BlockQueries UtilModel FeeModel AddrModel AddrSpec PeerModel PeerSpec PeerMain
  PingModel DispModel DispSpec DispProofs LoadModel NodeModel NodeSpec NodeProofs NodeTip FullModel FullSpec FullSim FullProofs FullChainSpec ClientModel.
From Verif Require SyncModel SyncSpec CbfModel InvModel.
Open Scope N_scope.

(** A chain that the header cache reaches. *)
Section Cache.
Context (H : header -> N) (ng : network -> N) (st : store) (ps : params) (cps : list (N * N)) (Hps : params_ok ps).

Lemma reach_lookup os c outs : reachable H ng st ps cps os c outs -> forall h, get_block_by_height c h = active c !! N.to_nat h.
Proof. intros R h. destruct (reach_inv H ng st ps cps Hps _ _ _ R) as (rank & tl & I). by rewrite (inv_active I), (inv_get_by_height I). Qed.
Lemma reach_chain os c outs given : reachable H ng st ps cps os c outs -> (forall x, x ∈ presented os -> x ∈ given) -> a_chain H st given (active c).
Proof.
  intros R G. pose proof (reach_lookup _ _ _ R) as L. destruct (linked_chain H ng st ps cps Hps _ _ _ R) as (A & _ & B & _). split; [exact (eq_trans (eq_sym (L 0)) A)|]. split; [|split].
  - intros i p x E1 E2. apply (B (N.of_nat i)); rewrite L; [by rewrite Nat2N.id|]. by replace (N.to_nat (N.of_nat i + 1)) with (S i) by lia.
  - destruct (reach_inv H ng st ps cps Hps _ _ _ R) as (rank & tl & I). rewrite (inv_active I). exact (inv_nodup I).
  - intros x I. pose proof (known_presented H ng st ps cps os c outs x Hps R (or_introl I)) as K. rewrite elem_of_cons, elem_of_app in K |- *. destruct K as [K|[K|K]]; auto.
Qed.
Lemma reach_tip os c outs : reachable H ng st ps cps os c outs -> lenN (active c) = c_height c + 1 /\ last (active c) = Some (c_tip H c).2 /\ (c_tip H c).1 = H (c_tip H c).2.
Proof.
  intros R. destruct (linked_chain H ng st ps cps Hps _ _ _ R) as (_ & _ & _ & A & B & C). split; [done|]. split; [|done].
  rewrite (reach_lookup _ _ _ R) in A. rewrite last_lookup. unfold lenN in C. replace (pred (length (active c))) with (N.to_nat (c_height c)) by lia. done.
Qed.
Lemma not_on os c outs k : reachable H ng st ps cps os c outs -> contains c k = false -> forall hd, hd ∈ active c -> H hd <> k.
Proof.
  intros R C hd I E. destruct (hash_index H ng st ps cps Hps _ _ _ R) as (_ & B & _). apply elem_of_list_lookup in I as [i I].
  enough (contains c k = true) by congruence. apply B. exists (N.of_nat i), hd. by rewrite (reach_lookup _ _ _ R), Nat2N.id.
Qed.
Lemma on_chain os c outs k : reachable H ng st ps cps os c outs -> contains c k = true -> exists i hd, active c !! i = Some hd /\ H hd = k /\ get_block c k = Some (N.of_nat i, hd).
Proof.
  intros R C. destruct (hash_index H ng st ps cps Hps _ _ _ R) as (A & B & _). apply B in C as (h & x & E & Ek). exists (N.to_nat h), x. rewrite <- (reach_lookup _ _ _ R). split; [done|]. split; [done|].
  rewrite N2Nat.id. by apply A.
Qed.
End Cache.

Section Full.
Context (H : header -> N) (ng : network -> N) (scf : SyncModel.sconf) (P : CbfModel.params) (kcf : kconf) (acf : aconf) (ping_timeout cap : N).
Context (env : nat -> nenv) (wenv_of : nat -> wenv) (magic : N) (hook : sockaddr -> wmsg -> bool).
Context (st : store) (ps : params) (cps : list (N * N)) (fst0 : list (N * N)) (c0 : cache) (white : gset ip) (am : amgr).
Notation fullstep := (full_step H scf P kcf acf ping_timeout env wenv_of magic hook).
Notation fullrun := (full_run H scf P kcf acf ping_timeout env wenv_of magic hook).
Notation wset := (wsetup H ng P kcf env wenv_of st ps cps fst0 c0 am).
Notation s0 := (full0 c0 (CbfModel.cbf0 cap fst0) white am).
Notation cache_of s := (n_cache (w_node (f_state s))).

Lemma given_presented hs hist : Forall (given env hs) hist -> forall x, x ∈ presented hist -> x ∈ hs.
Proof.
  intros G hd I. unfold presented, inputs in I. apply elem_of_list_fmap in I as (y & -> & I). rewrite elem_of_list_In, in_concat in I. destruct I as (l & Il & Iy).
  apply in_map_iff in Il as (op & <- & Io). apply elem_of_list_In in Io. rewrite Forall_forall in G. destruct (G _ Io) as (n & hds & t & -> & K). apply K.
  cbn in Iy. rewrite <- (with_choices_fst env n hds). apply elem_of_list_In. by apply in_map.
Qed.
Lemma whole_reach os s t : wset (wheaders os) -> fullrun (WInitialize :: os) s0 = Val (s, t) ->
  exists hist outs, reachable H ng st ps cps hist (cache_of s) outs /\ forall x, x ∈ presented hist -> x ∈ wheaders os.
Proof.
  intros [Su Sn Fw (e0 & known & F0 & Ea)] R.
  destruct (whole_run H scf P kcf acf ping_timeout env wenv_of magic hook Sn Fw cap fst0 c0 white e0 known am F0 Ea os s t R) as (ns & n & E & S & O & Sb & _).
  apply (setup_sub _ _ _ _ _ _ _ _ _ _ _ Sb) in Su. destruct Su as [S1 S2 S3 S4 S5 S6 S7 S8 S9]. pose proof S as (En & _).
  destruct (run_reach H ng scf P unkey env magic st ps cps c0 S2 S3 S6 _ ns n _ S4 E) as (hist & outs & Re & G). rewrite En in Re. exists hist, outs. split; [exact Re|].
  intros x I. apply (given_presented _ _ G) in I. by eapply sublist_elem.
Qed.

Lemma whole_transition os o s t s' x c b k h rv cn : wset (wheaders (os ++ [o])) -> fullrun (WInitialize :: os) s0 = Val (s, t) -> fullstep o s = Val (s', x) ->
  FQueued c (IoEvent (WvNode (EvSync (SyncModel.SoImported b k h rv cn)))) ∈ x ->
  exists hist now tip n, transition H ng st ps cps hist (cache_of s) (OImport (with_choices env n (wheaders_of o)) now) (cache_of s') (Ok (TipChanged tip k h rv cn)).
Proof.
  intros [Su Sn Fw (e0 & known & F0 & Ea)] R Es I.
  destruct (whole_run H scf P kcf acf ping_timeout env wenv_of magic hook Sn Fw cap fst0 c0 white e0 known am F0 Ea os s t R) as (ns & n & E & S & O & Sb & _).
  pose proof (wstep_sim H scf P kcf acf ping_timeout env wenv_of magic hook Sn Fw o s n O S) as W. unfold wstep_ok, step_ok in W. rewrite Es in W. destruct W as [_ W].
  assert (J : FQueued c (IoEvent (EvSync (SyncModel.SoImported b k h rv cn))) ∈ omap (erase_item magic) x) by (apply elem_of_list_omap; by eexists).
  destruct (nop_of magic hook o s) as [no|] eqn:En; [|destruct W as [_ W]; rewrite W in J; by apply elem_of_nil in J]. destruct W as (n' & En' & S').
  apply (setup_sub _ _ _ _ _ _ _ _ _ _ _ (last_sub magic hook os o ns no s Sb En)) in Su. destruct Su as [S1 S2 S3 S4 S5 S6 S7 S8 S9].
  destruct (step_transition H ng scf P unkey env magic st ps cps c0 S2 S3 S6 _ ns no n _ n' _ c b k h rv cn S4 E En' J) as (_ & hist & now & tip & m & T).
  destruct S as (E1 & _), S' as (E2 & _). rewrite E1, E2 in T. rewrite (nop_headers _ _ _ _ _ En) in T. by exists hist, now, tip, m.
Qed.
Lemma whole_report os o s t s' x c b k h rv cn : wset (wheaders (os ++ [o])) -> fullrun (WInitialize :: os) s0 = Val (s, t) -> fullstep o s = Val (s', x) ->
  FQueued c (IoEvent (WvNode (EvSync (SyncModel.SoImported b k h rv cn)))) ∈ x -> true_report H (chain_of s) (chain_of s') k h rv cn.
Proof.
  intros Su R Es I. destruct (whole_transition _ _ _ _ _ _ _ _ _ _ _ _ Su R Es I) as (hist & now & tip & n & T). destruct Su as [[S1 _ _ _ _ _ _ _ _] _ _ _].
  destruct (batch_report_facts H ng st ps cps S1 _ _ _ _ _ _ T) as (Et & Eh & _ & _ & A & B & C). destruct (transition_reach H ng st ps cps hist _ _ _ _ S1 T) as [outs R2].
  destruct (reach_tip H ng st ps cps S1 _ _ _ R2) as (D1 & D2 & D3). unfold chain_of. split; [by rewrite Eh|]. split; [|done]. exists tip. rewrite D2, <- Et in *. by cbn in *.
Qed.

Lemma queries os s t : wset (wheaders os) -> fullrun (WInitialize :: os) s0 = Val (s, t) ->
  a_chain H st (wheaders os) (chain_of s) /\
  exists aside : header -> Prop, (forall x, aside x -> x ∈ s_genesis st :: s_tail st ++ wheaders os) /\
  forall c, match c with CmdGetTip | CmdGetByHeight _ | CmdGetBlock _ | CmdFindBranch _ => True | _ => False end ->
    fullstep (WCommand c) s = Val (s, []) /\ exists r, node_reply H scf P kcf acf env wenv_of c s = Val r /\ tells H (chain_of s) aside c r.
Proof.
  intros Su R. destruct (whole_reach _ _ _ Su R) as (hist & outs & Re & G). destruct Su as [[S1 _ _ _ _ _ _ _ _] _ _ _]. split; [by eapply reach_chain|].
  exists (stale H (cache_of s)). split.
  { intros x A. pose proof (known_presented H ng st ps cps hist _ outs x S1 Re (or_intror A)) as K. rewrite elem_of_cons, elem_of_app in K |- *. destruct K as [K|[K|K]]; auto. }
  assert (Cm : forall c r, exec H scf P kcf acf env wenv_of c (f_state s) = Val (f_state s, [], r) ->
    fullstep (WCommand c) s = Val (s, []) /\ node_reply H scf P kcf acf env wenv_of c s = Val r).
  { intros c r E. unfold node_reply, full_step. cbn [wop_fop fstep]. rewrite E. cbn [mbind_M queue fqueued map fmap list_fmap]. split; [by destruct s|done]. }
  pose proof (reach_tip H ng st ps cps S1 _ _ _ Re) as (T1 & T2 & _).
  intros [| k|h|k| | | | | | | | | | | |] C; try done; clear C.
  - destruct (Cm CmdGetTip _ eq_refl) as [A B]. split; [exact A|]. eexists. split; [exact B|]. cbn [tells]. exists (c_tip H (cache_of s)).2. unfold chain_of. split; [|exact T2].
    rewrite T1, <- (work_is_sum H ng st ps cps S1 _ _ _ Re). f_equal. lia.
  - destruct (Cm (CmdGetBlock k) _ eq_refl) as [A B]. split; [exact A|]. eexists. split; [exact B|]. cbn [tells]. destruct (contains (cache_of s) k) eqn:Ec.
    + left. destruct (on_chain H ng st ps cps S1 _ _ _ _ Re Ec) as (i & hd & E1 & E2 & E3). exists i, hd. by rewrite E3.
    + right. split; [by eapply not_on|]. f_equal. destruct (get_block (cache_of s) k) as [[h x]|] eqn:Eg; [|done].
      destruct (hash_index H ng st ps cps S1 _ _ _ Re) as (A1 & B1 & _). apply A1 in Eg. enough (contains (cache_of s) k = true) by congruence. apply B1. by exists h, x.
  - destruct (Cm (CmdGetByHeight h) _ eq_refl) as [A B]. split; [exact A|]. eexists. split; [exact B|]. cbn [tells]. unfold chain_of. by rewrite (reach_lookup H ng st ps cps S1 _ _ _ Re).
  - destruct (branch_lookup H ng st ps cps S1 _ _ _ k Re) as [B1 B2].
    assert (Cb : forall r, find_branch (cache_of s) k = Val r -> exec H scf P kcf acf env wenv_of (CmdFindBranch k) (f_state s) = Val (f_state s, [], RpBranch r)).
    { intros r E. unfold exec. rewrite E. done. }
    destruct (contains (cache_of s) k) eqn:Ec.
    + destruct (on_chain H ng st ps cps S1 _ _ _ _ Re Ec) as (i & hd & E1 & E2 & E3).
      destruct (Cm _ _ (Cb _ (B1 (N.of_nat i) hd ltac:(by rewrite (reach_lookup H ng st ps cps S1 _ _ _ Re), Nat2N.id) E2))) as [A B]. split; [exact A|]. eexists. split; [exact B|]. left. by exists i, hd.
    + destruct (B2 eq_refl) as (r & Er & Q). destruct (Cm _ _ (Cb _ Er)) as [A B]. split; [exact A|]. eexists. split; [exact B|]. right. split; [by eapply not_on|].
      destruct r as [[h [|x path]]|]; [done| |].
      * left. destruct Q as (Q1 & Q). rewrite (reach_lookup H ng st ps cps S1 _ _ _ Re) in Q1. exists (N.to_nat h), x, path. split; [exact Q1|]. by rewrite N2Nat.id.
      * right. split; [done|]. intros i hd path E1. apply (Q (N.of_nat i)). by rewrite (reach_lookup H ng st ps cps S1 _ _ _ Re), Nat2N.id.
Qed.
End Full.
