(** The transactions held by the whole client. *)
From Verif Require Import Base PowModel PeerFacts BlockModel BlockSpec UtilModel FeeModel AddrModel AddrSpec PeerModel PeerSpec PeerMain PingModel DispModel DispSpec DispProofs LoadModel
  NodeModel NodeSpec NodeProofs NodeLogSpec NodeLog FullModel FullSpec FullSim FullProofs FullMgrSpec FullMgr FullLinkSpec FullLink FullLinked FullNodeSpec FullNode FullWrites PoolSpec PoolProofs.
From Verif Require SyncModel CbfModel CbfSpec InvModel InvSpec InvProofs.
Open Scope N_scope.

Lemma same_pool v e e' : similar e e' -> log_pool v e = log_pool v e'.
Proof. intros [[E|[I J]] _ _ _ Q _]; unfold log_pool; rewrite Q; [by rewrite E|]. destruct (e_op e), (e_op e'); done. Qed.
Lemma none_pool v e : neutral e -> log_pool v e = v.
Proof. intros [I _ Q _]; unfold log_pool. rewrite Q. by destruct (e_op e). Qed.
Lemma corr_pool l l' : corr l l' -> pool l = pool l'.
Proof. intros C. apply (corr_fold _ same_pool none_pool _ _ C). Qed.
Lemma same_relays a v e e' : similar e e' -> log_relays a v e = log_relays a v e'.
Proof. intros [_ _ _ A Q _]. unfold log_relays. by rewrite A, Q. Qed.
Lemma none_relays a v e : neutral e -> log_relays a v e = v.
Proof. intros [_ A Q _]. unfold log_relays. by rewrite A, Q. Qed.
Lemma corr_relays a l l' : corr l l' -> relays a l = relays a l'.
Proof. intros C. apply (corr_fold _ (same_relays a) (none_relays a) _ _ C). Qed.

(** Who relays has completed a handshake. *)
Lemma relay_events a es : forall v b, foldl (relay_event a) v es = Some b -> v = Some b \/ exists h ob nw fl wt pe, EvNegotiated a h ob nw fl b wt pe ∈ es.
Proof.
  induction es as [|e es IH]; intros v b; cbn [foldl]; [by left|]. intros [E|(h & ob & nw & fl & wt & pe & I)]%IH.
  - destruct e as [b' he ob nw fl re wt pe|b'| | | |]; cbn [relay_event] in E; try (by left).
    + destruct (N.eqb_spec b' a) as [->|]; [|by left]. injection E as ->. right. exists he, ob, nw, fl, wt, pe. by left.
    + destruct (b' =? a); [done|by left].
  - right. exists h, ob, nw, fl, wt, pe. by right.
Qed.
Lemma relays_in a l b : relays a l = Some b -> exists h ob nw fl wt pe, EvNegotiated a h ob nw fl b wt pe ∈ events l.
Proof.
  unfold relays, events. induction l as [|e l IH] using rev_ind; [done|]. rewrite foldl_app, fmap_app, concat_app, announced_app. cbn [foldl fmap list_fmap concat]. rewrite app_nil_r. unfold log_relays at 1.
  destruct (existsb _ _); [done|]. intros [E|(h & ob & nw & fl & wt & pe & I)]%relay_events.
  - destruct (IH E) as (h & ob & nw & fl & wt & pe & I). exists h, ob, nw, fl, wt, pe. apply elem_of_app. by left.
  - exists h, ob, nw, fl, wt, pe. apply elem_of_app. by right.
Qed.

Section Whole.
Context (H : header -> N) (scf : SyncModel.sconf) (P : CbfModel.params) (kcf : kconf) (acf : aconf) (ping_timeout : N).
Context (env : nat -> nenv) (wenv_of : nat -> wenv) (magic : N) (hook : sockaddr -> wmsg -> bool).
Notation fullstep := (full_step H scf P kcf acf ping_timeout env wenv_of magic hook).
Notation nstep := (node_step H scf P unkey env magic).
Context (Sn : sane kcf) (Fw : fair_wenv wenv_of) (Fo : forall n l, we_order (wenv_of n) l ≡ₚ l).
Context (cap : N) (st : list (N * N)) (c0 : cache) (white : gset ip) (am : amgr).
Context (e0 : aenv) (known : gmap ip known) (F0 : fair_aenv e0) (Ea : addr_new e0 known = Val am).
Notation s0 := (full0 c0 (CbfModel.cbf0 cap st) white am).
Notation logs os := (whole_log H fullstep env (WInitialize :: os) s0).

Lemma whole_pool os s L : logs os = Val (s, L) ->
  InvModel.iv_mempool (n_inv (w_node (f_state s))) = pool (entry_of <$> L) /\
  (forall a, InvModel.ip_relay <$> InvModel.iv_peers (n_inv (w_node (f_state s))) !! a = relays a (entry_of <$> L)) /\
  (forall w t, pool (entry_of <$> L) !! w = Some t -> t_wid t = w).
Proof.
  intros R. destruct (start_log H scf P kcf acf ping_timeout env wenv_of magic hook Sn Fw Fo cap st c0 white am e0 known F0 Ea _ _ _ R) as (ns & n & L' & Rn & S & O & C & _).
  destruct S as [En _]. rewrite <- En, (corr_pool _ _ C), (node_pool _ _ _ _ _ _ _ _ _ _ _ Rn). split; [done|]. split.
  - intros a. rewrite (corr_relays a _ _ C). exact (node_relays _ _ _ _ _ _ _ _ _ _ _ a Rn).
  - intros w t. rewrite <- (node_pool _ _ _ _ _ _ _ _ _ _ _ Rn). exact (proj1 (node_ok _ _ _ _ _ _ _ _ _ _ _ Rn) w t).
Qed.
Theorem whole_submitted os s L id s' q r : logs os = Val (s, L) -> exec H scf P kcf acf env wenv_of (CmdGetSubmitted id) (f_state s) = Val (s', q, r) ->
  s' = f_state s /\ q = [] /\ exists o, r = RpTx o /\
    match o with Some t => pool (entry_of <$> L) !! t_wid t = Some t /\ t_id t = id | None => forall w t, pool (entry_of <$> L) !! w = Some t -> t_id t <> id end.
Proof.
  intros R. cbn [exec]. intros E. injection E as <- <- <-. split; [done|]. split; [done|]. eexists. split; [reflexivity|]. unfold submitted_tx.
  destruct (whole_pool _ _ _ R) as (-> & _ & W). set (m := pool (entry_of <$> L)) in *.
  destruct (List.find _ _) as [t|] eqn:F.
  - apply List.find_some in F as [I Q]. apply N.eqb_eq in Q. split; [|exact Q]. apply elem_of_list_In, elem_of_list_fmap in I as ([w t'] & -> & I). apply elem_of_map_to_list in I. cbn [snd]. by rewrite (W w t' I).
  - intros w t I. apply elem_of_map_to_list in I. assert (J : In t ((map_to_list m).*2)) by (apply elem_of_list_In, elem_of_list_fmap; by exists (w, t)).
    pose proof (List.find_none _ _ F t J) as Q. by apply N.eqb_neq in Q.
Qed.
Lemma filter_keys (f : N * InvModel.ipeer -> bool) l : NoDup l.*1 -> NoDup (List.filter f l).*1.
Proof.
  induction l as [|[a p] l IH]; intros D; [constructor|]. cbn [fmap list_fmap fst] in D. apply NoDup_cons in D as [D1 D2]. cbn [List.filter]. destruct (f (a, p)); [|by apply IH].
  cbn [fmap list_fmap fst]. apply NoDup_cons. split; [|by apply IH]. intros I. apply D1. apply elem_of_list_fmap in I as (z & E & I). apply elem_of_list_fmap. exists z. split; [done|].
  apply elem_of_list_In, filter_In in I as [I _]. by apply elem_of_list_In.
Qed.
Lemma announced_keys os s L : logs os = Val (s, L) -> NoDup (announced_to (f_state s)) /\ forall a, a ∈ announced_to (f_state s) <-> relays (key a) (entry_of <$> L) = Some true.
Proof.
  intros R. destruct (whole_pool _ _ _ R) as (_ & V & _). unfold announced_to. set (ps := InvModel.iv_peers (n_inv (w_node (f_state s)))) in *.
  set (l := List.filter (fun p : N * InvModel.ipeer => InvModel.ip_relay p.2) (map_to_list ps)).
  assert (M : forall k, k ∈ l.*1 <-> relays k (entry_of <$> L) = Some true).
  { intros k. rewrite <- V. rewrite elem_of_list_fmap. split.
    - intros ([k' p] & -> & I). apply elem_of_list_In, filter_In in I as [I F]. apply elem_of_list_In, elem_of_map_to_list in I. cbn [fst]. rewrite I. cbn. cbn in F. by rewrite F.
    - destruct (ps !! k) as [p|] eqn:Ek; [|done]. cbn. intros [= F]. exists (k, p). split; [done|]. apply elem_of_list_In, filter_In. split; [|exact F]. by apply elem_of_list_In, elem_of_map_to_list. }
  assert (K : forall k, k ∈ l.*1 -> key (unkey k) = k).
  { intros k I. apply M, relays_in in I as (h & ob & nw & fl & wt & pe & I). eapply (told_key H scf P kcf acf ping_timeout env wenv_of magic hook) in R; [|exact I]; exact R. }
  replace (map (fun p : N * InvModel.ipeer => unkey p.1) l) with (unkey <$> l.*1) by (rewrite <- list_fmap_compose; reflexivity). split.
  - assert (D : NoDup l.*1) by (apply filter_keys, NoDup_fst_map_to_list). revert D K. generalize (l.*1) as ks. clear. intros ks. induction ks as [|k ks IH]; intros D K; [constructor|].
    apply NoDup_cons in D as [D1 D2]. cbn [fmap list_fmap]. apply NoDup_cons. split; [|apply IH; [done|]; intros j I; apply K; by right].
    intros I. apply elem_of_list_fmap in I as (j & E & I). apply D1. replace k with j; [done|]. rewrite <- (K j) by (by right). rewrite <- E. apply K. by left.
  - intros a. rewrite <- M. rewrite elem_of_list_fmap. split.
    + intros (k & -> & I). by rewrite (K k I).
    + intros I. exists (key a). by rewrite unkey_key.
Qed.
Theorem whole_submit os s L t s' q r : logs os = Val (s, L) -> exec H scf P kcf acf env wenv_of (CmdSubmit t) (f_state s) = Val (s', q, r) ->
  exists o, r = RpSubmit o /\ match o with
    | Some l => l <> [] /\ NoDup l /\ forall a, a ∈ l <-> relays (key a) (entry_of <$> L) = Some true
    | None => forall a, relays (key a) (entry_of <$> L) <> Some true
    end.
Proof.
  intros R. cbn [exec]. destruct (andthen _ _ (f_state s)) as [[s1 x]|]; cbn [mbind_M]; [|done]. intros E. injection E as <- <- <-. eexists. split; [reflexivity|].
  destruct (announced_keys _ _ _ R) as [D M]. destruct (announced_to (f_state s)) as [|b l].
  - intros a Q. apply M in Q. by apply elem_of_nil in Q.
  - split; [done|]. split; [exact D|exact M].
Qed.
Theorem whole_served os s L o s' x a is : logs os = Val (s, L) -> fullstep o s = Val (s', x) -> WvMessage a (WNode (MGetData is)) ∈ announced x ->
  (forall w t, writes x w (MTx t) -> w = a /\ pool (entry_of <$> L) !! t_wid t = Some t /\ exists i, i ∈ is /\ InvSpec.names i t) /\
  (forall i w t, i ∈ is -> pool (entry_of <$> L) !! w = Some t -> InvSpec.names i t -> exists t', writes x a (MTx t') /\ InvSpec.names i t').
Proof.
  intros R E A. destruct (start_log H scf P kcf acf ping_timeout env wenv_of magic hook Sn Fw Fo cap st c0 white am e0 known F0 Ea _ _ _ R) as (ns & n & L' & Rn & S & O & C & _).
  assert (Q : EvMessage (key a) (MGetData is) ∈ announced (omap item_of x)) by (apply told_in; eauto).
  destruct (one_sim H scf P kcf acf ping_timeout env wenv_of magic hook Sn Fw Fo o s n s' x O S E) as [_ [(no & n' & _ & En & S' & Si)|[Ne _]]].
  2:{ pose proof (ne_announced _ Ne) as Z. cbn [e_items entry_of wlog_step wl_items] in Z. rewrite Z in Q. by apply elem_of_nil in Q. }
  pose proof (si_announced _ _ Si) as Z. cbn [e_items entry_of wlog_step wl_items log_step] in Z. rewrite Z in Q.
  pose proof (one_announced H scf P env magic hook _ _ _ _ _ En Q) as A1.
  destruct (node_served H scf P unkey env magic c0 (CbfModel.cbf0 cap st) _ _ _ _ _ _ _ _ Rn En A1) as [S1 S2]. rewrite <- (corr_pool _ _ C) in S1, S2. rewrite unkey_key in S1, S2.
  pose proof (si_written _ _ Si) as W. cbn [e_items entry_of wlog_step wl_items log_step] in W. rewrite <- W in S1, S2.
  assert (V : forall w m, (w, m) ∈ written (omap item_of x) <-> exists c, c <> CMain /\ FQueued c (IoWrite w (WNode m)) ∈ x).
  { intros w m. unfold written. rewrite elem_of_list_omap. split.
    - intros (i & I & J). apply elem_of_list_omap in I as (z & I & K). destruct i as [c [| | | |]| |]; try done. injection J as -> ->.
      destruct z as [c' [? u| | | |u]|c' [? [? u]| | | |u]|u]; cbn [item_of] in K; try done; try (by destruct (told_of u)). destruct u; try done. destruct (decide (c' = CMain)); [done|]. injection K as -> -> ->. by exists c.
    - intros (c & Nc & I). exists (FQueued c (IoWrite w m)). split; [|done]. apply elem_of_list_omap. eexists. split; [exact I|]. cbn [item_of]. by rewrite decide_False. }
  split.
  - intros w t (c & I). destruct (decide (c = CMain)) as [->|Nc]; [|apply S1, V; by exists c].
    exfalso. destruct (main_writes H scf P kcf acf ping_timeout env wenv_of magic hook _ _ _ _ _ _ E I) as (pred & ->). revert E. unfold full_step. cbn [wop_fop fstep].
    match goal with |- mbind_M ?u _ = _ -> _ => destruct u as [[? y]|] end; cbn [mbind_M]; [|done]. intros [= <- <-]. clear -A. induction y as [|[] y IH]; [by apply elem_of_nil in A|exact (IH A)].
  - intros i w t Ii M Nm. destruct (S2 i w t Ii M Nm) as (t' & I & Nm'). exists t'. split; [|done]. apply V in I as (c & _ & I). by exists c.
Qed.
End Whole.
