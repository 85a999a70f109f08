(** Connections in the log of a run are those of the history of the peer
    manager. *)
From Verif Require Import Base PowModel UtilModel FeeModel BlockModel AddrModel AddrSpec AddrFacts PeerModel PeerSpec PeerProofs PeerMain PeerFacts PingModel
  DispModel DispSpec DispProofs LoadModel NodeModel FullModel FullSpec FullSim FullMgrSpec FullMgr FullLinkSpec.
From Verif Require SyncModel CbfModel InvModel PingSpec.
Open Scope N_scope.

(** ** Statuses without times *)
Definition strip (st : status) : lstate :=
  match st with
  | Idle => LIdle
  | Dialing _ => LDialing
  | Open local l _ h => LOpen local l ((fun h => (he_msg h, he_wtxid h, he_acked h)) <$> h)
  | Closing => LClosing
  end.
Definition of_msg (m : kmsg) (h : option (vmsg * bool * bool)) : option (vmsg * bool * bool) :=
  match m with MVersion v => hears (WVersion v) h | MVerack => hears WVerack h | MWtxidRelay => hears WWtxidRelay h | MOther => h end.
Definition saw_op (a : sockaddr) (o : kop) (st : lstate) : lstate :=
  match o with
  | KConnected a' local l => if bool_decide (a' = a) then LOpen local l None else st
  | KDisconnected a' _ => if bool_decide (a' = a) then LIdle else st
  | KMessage a' m => if bool_decide (a' = a) then match st with LOpen local l h => LOpen local l (of_msg m h) | _ => st end else st
  | _ => st
  end.
Lemma strip_op a now o st : strip (observe_op a now o st) = saw_op a o (strip st).
Proof.
  destruct o as [|a' local l|a' r|a' m|a' r| |a'|o' ae]; cbn [observe_op saw_op]; try done; destruct (bool_decide (a' = a)); try done.
  destruct st as [| |local l since h|]; try done. cbn [strip]. f_equal. destruct m, h as [h|]; try done; by destruct h.
Qed.
Lemma strip_outs a now x : forall st, strip (outs a now x st) = fold_left (fun st y => saw_output a y st) (snd <$> flat_map peer_io x) (strip st).
Proof.
  unfold outs. induction x as [|y x IH]; intros st; cbn [fold_left flat_map]; [done|]. rewrite IH, fmap_app, fold_left_app. f_equal.
  destruct y; cbn [peer_io fmap list_fmap snd fold_left observe_out saw_output]; try done; by destruct (bool_decide _).
Qed.
Lemma strip_observe a o now x st : strip (observe a (o, now, x) st) = fold_left (fun st y => saw_output a y st) (snd <$> flat_map peer_io x) (saw_op a o (strip st)).
Proof. rewrite observe_outs, strip_outs. by rewrite strip_op. Qed.

(** ** Parts of histories *)
Definition quiet (t : kop * N * list kout) : Prop := (exists o ae, t.1.1 = KAddr o ae) /\ t.2 = [].
Lemma quiet_status a tr : Forall quiet tr -> forall st, fold_left (fun st t => observe a t st) tr st = st.
Proof.
  induction 1 as [|[[o now] x] tr [(o' & ae & Eo) Ex] F IH]; intros st; [done|]. cbn [fst snd] in *. subst. cbn [fold_left]. apply IH.
Qed.
Lemma quiet_put tr : Forall quiet tr -> put_peer tr = [].
Proof. unfold put_peer. induction 1 as [|[[o now] x] tr [_ Ex] F IH]; [done|]. cbn [flat_map snd] in *. subst. exact IH. Qed.
Definition to_peer (c : mcall) : option kop := match c with ToPeer o => Some o | _ => None end.
Lemma to_peer_called tr cs : called tr = omap not_ping cs -> omap to_peer (called tr) = omap to_peer cs.
Proof. intros ->. induction cs as [|c cs IH]; [done|]. destruct c; cbn; rewrite ?IH; done. Qed.

Section Krun.
Context (kcf : kconf) (acf : aconf).
Notation krun := (krun kcf acf).
Lemma krun_cons t tr kos st st' : krun kos st = Val (st', t :: tr) ->
  exists o e kos' s1 am1, kos = (o, e) :: kos' /\ t.1.1 = o /\ t.1.2 = ke_now e /\ kstep kcf acf (o, e) st = Val (s1, am1, t.2) /\ krun kos' (s1, am1) = Val (st', tr).
Proof.
  destruct kos as [|[o e] kos]; cbn [PeerSpec.krun]; [done|]. destruct (kstep kcf acf (o, e) st) as [[[s1 am1] x]|] eqn:E; cbn [mbind_M]; [|done].
  destruct (PeerSpec.krun kcf acf kos (s1, am1)) as [[st2 tr2]|] eqn:R; cbn [mbind_M]; [|done]. intros [= -> <- ->]. cbn [fst snd].
  exists o, e, kos, s1, am1. done.
Qed.
Lemma krun_nil kos st st' : krun kos st = Val (st', []) -> kos = [] /\ st' = st.
Proof.
  destruct kos as [|[o e] kos]; cbn [PeerSpec.krun]; [by intros [= ->]|]. destruct (kstep kcf acf (o, e) st) as [[[s1 am1] x]|]; cbn [mbind_M]; [|done].
  by destruct (PeerSpec.krun kcf acf kos (s1, am1)) as [[st2 tr2]|].
Qed.
Lemma kaddr_step o ae e p am s1 am1 x : kstep kcf acf (KAddr o ae, e) (p, am) = Val (s1, am1, x) -> s1 = p /\ x = [].
Proof. cbn [kstep]. destruct (addr_step acf (o, ae) am) as [[am2 y]|]; cbn [mbind_M]; [|done]. by intros [= <- <- <-]. Qed.
(** At most one call of the peer manager itself. *)
Lemma one_call (cs : list mcall) (tr : ktrace) : forall kos p am p' am', (length (omap to_peer cs) <= 1)%nat -> called tr = omap not_ping cs -> krun kos (p, am) = Val (p', am', tr) -> Forall fair_kop kos ->
  match omap to_peer cs with
  | [] => Forall quiet tr /\ p' = p
  | k :: _ => exists ka A e B am1 am2 y, tr = A ++ (k, ke_now e, y) :: B /\ Forall quiet A /\ Forall quiet B /\ krun ka (p, am) = Val (p, am1, A) /\ Forall fair_kop ka /\
      fair_kop (k, e) /\ kstep kcf acf (k, e) (p, am1) = Val (p', am2, y)
  end.
Proof.
  intros kos p am p' am' Le C. rewrite <- (to_peer_called _ _ C) in *. clear C cs. revert kos p am Le.
  induction tr as [|[[o now] y] tr IH]; intros kos p am Le R F.
  - cbn. apply krun_nil in R as [-> [= -> ->]]. split; [by apply Forall_nil|done].
  - apply krun_cons in R as (o' & e & kos' & s1 & am1 & -> & Eo & En & S & R). cbn [fst snd] in *. subst o' now. apply Forall_cons in F as [Fo F].
    assert ((exists o' ae, o = KAddr o' ae) \/ ~ (exists o' ae, o = KAddr o' ae)) as [(o' & ae & ->)|No] by (destruct o; try (right; by intros (? & ? & ?)); left; by eexists _, _).
    + destruct (kaddr_step _ _ _ _ _ _ _ _ S) as [-> ->]. cbn in Le. specialize (IH _ _ _ Le R F).
      change (omap to_peer (called ((KAddr o' ae, ke_now e, []) :: tr))) with (omap to_peer (called tr)).
      destruct (omap to_peer (called tr)) as [|k ks].
      * destruct IH as [Q ->]. split; [|done]. apply Forall_cons. split; [|done]. split; [by exists o', ae|done].
      * destruct IH as (ka & A & e' & B & am1' & am2 & y & -> & QA & QB & RA & FA & Fk & Sk).
        exists ((KAddr o' ae, e) :: ka), ((KAddr o' ae, ke_now e, []) :: A), e', B, am1', am2, y. split; [done|].
        split; [apply Forall_cons; split; [split; [by exists o', ae|done]|done]|]. split; [done|]. split; [|split; [by apply Forall_cons|done]].
        cbn [PeerSpec.krun]. rewrite S. cbn [mbind_M]. rewrite RA. done.
    + assert (Eo : omap to_peer (called ((o, ke_now e, y) :: tr)) = o :: omap to_peer (called tr)).
      { destruct o; try done. exfalso. apply No. by eexists _, _. }
      rewrite Eo in *. cbn [length] in Le. specialize (IH _ _ _ ltac:(lia) R F). destruct (omap to_peer (called tr)) as [|k ks]; [|cbn in Le; lia].
      destruct IH as [Q ->]. exists [], [], e, tr, am, am1, y. split; [done|]. split; [by apply Forall_nil|]. split; [done|]. split; [done|].
      split; [by apply Forall_nil|]. by split.
Qed.
End Krun.

Section Link.
Context (H : header -> N) (scf : SyncModel.sconf) (P : CbfModel.params) (kcf : kconf) (acf : aconf) (ping_timeout : N).
Context (env : nat -> nenv) (wenv_of : nat -> wenv) (magic : N) (hook : sockaddr -> wmsg -> bool).
Notation fullstep := (full_step H scf P kcf acf ping_timeout env wenv_of magic hook).
Notation onev := (FullModel.on_event H scf P kcf acf ping_timeout env wenv_of).
Hypothesis Fw : fair_wenv wenv_of.
Hypothesis Fo : forall n l, we_order (wenv_of n) l ≡ₚ l.

(** *** What a step announces *)
Definition plain_boxes (s : wstate) : Prop := forall c, Forall plain (f_box s c).
Definition says (s : wstate) (o : wop) (x : list (fitem wmsg wev)) : Prop :=
  match o with
  | WNext => announced x = [] \/ exists e, announced x = [e] /\ plain (IoEvent e)
  | WReceived a mg m =>
      (announced x = [WvMessage a m] /\ mg = magic /\ connected_at (w_peer (f_state s)) a = true /\ hook a m = true) \/
      (announced x = [] /\ ~ (mg = magic /\ connected_at (w_peer (f_state s)) a = true /\ hook a m = true))
  | _ => announced x = []
  end.
Lemma wired_plain (l l' : list wio) : map (wired magic) l = map (wired magic) l' -> Forall plain l -> Forall plain l'.
Proof.
  revert l'. induction l as [|x l IH]; intros [|y l'] E F; try done. cbn [map] in E. injection E as E1 E2. apply Forall_cons in F as [Fx F].
  apply Forall_cons. split; [|by apply IH]. destruct x, y; try done. cbn in E1. injection E1 as ->. exact Fx.
Qed.
Lemma step_says o s s' x : plain_boxes s -> fullstep o s = Val (s', x) -> says s o x /\ plain_boxes s'.
Proof.
  intros B E. split.
  2: { destruct (step_did H scf P kcf acf ping_timeout env wenv_of magic hook Fw Fo _ _ _ _ E) as (_ & _ & _ & _ & Q). intros c.
       pose proof (fstep_order _ _ _ _ _ _ E c) as O. assert (F : Forall plain (f_box s c ++ queued_by c x)) by (apply Forall_app; split; [apply B|apply Q]).
       assert (exists k, emitted_by c x = map (wired magic) k) as [k Ek].
       { exists (take (length (emitted_by c x)) (f_box s c ++ queued_by c x)). rewrite <- firstn_map, O. by rewrite take_app. }
       rewrite Ek, <- map_app in O. apply wired_plain in O; [|done]. by apply Forall_app in O as [_ O]. }
  assert (In : forall f, fstep onev magic (FInput f) s = Val (s', x) -> announced x = []).
  { intros f. cbn [fstep]. destruct (f (f_state s)) as [[st l]|]; cbn [mbind_M]; [|done]. intros [= <- <-]. by rewrite announced_fqueued. }
  unfold full_step in E. destruct o as [|a mg m|a local l|a r|a| |c|]; cbn [wop_fop] in E; try (by apply In in E).
  - unfold received_fop in E. cbn [says]. destruct (mg =? magic) eqn:Em; cbn [negb] in E.
    2: { apply In in E. right. split; [done|]. apply N.eqb_neq in Em. by intros [? _]. }
    apply N.eqb_eq in Em. destruct (connected_at _ _) eqn:Ec; cbn [negb] in E; [|apply In in E; right; split; [done|]; by intros (_ & ? & _)].
    destruct (hook a m) eqn:Eh; cbn [negb] in E; [|apply In in E; right; split; [done|]; by intros (_ & _ & ?)].
    left. split; [|done]. cbn [fstep] in E. destruct (event onev (WvMessage a m) s) as [[s1 l]|]; cbn [mbind_M] in E; [|done]. injection E as <- <-.
    by rewrite announced_app, announced_fqueued.
  - cbn [fstep] in E. unfold next in E. cbn [says]. destruct (take_first sources (f_box s)) as [[[c y] b]|] eqn:Tf; cbn [mbind_M] in E.
    + assert (Py : plain y). { apply take_first_some in Tf as (Ey & _). specialize (B c). rewrite Ey in B. by apply Forall_cons in B as [? _]. }
      destruct y; cbn [stamp mbind_M] in E; try (injection E as <- <-; by left).
      destruct (event onev e (Fsm (f_state s) b)) as [[s1 l]|]; cbn [mbind_M] in E; [|done]. injection E as <- <-.
      right. exists e. by rewrite announced_app, announced_fqueued.
    + injection E as <- <-. by left.
Qed.
(** At most one call of the peer manager in a step, and what is seen of it. *)
Lemma one_peer s o x : says s o x -> (length (omap to_peer (calls_of magic o x)) <= 1)%nat /\
  forall a st, fold_left (fun st e => saw_event a e st) (announced x) (saw_input a o st) =
    match omap to_peer (calls_of magic o x) with k :: _ => saw_op a k st | [] => st end.
Proof.
  intros S. unfold calls_of. destruct o as [|b mg m|b local l|b r|b| |c|]; cbn [says] in S.
  1,3,4,5,6: rewrite S; cbn; split; [lia|done].
  - destruct S as [(-> & -> & _)|[-> _]].
    + cbn [input_calls]. rewrite N.eqb_refl. cbn [flat_map app]. rewrite app_nil_r. destruct m; cbn; (split; [lia|]); try done.
      all: intros a st; destruct (bool_decide (b = a)); [|done]; by destruct st.
    + cbn [input_calls flat_map]. destruct (mg =? magic); cbn; split; lia || done.
  - rewrite S. destruct c; cbn; (split; [lia|done]).
  - destruct S as [->|(e & -> & Pe)]; [cbn; split; [lia|done]|]. cbn [flat_map input_calls app]. rewrite app_nil_r.
    destruct e as [| |a m|y|y|e]; try (by destruct Pe); try (cbn; split; [lia|done]).
    + destruct y; cbn; (split; [lia|done]).
    + destruct e as [| | |e|e|e]; try (cbn; split; [lia|done]); destruct e; cbn; (split; [lia|done]).
Qed.
Lemma part_status cs tr kos p am p' am' : (length (omap to_peer cs) <= 1)%nat -> called tr = omap not_ping cs -> krun kcf acf kos (p, am) = Val (p', am', tr) -> Forall fair_kop kos ->
  forall a st, strip (fold_left (fun st t => observe a t st) tr st) =
    fold_left (fun st y => saw_output a y st) (put_peer tr) (match omap to_peer cs with k :: _ => saw_op a k (strip st) | [] => strip st end).
Proof.
  intros Le C R F a st. pose proof (one_call _ _ _ _ _ _ _ _ _ Le C R F) as O. destruct (omap to_peer cs) as [|k ks].
  - destruct O as [Q _]. by rewrite quiet_status, quiet_put.
  - destruct O as (ka & A & e & B & am1 & am2 & y & -> & QA & QB & _). rewrite fold_left_app. cbn [fold_left]. rewrite (quiet_status a A QA), (quiet_status a B QB).
    rewrite strip_observe. unfold put_peer. rewrite flat_map_app, fmap_app. cbn [flat_map snd]. rewrite fmap_app.
    fold (put_peer A). fold (put_peer B). rewrite (quiet_put A QA), (quiet_put B QB). by rewrite app_nil_r.
Qed.
Lemma logged_last s l o x s' : logged fullstep s (l ++ [(o, x)]) s' -> exists s1, logged fullstep s l s1 /\ fullstep o s1 = Val (s', x).
Proof.
  intros L. remember (l ++ [(o, x)]) as k eqn:Ek. destruct L as [s|s l' s1 o' x' s2 L' E]; [by destruct l|]. apply app_inj_tail in Ek as [-> [= -> ->]]. by exists s1.
Qed.

(** *** From the start *)
Context (c0 : cache) (f0 : CbfModel.cbf) (white : gset ip) (am : amgr).
Let s0 := full0 c0 f0 white am.
Context (e0 : aenv) (store : gmap ip known).
Hypothesis Fe0 : fair_aenv e0.
Hypothesis New : addr_new e0 store = Val am.

Lemma link_snoc a l p : link_of a (l ++ [p]) = saw a p (link_of a l).
Proof. unfold link_of. by rewrite fold_left_app. Qed.
Lemma status_app a t1 t2 : status_of a (t1 ++ t2) = fold_left (fun st t => observe a t st) t2 (status_of a t1).
Proof. unfold status_of. by rewrite fold_left_app. Qed.
Theorem history_link x0 l s : logged fullstep s0 ((WInitialize, x0) :: l) s ->
  exists kos tr, khistory kcf acf white kos tr (w_peer (f_state s)) (w_addr (f_state s)) /\ Forall (fun t => shown wenv_of t.1.2) tr /\
    (forall a, strip (status_of a tr) = link_of a ((WInitialize, x0) :: l)) /\ plain_boxes s.
Proof.
  revert s. induction l as [|[o x] l IH] using rev_ind; intros s.
  - intros (s1 & E & L)%logged_cons. cbn [fst snd] in E. assert (s = s1) as <- by (inversion L; [done|by destruct l]).
    assert (PB : plain_boxes s0) by (intros c; by apply Forall_nil).
    pose proof (step_says _ _ _ _ PB E) as [_ PB']. clear PB.
    apply (start_init H scf P kcf acf ping_timeout env wenv_of magic hook Fw) in E as (am1 & x1 & q & Ea & (_ & (tr & (k0 & R0 & F0) & C0 & T0 & Q0) & _) & Q & An).
    exists k0, tr. split; [|split; [|split]].
    + split; [|done]. exists store, (ae_now (we_addr (wenv_of 0))), [], am1. split; [by eapply history0|exact R0].
    + eapply Forall_impl; [exact T0|]. intros t (n & _ & En). by exists n.
    + intros a. unfold status_of. rewrite (part_status [ToPeer KInit] _ _ _ _ _ _ (le_n _) C0 R0 F0). unfold link_of. cbn [fold_left]. unfold saw. cbn [fst snd].
      rewrite An. cbn [fold_left saw_input]. f_equal. unfold put_peer. rewrite <- Q0, Q. cbn [flat_map fst snd]. rewrite flat_map_app, boxed_addr. done.
    + done.
  - rewrite app_comm_cons. intros (s1 & L & E)%logged_last. destruct (IH _ L) as (kos & tr & Hh & T & St & PB).
    destruct (step_says _ _ _ _ PB E) as [Sy PB']. destruct (one_peer _ _ _ Sy) as [Le Ob].
    apply (step_did H scf P kcf acf ping_timeout env wenv_of magic hook Fw Fo) in E as (_ & (tr' & (k' & R' & F') & C' & T' & Q') & _).
    exists (kos ++ k'), (tr ++ tr'). split; [|split; [|split; [|done]]].
    + destruct Hh as [(st & t0 & aos & am0 & Ha & R) F]. split; [|by apply Forall_app]. exists st, t0, aos, am0. split; [done|].
      rewrite krun_app, R. cbn [mbind_M]. by rewrite R'.
    + apply Forall_app. split; [done|]. eapply Forall_impl; [exact T'|]. intros t (n & _ & En). by exists n.
    + intros a. rewrite status_app, (part_status _ _ _ _ _ _ _ Le C' R' F'), link_snoc, <- St. unfold saw. cbn [fst snd]. rewrite Ob, Q'. done.
Qed.

(** A step of the whole is a step of the peer manager. *)
Theorem step_call x0 l s o x s' : logged fullstep s0 ((WInitialize, x0) :: l) s -> fullstep o s = Val (s', x) ->
  match omap to_peer (calls_of magic o x) with
  | [] => queued_by CPeer x = [] /\ w_peer (f_state s') = w_peer (f_state s)
  | k :: _ => exists kos tr e am1 am2 y, khistory kcf acf white kos tr (w_peer (f_state s)) am1 /\ fair_kop (k, e) /\ shown wenv_of (ke_now e) /\
      kstep kcf acf (k, e) (w_peer (f_state s), am1) = Val (w_peer (f_state s'), am2, y) /\
      queued_by CPeer x = snd <$> flat_map peer_io y /\ forall a, strip (status_of a tr) = link_of a ((WInitialize, x0) :: l)
  end.
Proof.
  intros L E. destruct (history_link _ _ _ L) as (kos & tr & Hh & T & St & PB). destruct (step_says _ _ _ _ PB E) as [Sy PB']. destruct (one_peer _ _ _ Sy) as [Le Ob].
  apply (step_did H scf P kcf acf ping_timeout env wenv_of magic hook Fw Fo) in E as (_ & (tr' & (k' & R' & F') & C' & T' & Q') & _).
  pose proof (one_call _ _ _ _ _ _ _ _ _ Le C' R' F') as O. destruct (omap to_peer (calls_of magic o x)) as [|k ks].
  - destruct O as [Q Ep]. split; [|done]. rewrite Q'. by apply quiet_put.
  - destruct O as (ka & A & e & B & am1 & am2 & y & -> & QA & QB & RA & FA & Fk & Sk). exists (kos ++ ka), (tr ++ A), e, am1, am2, y.
    split; [|split; [done|split; [|split; [done|split]]]].
    + destruct Hh as [(st & t0 & aos & am0 & Ha & R) F]. split; [|by apply Forall_app]. exists st, t0, aos, am0. split; [done|].
      rewrite krun_app, R. cbn [mbind_M]. by rewrite RA.
    + apply Forall_app in T' as [_ T']. apply Forall_cons in T' as [(n & _ & En) _]. by exists n.
    + rewrite Q'. change (snd <$> flat_map (fun t => flat_map peer_io t.2) (A ++ (k, ke_now e, y) :: B)) with (put_peer (A ++ (k, ke_now e, y) :: B)).
      unfold put_peer. rewrite flat_map_app, fmap_app. cbn [flat_map snd]. rewrite fmap_app. fold (put_peer A). fold (put_peer B).
      rewrite (quiet_put A QA), (quiet_put B QB). by rewrite app_nil_r.
    + intros a. rewrite status_app, (quiet_status a A QA). apply St.
Qed.
End Link.
