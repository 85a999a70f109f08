(** Why the whole client writes messages of the chain, the filters and
    transactions. *)
From Verif Require Import Base PowModel PeerFacts BlockModel BlockSpec UtilModel FeeModel AddrModel AddrSpec PeerModel PeerSpec PeerMain PingModel DispModel DispSpec DispProofs LoadModel
  NodeModel NodeSpec NodeProofs NodeLogSpec NodeLog FullModel FullSpec FullSim FullProofs FullMgrSpec FullMgr FullLinkSpec FullLink FullLinked FullNodeSpec FullNode.
From Verif Require SyncModel CbfModel CbfSpec InvModel InvSpec PingSpec ClientChain.
Open Scope N_scope.

(** Only the peer manager reports about peers, the other managers report their
    own events, and only broadcasts are written outside of the managers. *)
Definition own (e : nev) : Prop := match e with EvSync _ | EvCbf _ | EvInv _ => True | _ => False end.
Definition owned (p : comp * io wmsg wev) : Prop := match p.2 with IoEvent (WvPeer _) => p.1 = CPeer | IoEvent (WvNode e) => own e | IoEvent (WvMessage _ _) => False | IoWrite _ _ => p.1 <> CMain | _ => True end.
Definition made (p : comp * io nmsg nev) : Prop := node_comp p.1 = true /\ match p.2 with IoEvent e => own e | _ => True end.
Section Owned.
Context (H : header -> N) (scf : SyncModel.sconf) (P : CbfModel.params) (kcf : kconf) (acf : aconf) (ping_timeout : N).
Context (env : nat -> nenv) (wenv_of : nat -> wenv) (magic : N) (hook : sockaddr -> wmsg -> bool).
Notation fullstep := (full_step H scf P kcf acf ping_timeout env wenv_of magic hook).
Notation onev := (FullModel.on_event H scf P kcf acf ping_timeout env wenv_of).
Notation exec := (FullModel.exec H scf P kcf acf env wenv_of).
Definition owns (f : full -> M (full * list (comp * io wmsg wev))) : Prop := forall s s' l, f s = Val (s', l) -> Forall owned l.
Lemma owns_flat {A} (g : A -> list (comp * io wmsg wev)) l : (forall a, Forall owned (g a)) -> Forall owned (flat_map g l).
Proof. intros G. induction l as [|a l IH]; cbn [flat_map]; [by apply Forall_nil|]. by apply Forall_app. Qed.
Lemma owns_skip : owns skip.
Proof. intros s s' l [= <- <-]. by apply Forall_nil. Qed.
Lemma owns_emit e : (forall s, match e s with WvPeer _ | WvNode _ | WvMessage _ _ => False | _ => True end) -> owns (emit e).
Proof. intros Ne s s' l [= <- <-]. apply Forall_singleton. unfold owned. cbn. specialize (Ne s). by destruct (e s). Qed.
Definition makes (f : node -> M (node * list (comp * io nmsg nev))) : Prop := forall n n' l, f n = Val (n', l) -> Forall made l.
Lemma made_inv x : Forall made (flat_map (inv_io unkey) x).
Proof. induction x as [|y x IH]; cbn [flat_map]; [by apply Forall_nil|]. apply Forall_app. split; [|exact IH]. by destruct y; repeat constructor. Qed.
Lemma makes_sync o : makes (call_sync H scf unkey env o).
Proof.
  intros n n' l E. unfold call_sync in E. destruct (SyncModel.sync_step _ _ _ _) as [[[s c] x]|]; cbn [mbind_M] in E; [|done]. injection E as <- <-.
  induction x as [|y x IH]; cbn [flat_map]; [by apply Forall_nil|]. apply Forall_app. split; [|exact IH]. by destruct y; repeat constructor.
Qed.
Lemma makes_inv o : makes (call_inv unkey o).
Proof. intros n n' l E. unfold call_inv in E. destruct (InvModel.inv_step _ _) as [[i x]|]; cbn [mbind_M] in E; [|done]. injection E as <- <-. apply made_inv. Qed.
Lemma makes_cbf o : makes (call_cbf H P unkey env o).
Proof.
  intros n n' l E. unfold call_cbf in E. destruct (CbfModel.cbf_step _ _ _ _ _ _) as [[s x]|]; cbn [mbind_M] in E; [|done].
  destruct (get_blocks x (n_inv n)) as [i y]. injection E as <- <-. apply Forall_app. split; [|apply made_inv].
  induction x as [|z x IH]; cbn [flat_map]; [by apply Forall_nil|]. apply Forall_app. split; [|exact IH]. by destruct z; repeat constructor.
Qed.
Lemma makes_event c e : makes (NodeModel.on_event H scf P unkey env c e).
Proof.
  intros n n' l E. destruct c; cbn [NodeModel.on_event] in E; try (injection E as <- <-; by apply Forall_nil).
  - destruct (sync_event env e n); [by eapply makes_sync|]. injection E as <- <-. by apply Forall_nil.
  - destruct (inv_event H e n); [by eapply makes_inv|]. injection E as <- <-. by apply Forall_nil.
  - destruct (cbf_event e); [by eapply makes_cbf|]. injection E as <- <-. by apply Forall_nil.
Qed.
Lemma owns_then f g : owns f -> owns g -> owns (andthen f g).
Proof.
  intros F G s s' l. unfold andthen. destruct (f s) as [[s1 x]|] eqn:E; cbn [mbind_M]; [|done]. destruct (g s1) as [[s2 y]|] eqn:E2; cbn [mbind_M]; [|done]. intros [= <- <-].
  apply Forall_app. split; [by eapply F|by eapply G].
Qed.
Lemma owns_node f : makes f -> owns (call_node f).
Proof.
  intros Nf s s' l. unfold call_node. destruct (f (w_node s)) as [[n x]|] eqn:E; cbn [mbind_M]; [|done]. intros [= <- <-]. apply Nf in E. clear -E.
  induction E as [|[c y] x Hc Fx IH]; cbn [map]; [by apply Forall_nil|]. apply Forall_cons. split; [|exact IH]. destruct Hc as [Hc Hy]. cbn in Hc, Hy. destruct y; unfold owned; cbn; try done. by destruct c.
Qed.
Lemma owns_peer o : owns (call_peer kcf acf wenv_of o).
Proof. intros s s' l. unfold call_peer. destruct (kstep _ _ _ _) as [[[p a] x]|]; cbn [mbind_M]; [|done]. intros [= <- <-]. apply owns_flat. intros k. destruct k; cbn; by repeat constructor. Qed.
Lemma owns_addr o : owns (call_addr acf wenv_of o).
Proof. intros s s' l. unfold call_addr. destruct (addr_step _ _ _) as [[a x]|]; cbn [mbind_M]; [|done]. intros [= <- <-]. apply owns_flat. intros k. destruct k; cbn; by repeat constructor. Qed.
Lemma owns_ping o : owns (call_ping ping_timeout wenv_of o).
Proof. intros s s' l. unfold call_ping. destruct (ping_step _ _ _) as [a x]. intros [= <- <-]. apply owns_flat. intros k. destruct k; cbn; by repeat constructor. Qed.
Lemma owns_on c e : owns (onev c e).
Proof.
  assert (Nd : forall c, owns (fun s => match node_view e with Some e' => call_node (NodeModel.on_event H scf P unkey env c e') s | None => skip s end)).
  { intros c0. destruct (node_view e) as [e'|]; [|apply owns_skip]. apply owns_node. intros n n' l E. by eapply makes_event. }
  intros s s' l. destruct c; cbn [FullModel.on_event]; try apply Nd; try apply owns_skip.
  - destruct (peer_event_of e); [apply owns_peer|apply owns_skip].
  - destruct (ping_event e); [apply owns_ping|apply owns_skip].
  - destruct (addr_event e); [apply owns_addr|apply owns_skip].
Qed.
Lemma owns_deliver cs e : forall s s' l, deliver onev cs e s = Val (s', l) -> Forall owned l.
Proof.
  induction cs as [|c cs IH]; intros s s' l; cbn [deliver]; [intros [= <- <-]; by apply Forall_nil|].
  destruct (onev c e (f_state s)) as [[st x]|] eqn:E; cbn [mbind_M]; [|done].
  destruct (deliver onev cs e (Fsm st (queue x (f_box s)))) as [[s2 y]|] eqn:E2; cbn [mbind_M]; [|done]. intros [= <- <-].
  apply Forall_app. split; [by eapply owns_on|by eapply IH].
Qed.
Lemma owns_run (f : full -> M (full * list (comp * io wmsg wev))) s (r : reply) s' l r' : owns f -> ('(s, x) <-- f s ;; Val (s, x, r)) = Val (s', l, r') -> Forall owned l.
Proof. intros F. destruct (f s) as [[s1 x]|] eqn:E; cbn [mbind_M]; [|done]. intros [= <- <- <-]. by eapply F. Qed.
Lemma owns_exec c s s' l r : exec c s = Val (s', l, r) -> Forall owned l \/ exists m pred, c = CmdBroadcast m pred /\ Forall (fun p => exists a, p = (CMain, IoWrite a m)) l.
Proof.
  destruct c; cbn [FullModel.exec]; try (intros [= <- <- <-]; left; by apply Forall_nil).
  - destruct (find_branch _ _); cbn [mbind_M]; [|done]. intros [= <- <- <-]. left. by apply Forall_nil.
  - intros E. left. by eapply owns_run, E; apply owns_peer.
  - intros E. left. by eapply owns_run, E; apply owns_peer.
  - intros [= <- <- <-]. right. eexists _, _. split; [done|]. apply Forall_forall. intros p I. apply elem_of_list_In, in_map_iff in I as (v & <- & _). by eexists.
  - destruct (SyncModel.sync_import _ _ _ _ _) as [[[? ?] ?]|]; cbn [mbind_M]; [|done]. intros E. left. eapply owns_run, E. apply owns_node, makes_sync.
  - intros E. left. eapply owns_run, E. apply owns_addr.
  - destruct (CbfModel.cbf_step _ _ _ _ _ _) as [[? ?]|]; cbn [mbind_M]; [|done]. intros E. left. eapply owns_run, E. apply owns_node, makes_cbf.
  - intros E. left. eapply owns_run, E. apply owns_node, makes_inv.
  - intros E. left. eapply owns_run, E. apply owns_then; apply owns_node; [apply makes_cbf|apply makes_inv].
  - intros E. left. eapply owns_run, E. apply owns_node, makes_cbf.
Qed.
Definition owned_item (i : fitem wmsg wev) : Prop := match i with FQueued c y => owned (c, y) | _ => True end.
Lemma owned_fqueued l : Forall owned l -> Forall owned_item (fqueued l).
Proof. induction 1 as [|[c y] l O F IH]; [by apply Forall_nil|]. cbn. apply Forall_cons. by split. Qed.
Lemma step_owned o s s' x : fullstep o s = Val (s', x) -> Forall owned_item x \/
  exists m pred, o = WCommand (CmdBroadcast m pred) /\ Forall (fun i => exists a, i = FQueued CMain (IoWrite a m)) x.
Proof.
  assert (In : forall f, owns f -> fstep onev magic (FInput f) s = Val (s', x) -> Forall owned_item x).
  { intros f F. cbn [fstep]. destruct (f (f_state s)) as [[st l]|] eqn:E; cbn [mbind_M]; [|done]. intros [= <- <-]. apply owned_fqueued. by eapply F. }
  unfold full_step. destruct o as [|a mg m|a local l|a r|a| |c|]; cbn [wop_fop].
  - intros E. left. eapply In, E. unfold FullModel.initialize. repeat apply owns_then; try (by apply owns_emit); [apply owns_addr|apply owns_node, makes_sync|apply owns_peer|apply owns_node, makes_cbf].
  - unfold received_fop. destruct (mg =? magic); cbn [negb]; [|intros E; left; eapply In, E; apply owns_peer].
    destruct (connected_at _ _); cbn [negb]; [|intros E; left; eapply In, E; apply owns_skip]. destruct (hook a m); cbn [negb]; [|intros E; left; eapply In, E; apply owns_skip].
    cbn [fstep]. destruct (event onev (WvMessage a m) s) as [[s1 l]|] eqn:E; cbn [mbind_M]; [|done]. intros [= <- <-]. left. apply Forall_app. split; [|by repeat constructor].
    apply owned_fqueued. by eapply owns_deliver.
  - intros E. left. eapply In, E. apply owns_peer.
  - intros E. left. eapply In, E. apply owns_peer.
  - intros E. left. eapply In, E. apply owns_peer.
  - intros E. left. eapply In, E. unfold timer. repeat apply owns_then; [apply owns_node; intros n n' l; cbn zeta; apply makes_inv|apply owns_node, makes_sync|apply owns_ping|apply owns_addr|apply owns_peer|apply owns_node, makes_cbf].
  - cbn [fstep]. destruct (exec c (f_state s)) as [[[? l] ?]|] eqn:E; cbn [mbind_M]; [|done]. intros [= <- <-]. destruct (owns_exec _ _ _ _ _ E) as [O|(m & pred & -> & F)]; [left; by apply owned_fqueued|right].
    exists m, pred. split; [done|]. clear -F. induction F as [|p l (a & ->) F IH]; [by apply Forall_nil|]. cbn. apply Forall_cons. split; [by exists a|exact IH].
  - cbn [fstep]. unfold next. destruct (take_first sources (f_box s)) as [[[c y] b]|]; cbn [mbind_M].
    + destruct y; cbn [stamp mbind_M]; try (intros [= <- <-]; left; cbn; by repeat constructor).
      destruct (event onev e (Fsm (f_state s) b)) as [[s1 l]|] eqn:E; cbn [mbind_M]; [|done]. intros [= <- <-]. left. apply Forall_app. split; [|by repeat constructor].
      apply owned_fqueued. by eapply owns_deliver.
    + intros [= <- <-]. left. by apply Forall_nil.
Qed.
Lemma main_writes o s s' x a m : fullstep o s = Val (s', x) -> FQueued CMain (IoWrite a m) ∈ x -> exists pred, o = WCommand (CmdBroadcast m pred).
Proof.
  intros E I. destruct (step_owned _ _ _ _ E) as [F|(m' & pred & -> & F)]; rewrite Forall_forall in F; apply F in I; [by destruct I|]. destruct I as (b & [= <- <-]). by eexists.
Qed.
Lemma peer_reports o s s' x c k : fullstep o s = Val (s', x) -> FQueued c (IoEvent (WvPeer k)) ∈ x -> c = CPeer.
Proof.
  intros E I. destruct (step_owned _ _ _ _ E) as [F|(m' & pred & -> & F)]; rewrite Forall_forall in F; apply F in I; [exact I|]. by destruct I.
Qed.
End Owned.

Section Writes.
Context (H : header -> N) (scf : SyncModel.sconf) (P : CbfModel.params) (kcf : kconf) (acf : aconf) (ping_timeout : N).
Context (env : nat -> nenv) (wenv_of : nat -> wenv) (magic : N) (hook : sockaddr -> wmsg -> bool).
Notation fullstep := (full_step H scf P kcf acf ping_timeout env wenv_of magic hook).
Notation fullrun := (full_run H scf P kcf acf ping_timeout env wenv_of magic hook).
Notation nstep := (node_step H scf P unkey env magic).
Notation nrun := (node_run H scf P unkey env magic).
Context (Sn : sane kcf) (Fw : fair_wenv wenv_of) (Fo : forall n l, we_order (wenv_of n) l ≡ₚ l).
Context (cap : N) (st : list (N * N)) (c0 : cache) (white : gset ip) (am : amgr).
Context (e0 : aenv) (known : gmap ip known) (F0 : fair_aenv e0) (Ea : addr_new e0 known = Val am).
Notation s0 := (full0 c0 (CbfModel.cbf0 cap st) white am).
Notation n0 := (node0 c0 (CbfModel.cbf0 cap st)).
Notation logs os := (whole_log H fullstep env (WInitialize :: os) s0).

Lemma nlog_run os : forall n n' L, node_log H nstep env os n = Val (n', L) -> nrun os n = Val (n', concat (e_items <$> L)) /\ os = ops L.
Proof.
  induction os as [|o os IH]; intros n n' L R; cbn [node_log] in R; [by injection R as <- <-|].
  destruct (nstep o n) as [[n1 x]|] eqn:E; cbn [mbind_M] in R; [|done]. destruct (node_log H nstep env os n1) as [[n2 L2]|] eqn:R2; cbn [mbind_M] in R; [|done]. injection R as <- <-.
  destruct (IH _ _ _ R2) as [R' ->]. split; [|done]. cbn [node_run]. rewrite E. cbn [mbind_M]. by rewrite R'.
Qed.
Lemma corr_events l l' : corr l l' -> events l = events l'.
Proof.
  unfold events. induction 1 as [|e l l' Ne C IH|e e' l l' Si C IH]; [done| |]; cbn [fmap list_fmap concat]; rewrite !announced_app.
  - by rewrite (ne_announced _ Ne), IH.
  - by rewrite (si_announced _ _ Si), IH.
Qed.
Lemma corr_submitted t l l' : corr l l' -> submitted (ops l') t -> submitted (ops l) t.
Proof.
  unfold submitted, ops. induction 1 as [|e l l' Ne C IH|e e' l l' Si C IH]; [done| |]; cbn [fmap list_fmap].
  - intros J. apply elem_of_cons. right. by apply IH.
  - intros [J|J]%elem_of_cons; apply elem_of_cons; [left|by right; apply IH]. destruct (si_op _ _ Si) as [->|[_ K]]; [done|]. by rewrite <- J in K.
Qed.
Lemma events_told L : events (entry_of <$> L) = omap told_of (announced (concat (wl_items <$> L))).
Proof.
  unfold events. induction L as [|e L IH]; [done|]. cbn [fmap list_fmap concat]. rewrite !announced_app, omap_app, IH. f_equal. cbn [entry_of e_items]. clear.
  induction (wl_items e) as [|i x IH]; [done|]. change (omap item_of (i :: x)) with (match item_of i with Some y => y :: omap item_of x | None => omap item_of x end). unfold announced in *. cbn [flat_map]. rewrite omap_app, <- IH. clear IH.
  destruct i as [c [? m| | | |w]|c [? [? m]| | | |w]|w]; cbn [item_of app omap list_omap]; try done.
  - destruct m; try done. by destruct (decide (c = CMain)).
  - by destruct (told_of w).
  - by destruct (told_of w).
  - by destruct (told_of w).
Qed.
Lemma step_passed o s s' x w : fullstep o s = Val (s', x) -> FPassed w ∈ x -> exists a m, w = WvMessage a m.
Proof.
  assert (Q : forall l : list (comp * io wmsg wev), FPassed w ∈ fqueued l -> False).
  { intros l I. unfold fqueued in I. by apply elem_of_list_fmap in I as ([c y] & Ez & _). }
  assert (In : forall f, fstep (FullModel.on_event H scf P kcf acf ping_timeout env wenv_of) magic (FInput f) s = Val (s', x) -> FPassed w ∈ x -> False).
  { intros f. cbn [fstep]. destruct (f (f_state s)) as [[? l]|]; cbn [mbind_M]; [|done]. intros [= <- <-]. apply Q. }
  unfold full_step. destruct o as [|a mg m|a local l|a r|a| |c|]; cbn [wop_fop]; try (by intros E I; destruct (In _ E I)).
  - unfold received_fop. destruct (mg =? magic); cbn [negb]; [|by intros E I; destruct (In _ E I)]. destruct (connected_at _ _); cbn [negb]; [|by intros E I; destruct (In _ E I)].
    destruct (hook a m); cbn [negb]; [|by intros E I; destruct (In _ E I)]. cbn [fstep]. destruct (event _ (WvMessage a m) s) as [[s1 l]|]; cbn [mbind_M]; [|done]. intros [= <- <-] [I|I]%elem_of_app; [by apply Q in I|].
    apply elem_of_list_singleton in I. injection I as ->. by exists a, m.
  - cbn [fstep]. destruct (next _ _ s) as [[[? l] y]|]; cbn [mbind_M]; [|done]. intros [= <- <-] [I|I]%elem_of_app; [by apply Q in I|]. destruct y as [[c y]|]; [by apply elem_of_list_singleton in I|by apply elem_of_nil in I].
Qed.
Lemma wlog_run os : forall s s' L, whole_log H fullstep env os s = Val (s', L) -> fullrun os s = Val (s', concat (wl_items <$> L)) /\ os = wl_op <$> L.
Proof.
  induction os as [|o os IH]; intros s s' L R; cbn [whole_log] in R; [by injection R as <- <-|].
  destruct (fullstep o s) as [[s1 x]|] eqn:E; cbn [mbind_M] in R; [|done]. destruct (whole_log H fullstep env os s1) as [[s2 L2]|] eqn:R2; cbn [mbind_M] in R; [|done]. injection R as <- <-.
  destruct (IH _ _ _ R2) as [R' ->]. split; [|done]. cbn [full_run]. rewrite E. cbn [mbind_M]. by rewrite R'.
Qed.
Lemma logged_app (step : wop -> wstate -> M (wstate * list (fitem wmsg wev))) a l b k c : logged step a l b -> logged step b k c -> logged step a (l ++ k) c.
Proof. intros A B. induction B as [|b k b1 o x b2 B IH E]; [by rewrite app_nil_r|]. rewrite app_assoc. by econstructor; [apply IH|]. Qed.
Lemma wlog_logged os : forall s s' L, whole_log H fullstep env os s = Val (s', L) -> logged fullstep s (pairs L) s'.
Proof.
  induction os as [|o os IH]; intros s s' L R; cbn [whole_log] in R; [injection R as <- <-; constructor|].
  destruct (fullstep o s) as [[s1 x]|] eqn:E; cbn [mbind_M] in R; [|done]. destruct (whole_log H fullstep env os s1) as [[s2 L2]|] eqn:R2; cbn [mbind_M] in R; [|done]. injection R as <- <-.
  apply (logged_app _ _ [(o, x)] s1); [|by apply IH]. apply (logged_snoc _ _ [] s); [constructor|done].
Qed.
Lemma wlog_snoc os o : forall s s1 L s2 x, whole_log H fullstep env os s = Val (s1, L) -> fullstep o s1 = Val (s2, x) -> whole_log H fullstep env (os ++ [o]) s = Val (s2, L ++ [wlog_step H env o s1 x]).
Proof.
  induction os as [|p os IH]; intros s s1 L s2 x R E; cbn [whole_log app] in *.
  - injection R as <- <-. by rewrite E.
  - destruct (fullstep p s) as [[s' y]|]; cbn [mbind_M] in *; [|done]. destruct (whole_log H fullstep env os s') as [[s3 L3]|] eqn:R3; cbn [mbind_M] in *; [|done]. injection R as -> <-.
    by rewrite (IH _ _ _ _ _ R3 E).
Qed.
(** Where in a log an item is. *)
Lemma wlog_item os i : forall s s' L, whole_log H fullstep env os s = Val (s', L) -> i ∈ concat (wl_items <$> L) ->
  exists os1 o os2 s1 L1 s2 x L2, os = os1 ++ o :: os2 /\ whole_log H fullstep env os1 s = Val (s1, L1) /\ fullstep o s1 = Val (s2, x) /\ L = L1 ++ wlog_step H env o s1 x :: L2 /\ i ∈ x.
Proof.
  induction os as [|o os IH]; intros s s' L R I; cbn [whole_log] in R; [injection R as <- <-; by apply elem_of_nil in I|].
  destruct (fullstep o s) as [[s1 x]|] eqn:E; cbn [mbind_M] in R; [|done]. destruct (whole_log H fullstep env os s1) as [[s2 L2]|] eqn:R2; cbn [mbind_M] in R; [|done]. injection R as <- <-.
  cbn [fmap list_fmap concat] in I. apply elem_of_app in I as [I|I]; [by exists [], o, os, s, [], s1, x, L2|].
  destruct (IH _ _ _ R2 I) as (os1 & o1 & os2 & s3 & L1 & s4 & y & L3 & -> & A & B & -> & J). exists (o :: os1), o1, os2, s3, (wlog_step H env o s x :: L1), s4, y, L3.
  split; [done|]. split; [cbn [whole_log]; rewrite E; cbn [mbind_M]; by rewrite A|]. done.
Qed.
Lemma announced_item (w : wev) (x : list (fitem wmsg wev)) : w ∈ announced x -> FPassed w ∈ x \/ exists c, FEmitted c (IoEvent w) ∈ x.
Proof.
  intros I. unfold announced in I. apply elem_of_list_In, in_flat_map in I as (i & I & J). apply elem_of_list_In in I. destruct i as [c y|c [? [? m]| | | |w']|w']; try done; cbn in J; destruct J as [->|[]]; eauto.
Qed.
(** Everything announced is a message, or was queued before. *)
Lemma announced_source os s L w : whole_log H fullstep env os s0 = Val (s, L) -> w ∈ announced (concat (wl_items <$> L)) ->
  (exists a m, w = WvMessage a m) \/ exists c, FQueued c (IoEvent w) ∈ concat (wl_items <$> L).
Proof.
  intros R I. destruct (wlog_run _ _ _ _ R) as [R' _]. apply announced_item in I as [I|(c & I)].
  - destruct (wlog_item _ _ _ _ _ R I) as (os1 & o & os2 & s1 & L1 & s2 & x & L2 & _ & _ & E & _ & J). left. by eapply step_passed.
  - right. eapply ClientChain.emitted_queued; [exact R'|]. apply elem_of_list_omap. eexists. split; [exact I|done].
Qed.
Lemma announced_owned os s L w : whole_log H fullstep env os s0 = Val (s, L) -> w ∈ announced (concat (wl_items <$> L)) -> match w with WvNode e => own e | _ => True end.
Proof.
  intros R I. destruct (announced_source _ _ _ _ R I) as [(a & m & ->)|(c & J)]; [done|]. destruct (wlog_item _ _ _ _ _ R J) as (os1 & o & os2 & s1 & L1 & s2 & x & L2 & _ & _ & E & _ & K).
  destruct (step_owned _ _ _ _ _ _ _ _ _ _ _ _ _ _ E) as [F|(m' & pred & -> & F)]; rewrite Forall_forall in F; apply F in K; [by destruct w|by destruct K].
Qed.
(** The peers these managers know are addresses. *)
Lemma told_key os s L e : whole_log H fullstep env os s0 = Val (s, L) -> e ∈ events (entry_of <$> L) ->
  match e with EvNegotiated a _ _ _ _ _ _ _ | EvDisconnected a | EvMessage a _ => key (unkey a) = a | _ => True end.
Proof.
  intros R I. rewrite events_told in I. apply elem_of_list_omap in I as (w & I & T). pose proof (announced_owned _ _ _ _ R I) as O. destruct w as [| |b m|k| |e']; try done; cbn in T.
  - destruct m; try done. injection T as <-. by rewrite unkey_key.
  - destruct k; try done; injection T as <-; by rewrite unkey_key.
  - injection T as ->. by destruct e.
Qed.
Lemma handshakes_in a es h : h ∈ handshakes a es -> exists he re pe, EvNegotiated a he (sh_outbound h) (sh_network h) (sh_filters h) re (sh_wtx h) pe ∈ es.
Proof.
  unfold handshakes. induction es as [|e es IH] using rev_ind; [by intros I%elem_of_nil|]. rewrite foldl_app. cbn [foldl]. intros I.
  assert (h ∈ foldl (shake_step a) [] es -> exists he re pe, EvNegotiated a he (sh_outbound h) (sh_network h) (sh_filters h) re (sh_wtx h) pe ∈ es ++ [e]) as K.
  { intros J. destruct (IH J) as (he & re & pe & Q). exists he, re, pe. apply elem_of_app. by left. }
  destruct e as [b he ob nw fl re wt pe|b| | | |]; cbn [shake_step] in I; try (by apply K).
  - destruct (b =? a) eqn:B; [|by apply K]. apply N.eqb_eq in B as ->. apply elem_of_cons in I as [->|I]; [|by apply K]. exists he, re, pe. apply elem_of_app. right. by left.
  - destruct (b =? a); [by apply elem_of_nil in I|by apply K].
Qed.
Theorem whole_writes os s L o s' x w m : fair_node env -> fair_filters env -> logs os = Val (s, L) -> fullstep o s = Val (s', x) -> writes x w m ->
  (exists pred, o = WCommand (CmdBroadcast (WNode m) pred)) \/
  reason_to_write (ops (entry_of <$> L ++ [wlog_step H env o s x])) (events (entry_of <$> L ++ [wlog_step H env o s x])) (key w) m.
Proof.
  intros Fe Ff R E (c & I). destruct (decide (c = CMain)) as [->|Nc]; [left; by eapply main_writes|right].
  destruct (start_log H scf P kcf acf ping_timeout env wenv_of magic hook Sn Fw Fo cap st c0 white am e0 known F0 Ea _ _ _ R) as (ns & n & L' & Rn & S & O & C & _).
  assert (FQueued c (IoWrite w m) ∈ omap item_of x) as J.
  { apply elem_of_list_omap. eexists. split; [exact I|]. cbn [item_of]. by rewrite decide_False. }
  destruct (one_sim H scf P kcf acf ping_timeout env wenv_of magic hook Sn Fw Fo o s n s' x O S E) as [_ [(no & n' & _ & En & S' & Si)|[Ne _]]].
  2:{ exfalso. pose proof (ne_written _ Ne) as Z. cbn [e_items entry_of wlog_step wl_items] in Z. eapply elem_of_nil. rewrite <- Z. apply elem_of_list_omap. eexists. split; [exact J|reflexivity]. }
  destruct (nlog_run _ _ _ _ Rn) as [Rr ->].
  assert (exists c', FQueued c' (IoWrite w m) ∈ omap (erase_item magic) x) as (c' & J').
  { pose proof (si_written _ _ Si) as Z. cbn [e_items entry_of wlog_step wl_items log_step] in Z. assert ((w, m) ∈ written (omap item_of x)) as K by (apply elem_of_list_omap; eexists; split; [exact J|reflexivity]).
    rewrite Z in K. apply elem_of_list_omap in K as (i & K & Q). destruct i as [c' [| | | |]| |]; try done. injection Q as -> ->. by exists c'. }
  destruct (node_writes H scf P unkey env magic c0 cap st _ _ _ _ _ _ _ _ _ Fe Ff Rr En J') as (a & -> & Rw).
  pose proof (corr_app _ _ _ _ C (corr_same _ _ _ _ Si corr_nil)) as C1. rewrite fmap_app. cbn [fmap list_fmap].
  assert (events ((entry_of <$> L) ++ [entry_of (wlog_step H env o s x)]) = announced (concat (e_items <$> L') ++ omap (erase_item magic) x)) as Ev.
  { rewrite (corr_events _ _ C1). unfold events. rewrite fmap_app, concat_app. cbn [fmap list_fmap concat e_items log_step]. by rewrite app_nil_r. }
  assert (forall t, submitted (ops L' ++ [no]) t -> submitted (ops ((entry_of <$> L) ++ [entry_of (wlog_step H env o s x)])) t) as Sb.
  { intros t K. apply (corr_submitted t _ _ C1). unfold ops in *. by rewrite fmap_app. }
  pose proof (wlog_snoc _ _ _ _ _ _ _ R E) as R1.
  assert (forall e, e ∈ announced (concat (e_items <$> L') ++ omap (erase_item magic) x) -> match e with EvNegotiated a _ _ _ _ _ _ _ | EvDisconnected a | EvMessage a _ => key (unkey a) = a | _ => True end) as Kk.
  { intros e Q. rewrite <- Ev in Q. apply (told_key _ _ _ e R1). by rewrite fmap_app. }
  rewrite Ev. set (es := announced (concat (e_items <$> L') ++ omap (erase_item magic) x)) in *.
  assert (forall h, h ∈ handshakes a es -> key (unkey a) = a) as Kh. { intros h Q. destruct (handshakes_in _ _ _ Q) as (? & ? & ? & Q'). exact (Kk _ Q'). }
  assert (forall q, just_said a q es -> key (unkey a) = a) as Kj. { intros q Q. unfold just_said in Q. apply last_Some in Q as (l & Q). refine (Kk (EvMessage a q) _). rewrite Q. apply elem_of_app. right. by left. }
  clearbody es. destruct m; cbn [reason_to_write] in *; try done.
  - destruct Rw as [(l & Q)|(h & Q & Z)]; [rewrite (Kj _ Q); left; by exists l|rewrite (Kh _ Q); right; by exists h].
  - destruct Rw as (h & Q & Z). rewrite (Kh _ Q). by exists h.
  - intros i Q. destruct (Rw i Q) as (h & l & t & Hs & Sm & Ei). assert (h ∈ handshakes a es) as Q' by (rewrite Hs; by left). rewrite (Kh _ Q'). exists h, l, t. by auto.
  - destruct Rw as (h & l & Hs & Z). assert (h ∈ handshakes a es) as Q' by (rewrite Hs; by left). rewrite (Kh _ Q'). by exists h, l.
  - destruct Rw as (Sm & is & i & Q & Z). rewrite (Kj _ Q). split; [by apply Sb|]. by exists is, i.
  - destruct Rw as (ty' & start & Q). rewrite (Kj _ Q). by exists ty', start.
  - destruct Rw as (h & Q & Z). rewrite (Kh _ Q). by exists h.
  - destruct Rw as (h & Q & Z). rewrite (Kh _ Q). by exists h.
Qed.

(** Nobody is negotiated with at the start. *)
Lemma init_calm s s' x c a lk sv pe ag rc he ve re wt : fullstep WInitialize s = Val (s', x) -> FQueued c (IoEvent (WvPeer (KoNegotiated a lk sv pe ag rc he ve re wt))) ∈ x -> False.
Proof.
  set (calm := fun p : comp * io wmsg wev => match p.2 with IoEvent (WvPeer (KoNegotiated _ _ _ _ _ _ _ _ _ _)) => False | _ => True end).
  set (calms := fun f : full -> M (full * list (comp * io wmsg wev)) => forall s s' l, f s = Val (s', l) -> Forall calm l).
  assert (Th : forall f g, calms f -> calms g -> calms (andthen f g)).
  { intros f g F G t t' l. unfold andthen. destruct (f t) as [[s1 y]|] eqn:E; cbn [mbind_M]; [|done]. destruct (g s1) as [[s2 z]|] eqn:E2; cbn [mbind_M]; [|done]. intros [= <- <-].
    apply Forall_app. split; [by eapply F|by eapply G]. }
  assert (Nd : forall f, calms (call_node f)).
  { intros f t t' l. unfold call_node. destruct (f (w_node t)) as [[n y]|] eqn:E; cbn [mbind_M]; [|done]. intros [= <- <-]. clear. induction y as [|[k y] l IH]; cbn [map]; [by apply Forall_nil|].
    apply Forall_cons. split; [|exact IH]. by destruct y. }
  assert (Ca : calms (FullModel.initialize H scf P kcf acf env wenv_of)).
  { unfold FullModel.initialize. repeat apply Th; try apply Nd.
    - intros t t' l [= <- <-]. by repeat constructor.
    - intros t t' l. unfold call_addr. destruct (addr_step _ _ _) as [[am1 y]|]; cbn [mbind_M]; [|done]. intros [= <- <-]. clear. induction y as [|k y IH]; cbn [flat_map]; [by apply Forall_nil|].
      apply Forall_app. split; [|exact IH]. by destruct k; repeat constructor.
    - intros t t' l. unfold call_peer. destruct (kstep _ _ _ _) as [[[p b] y]|] eqn:E; cbn [mbind_M]; [|done]. intros [= <- <-]. apply Forall_forall. intros q I. apply elem_of_list_In, in_flat_map in I as (k & I & J).
      apply elem_of_list_In in I. destruct k as [| | | | | | | | | | | |b' lk' sv' pe' ag' rc' he' ve' re' wt'|]; cbn in J; try (by destruct J as [<-|[]]); try done. by destruct (negotiated_verack _ _ _ _ _ _ _ _ _ _ _ _ _ _ _ _ _ _ _ E I) as [? _].
    - intros t t' l [= <- <-]. by repeat constructor. }
  unfold full_step. cbn [wop_fop fstep]. destruct (FullModel.initialize H scf P kcf acf env wenv_of (f_state s)) as [[? l]|] eqn:E; cbn [mbind_M]; [|done]. intros [= <- <-] I. apply Ca in E.
  unfold fqueued in I. apply elem_of_list_fmap in I as ([k y] & Ey & I). injection Ey as <- <-. rewrite Forall_forall in E. by apply E in I.
Qed.
(** A handshake these managers were told of was made on the wire. *)
Theorem whole_handshake os s L w h : logs os = Val (s, L) -> h ∈ handshakes (key w) (events (entry_of <$> L)) ->
  exists L1 e L2 local lk v, L = L1 ++ e :: L2 /\ heard_in w WVerack (wl_op e, wl_items e) /\ link_of w (pairs L1) = LOpen local lk (Some (v, sh_wtx h, false)) /\ 70012 <= vm_version v /\
    sh_outbound h = (match lk with Outbound => true | Inbound => false end) /\ sh_network h = N.testbit (vm_services v) 0 /\ sh_filters h = N.testbit (vm_services v) 6.
Proof.
  intros R I. destruct (handshakes_in _ _ _ I) as (he & re & pe & Q). rewrite events_told in Q. apply elem_of_list_omap in Q as (w' & Q & T).
  assert (exists lk sv ag rc ve, w' = WvPeer (KoNegotiated w lk sv pe ag rc he ve re (sh_wtx h)) /\ sh_outbound h = (match lk with Outbound => true | Inbound => false end) /\ sh_network h = N.testbit sv 0 /\ sh_filters h = N.testbit sv 6) as (lk & sv & ag & rc & ve & -> & Z1 & Z2 & Z3).
  { pose proof (announced_owned _ _ _ _ R Q) as O. destruct w' as [| |b m|k| |e']; try done; cbn in T; [by destruct m| |by injection T as ->]. destruct k as [| | | | | | | | | | | |b lk sv pe' ag rc he' ve re' wt|]; try done.
    assert (key b = key w) as Kb by congruence. assert (b = w) as -> by (rewrite <- (unkey_key b), Kb; apply unkey_key). clear Kb. injection T as T2 T3 T4 T5 T6 T7 T8. subst.
    eexists lk, sv, ag, rc, ve. split; [done|]. rewrite <- T3, <- T4, <- T5. by destruct lk. }
  destruct (announced_source _ _ _ _ R Q) as [(? & ? & ?)|(c & J)]; [done|]. destruct (wlog_item _ _ _ _ _ R J) as (os1 & o & os2 & s1 & L1 & s2 & x & L2 & Eo & R1 & E & -> & K).
  pose proof (peer_reports _ _ _ _ _ _ _ _ _ _ _ _ _ _ _ _ E K) as ->. destruct os1 as [|? os1].
  { cbn [whole_log] in R1. injection R1 as <- <-. injection Eo as <- <-. exfalso. by eapply init_calm. }
  injection Eo as <- Eo. pose proof (wlog_logged _ _ _ _ R1) as Lg. assert (started fullstep s0 (pairs L1) s1) as Sd.
  { split; [|exact Lg]. cbn [whole_log] in R1. destruct (fullstep WInitialize s0) as [[s3 x0]|]; cbn [mbind_M] in R1; [|done]. destruct (whole_log H fullstep env os1 s3) as [[? L3]|]; cbn [mbind_M] in R1; [|done]. injection R1 as <- <-. by eexists x0, _. }
  apply in_queued_by in K. apply (negotiated_log H scf P kcf acf ping_timeout env wenv_of magic hook Fw Fo c0 _ white am e0 known F0 Ea _ _ _ _ _ _ _ _ _ _ _ _ _ _ _ Sd E) in K as (Hd & local & v & Lk & Tl).
  exists L1, (wlog_step H env o s1 x), L2, local, lk, v. split; [done|]. split; [exact Hd|]. split; [exact Lk|]. destruct Tl as (T1 & -> & _). done.
Qed.
End Writes.
