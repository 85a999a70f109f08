(** The whole state machine does, on the part that NodeModel.v has, exactly
    what NodeModel.v does. *)
From Verif Require Import Base PowModel BlockModel UtilModel FeeModel AddrModel AddrSpec AddrProofs AddrFacts PeerModel PeerSpec PeerProofs PeerMain PeerFacts
  PingModel DispModel DispSpec DispProofs LoadModel NodeModel NodeSpec NodeProofs FullModel FullSpec.
From Verif Require SyncModel CbfModel InvModel.
Open Scope N_scope.

(** ** What is left of outputs *)
Definition node_comp (c : comp) : bool := match c with CSync | CInv | CCbf => true | _ => false end.
Definition erase (c : comp) (x : io wmsg wev) : option (io nmsg nev) :=
  match x with
  | IoEvent e => IoEvent <$> node_view e
  | IoWrite a (WNode m) => if node_comp c then Some (IoWrite a m) else None
  | IoWrite _ _ => None
  | IoConnect a => if node_comp c then Some (IoConnect a) else None
  | IoDisconnect a r => if node_comp c then Some (IoDisconnect a r) else None
  | IoTimer d => if node_comp c then Some (IoTimer d) else None
  end.
Definition erase_pair (p : comp * io wmsg wev) : option (comp * io nmsg nev) := pair p.1 <$> erase p.1 p.2.
Definition unstamp {A B} (x : io (N * A) B) : io A B :=
  match x with
  | IoEvent e => IoEvent e
  | IoWrite a (_, m) => IoWrite a m
  | IoConnect a => IoConnect a
  | IoDisconnect a r => IoDisconnect a r
  | IoTimer d => IoTimer d
  end.
Definition erase_item (magic : N) (x : fitem wmsg wev) : option (fitem nmsg nev) :=
  match x with
  | FQueued c x => FQueued c <$> erase c x
  | FEmitted c y => (fun z => FEmitted c (stamp magic z)) <$> erase c (unstamp y)
  | FPassed e => FPassed <$> node_view e
  end.
(** Messages are not queued as events. *)
Definition plain (x : io wmsg wev) : Prop := match x with IoEvent (WvMessage _ _) => False | _ => True end.

Lemma omap_app' {A B} (f : A -> option B) l k : omap f (l ++ k) = omap f l ++ omap f k.
Proof. apply omap_app. Qed.
Lemma erase_by_comp c l :
  omap (erase c) (flat_map (fun p : comp * io wmsg wev => if decide (p.1 = c) then [p.2] else []) l) =
  flat_map (fun p : comp * io nmsg nev => if decide (p.1 = c) then [p.2] else []) (omap erase_pair l).
Proof.
  induction l as [|[c' x] l IH]; [done|]. cbn [flat_map fst snd]. rewrite omap_app', IH. clear IH.
  change (omap erase_pair ((c', x) :: l)) with (match pair c' <$> erase c' x with Some y => y :: omap erase_pair l | None => omap erase_pair l end).
  generalize (omap erase_pair l). intros k. destruct (decide (c' = c)) as [->|Ne].
  - change (omap (erase c) [x]) with (match erase c x with Some y => [y] | None => [] end).
    destruct (erase c x); cbn [fmap option_fmap option_map flat_map fst snd]; [|done]. by destruct (decide (c = c)).
  - change (omap (erase c) []) with (@nil (io nmsg nev)). destruct (erase c' x); cbn [fmap option_fmap option_map flat_map fst snd]; [|done]. by destruct (decide (c' = c)).
Qed.
Lemma erase_fqueued magic l : omap (erase_item magic) (fqueued l) = fqueued (omap erase_pair l).
Proof.
  induction l as [|[c x] l IH]; [done|]. cbn. unfold erase_pair. cbn [fst snd]. destruct (erase c x); cbn; [f_equal|]; exact IH.
Qed.

Section Sim.
Context (H : header -> N) (scf : SyncModel.sconf) (P : CbfModel.params) (kcf : kconf) (acf : aconf) (ping_timeout : N).
Context (env : nat -> nenv) (wenv_of : nat -> wenv) (magic : N) (hook : sockaddr -> wmsg -> bool).
Notation wio := (io wmsg wev).
Notation nio := (io nmsg nev).
Notation wfun := (full -> M (full * list (comp * wio))).
Notation nfun := (node -> M (node * list (comp * nio))).
Notation fullstep := (full_step H scf P kcf acf ping_timeout env wenv_of magic hook).
Notation fullrun := (full_run H scf P kcf acf ping_timeout env wenv_of magic hook).
Notation nstep := (node_step H scf P unkey env magic).
Notation nrun := (node_run H scf P unkey env magic).
Notation wevent := (FullModel.on_event H scf P kcf acf ping_timeout env wenv_of).
Notation nevent := (NodeModel.on_event H scf P unkey env).
Notation wcall_node := (call_node).
Notation wcall_peer := (call_peer kcf acf wenv_of).
Notation wcall_addr := (call_addr acf wenv_of).
Notation wcall_ping := (call_ping ping_timeout wenv_of).

Definition sim (s : fsm full wmsg wev) (n : fsm node nmsg nev) : Prop :=
  f_state n = w_node (f_state s) /\ (forall c, f_box n c = omap (erase c) (f_box s c)) /\ forall c, Forall plain (f_box s c).

(** The queued outputs [l] are [k] for the node. *)
Definition kept (l : list (comp * wio)) (k : list (comp * nio)) : Prop := Forall (fun p => plain p.2) l /\ omap erase_pair l = k.
Lemma kept_app l l' k k' : kept l k -> kept l' k' -> kept (l ++ l') (k ++ k').
Proof. intros [F <-] [F' <-]. split; [by apply Forall_app|apply omap_app']. Qed.
Lemma kept_nil : kept [] [].
Proof. by split. Qed.

(** [f] does what [g] does on the node, and panics with it only, where [ok]
    holds and is kept. *)
Context (ok : full -> Prop).
Definition follows_at (s : full) (f : wfun) (g : nfun) : Prop := ok s ->
  match f s with
  | Val (s', l) => ok s' /\ exists k, g (w_node s) = Val (w_node s', k) /\ kept l k
  | Panic p => g (w_node s) = Panic p
  end.
Definition follows (f : wfun) (g : nfun) : Prop := forall s, follows_at s f g.
Definition nothing : nfun := fun n => Val (n, []).
Lemma follows_at_ext s f g g' : g (w_node s) = g' (w_node s) -> follows_at s f g -> follows_at s f g'.
Proof. intros E F O. specialize (F O). by rewrite <- E. Qed.
Lemma follows_ext f g g' : (forall n, g n = g' n) -> follows f g -> follows f g'.
Proof. intros E F s. by apply (follows_at_ext s f g), F. Qed.
Lemma follows_fext f f' g : (forall s, f' s = f s) -> follows f g -> follows f' g.
Proof. intros E F s. unfold follows_at. rewrite E. apply F. Qed.
Lemma follows_then_at s f g f' g' : follows_at s f g -> (forall s1 l, ok s -> f s = Val (s1, l) -> follows_at s1 f' g') -> follows_at s (andthen f f') (both g g').
Proof.
  intros F F' O. specialize (F O). unfold andthen, both. destruct (f s) as [[s1 l]|p] eqn:E; cbn [mbind_M].
  - destruct F as (O1 & k & -> & K). cbn [mbind_M]. specialize (F' s1 l O eq_refl O1). destruct (f' s1) as [[s2 l']|p]; cbn [mbind_M].
    + destruct F' as (O2 & k' & -> & K'). cbn [mbind_M]. split; [exact O2|]. eexists. split; [reflexivity|]. by apply kept_app.
    + by rewrite F'.
  - by rewrite F.
Qed.
Lemma follows_then f g f' g' : follows f g -> follows f' g' -> follows (andthen f f') (both g g').
Proof. intros F F' s. apply follows_then_at; [apply F|intros; apply F']. Qed.
Lemma both_nothing_l g n : both nothing g n = g n.
Proof. unfold both, nothing. cbn [mbind_M]. destruct (g n) as [[n' l]|p]; done. Qed.
Lemma both_nothing_r g n : both g nothing n = g n.
Proof. unfold both, nothing. destruct (g n) as [[n' l]|p]; [|done]. cbn [mbind_M]. by rewrite app_nil_r. Qed.
Lemma follows_quiet_l f g f' : follows f nothing -> follows f' g -> follows (andthen f f') g.
Proof. intros F F'. apply (follows_ext _ (both nothing g)); [apply both_nothing_l|]. by apply follows_then. Qed.
Lemma follows_quiet_r f g f' : follows f g -> follows f' nothing -> follows (andthen f f') g.
Proof. intros F F'. apply (follows_ext _ (both g nothing)); [apply both_nothing_r|]. by apply follows_then. Qed.

Lemma follows_skip : follows skip nothing.
Proof. intros s O. cbn. split; [exact O|]. exists []. split; [done|]. apply kept_nil. Qed.
Lemma follows_emit e : (forall s, node_view (e s) = None) -> (forall s, plain (IoEvent (e s))) -> follows (emit e) nothing.
Proof.
  intros E Pl s O. cbn. split; [exact O|]. exists []. split; [done|]. split; [apply Forall_singleton, Pl|].
  cbn. unfold erase_pair. cbn. by rewrite E.
Qed.

(** *** Calls of the managers of NodeModel.v *)
Definition inner (l : list (comp * nio)) : Prop := Forall (fun p => node_comp p.1 = true) l.
Definition nodal (g : nfun) : Prop := forall n n' l, g n = Val (n', l) -> inner l.
Lemma nodal_sync o : nodal (call_sync H scf unkey env o).
Proof.
  intros n n' l E. unfold call_sync in E. destruct (SyncModel.sync_step _ _ _ _) as [[[s c] x]|]; cbn [mbind_M] in E; [|done]. injection E as <- <-.
  induction x as [|y x IH]; cbn [flat_map]; [by apply Forall_nil|]. apply Forall_app. split; [|exact IH]. by destruct y; repeat constructor.
Qed.
Lemma inner_inv x : inner (flat_map (inv_io unkey) x).
Proof. induction x as [|y x IH]; cbn [flat_map]; [by apply Forall_nil|]. apply Forall_app. split; [|exact IH]. by destruct y; repeat constructor. Qed.
Lemma nodal_inv o : nodal (call_inv unkey o).
Proof.
  intros n n' l E. unfold call_inv in E. destruct (InvModel.inv_step _ _) as [[i x]|]; cbn [mbind_M] in E; [|done]. injection E as <- <-. apply inner_inv.
Qed.
Lemma nodal_cbf o : nodal (call_cbf H P unkey env o).
Proof.
  intros n n' l E. unfold call_cbf in E. destruct (CbfModel.cbf_step _ _ _ _ _ _) as [[s x]|]; cbn [mbind_M] in E; [|done].
  destruct (get_blocks x (n_inv n)) as [i y]. injection E as <- <-. apply Forall_app. split; [|apply inner_inv].
  induction x as [|z x IH]; cbn [flat_map]; [by apply Forall_nil|]. apply Forall_app. split; [|exact IH]. by destruct z; repeat constructor.
Qed.
Lemma nodal_event c e : nodal (nevent c e).
Proof.
  intros n n' l E. destruct c; cbn [NodeModel.on_event] in E; try (injection E as <- <-; by apply Forall_nil).
  - destruct (sync_event env e n); [by eapply nodal_sync|]. injection E as <- <-. by apply Forall_nil.
  - destruct (inv_event H e n); [by eapply nodal_inv|]. injection E as <- <-. by apply Forall_nil.
  - destruct (cbf_event e); [by eapply nodal_cbf|]. injection E as <- <-. by apply Forall_nil.
Qed.
Lemma kept_node l : inner l -> kept (map node_io l) l.
Proof.
  intros I. split.
  - apply Forall_map, Forall_forall. intros [c x] _. by destruct x.
  - induction I as [|[c x] l Hc I IH]; [done|]. cbn [map fst] in *. cbn. unfold erase_pair. cbn [fst snd].
    destruct x; cbn; rewrite ?Hc; cbn; by f_equal.
Qed.
Hypothesis ok_node : forall s n, ok s -> ok (Full n (w_peer s) (w_addr s) (w_ping s) (w_calls s)).
Lemma follows_node g : nodal g -> follows (call_node g) g.
Proof.
  intros Nd s O. unfold call_node. destruct (g (w_node s)) as [[n l]|p] eqn:E; cbn [mbind_M]; [|done].
  split; [by apply ok_node|]. exists l. split; [done|]. apply kept_node. by eapply Nd.
Qed.

(** *** Calls of the others *)
(** Calls of the peer manager itself. *)
Definition proper (o : kop) : Prop := match o with KAddr _ _ => False | _ => True end.
Hypothesis ok_peer : forall o s, proper o -> ok s -> match kstep kcf acf (o, kenv_at wenv_of s) (w_peer s, w_addr s) with
  | Val (p, am, _) => ok (Full (w_node s) p am (w_ping s) (S (w_calls s))) | Panic _ => False end.
Hypothesis ok_addr : forall o s, ok s -> match addr_step acf (o, we_addr (wenv_of (w_calls s))) (w_addr s) with
  | Val (am, _) => ok (Full (w_node s) (w_peer s) am (w_ping s) (S (w_calls s))) | Panic _ => False end.
Hypothesis ok_ping : forall s p, ok s -> ok (Full (w_node s) (w_peer s) (w_addr s) p (S (w_calls s))).

Lemma follows_addr o : follows (wcall_addr o) nothing.
Proof.
  intros s O. pose proof (ok_addr o s O) as A. unfold call_addr. destruct (addr_step _ _ _) as [[am x]|p]; cbn [mbind_M]; [|done].
  split; [exact A|]. exists []. split; [done|]. clear A. split.
  - induction x as [|y x IH]; cbn [flat_map]; [by apply Forall_nil|]. apply Forall_app. split; [|exact IH]. by destruct y; repeat constructor.
  - induction x as [|y x IH]; cbn [flat_map]; [done|]. rewrite omap_app', IH. by destruct y.
Qed.
Lemma follows_ping o : follows (wcall_ping o) nothing.
Proof.
  intros s O. unfold call_ping. destruct (ping_step _ _ _) as [p x]. split; [by apply ok_ping|]. exists []. split; [done|]. split.
  - induction x as [|y x IH]; cbn [flat_map]; [by apply Forall_nil|]. apply Forall_app. split; [|exact IH]. by destruct y; repeat constructor.
  - induction x as [|y x IH]; cbn [flat_map]; [done|]. rewrite omap_app', IH. by destruct y.
Qed.
(** What the node sees of the outputs of the peer manager. *)
Definition peer_nodes (x : list kout) : list (comp * nio) := omap erase_pair (flat_map peer_io x).
Lemma peer_plain x : Forall (fun p => plain p.2) (flat_map peer_io x).
Proof. induction x as [|y x IH]; cbn [flat_map]; [by apply Forall_nil|]. apply Forall_app. split; [|exact IH]. by destruct y; repeat constructor. Qed.
Lemma follows_peer s o k : proper o -> (forall p am x, kstep kcf acf (o, kenv_at wenv_of s) (w_peer s, w_addr s) = Val (p, am, x) -> peer_nodes x = k) ->
  follows_at s (wcall_peer o) (fun n => Val (n, k)).
Proof.
  intros Po Hk O. pose proof (ok_peer o s Po O) as A. unfold call_peer. destruct (kstep _ _ _ _) as [[[p am] x]|q]; cbn [mbind_M]; [|done].
  split; [exact A|]. exists k. split; [done|]. split; [apply peer_plain|by apply (Hk p am)].
Qed.
Definition quiet (o : kout) : Prop := match o with KoNegotiated _ _ _ _ _ _ _ _ _ _ | KoDisconnected _ _ => False | _ => True end.
Lemma quiet_nodes x : Forall quiet x -> peer_nodes x = [].
Proof.
  unfold peer_nodes. induction 1 as [|y x Q F IH]; [done|]. cbn [flat_map]. rewrite omap_app', IH, app_nil_r. by destruct y.
Qed.
Lemma quiet_connect now a s : Forall quiet (connect kcf now a s).2.
Proof. unfold connect. repeat case_match; repeat constructor. Qed.
Lemma quiet_loop fuel : forall n e d below dn s am s' am' x, connect_loop kcf acf fuel n e d below dn s am = Val (s', am', x) -> Forall quiet x.
Proof.
  induction fuel as [|fuel IH]; intros n e d below dn s am s' am' x E; cbn [connect_loop] in E; [discriminate E|].
  case_match; [|injection E as <- <- <-; by apply Forall_nil].
  destruct (draw _ _ _ _ _ _) as [[am1 [[ad src]|]]|]; cbn [mbind_M] in E; [| |discriminate E].
  2:{ injection E as <- <- <-. by apply Forall_nil. }
  destruct (socket_addr ad) as [sa|]; [|by eapply IH].
  pose proof (quiet_connect (ke_now e) sa s) as Q.
  destruct (connect kcf (ke_now e) sa s) as [[b s1] y]. cbn [snd] in Q. destruct b; [|by eapply IH].
  destruct (connect_loop _ _ _ _ _ _ _ _ _ _) as [[[s2 am2] z]|] eqn:E2; cbn [mbind_M] in E; [|discriminate E]. injection E as <- <- <-.
  apply Forall_app. split; [exact Q|]. apply Forall_cons. split; [exact I|]. by eapply IH.
Qed.
Lemma quiet_maintain e s am s' am' x : maintain_connections kcf acf e s am = Val (s', am', x) -> Forall quiet x.
Proof.
  unfold maintain_connections. destruct (kc_persistent kcf); [|intros E; injection E as <- <- <-; by apply Forall_nil].
  destruct (delta kcf s); cbn [mbind_M]; [|discriminate]. apply quiet_loop.
Qed.
Lemma quiet_connect_all now l : forall s, Forall quiet (connect_all kcf now l s).2.
Proof.
  induction l as [|a l IH]; intros s; cbn [connect_all]; [by apply Forall_nil|].
  pose proof (quiet_connect now a s) as Q. destruct (connect kcf now a s) as [[b s1] y]. specialize (IH s1). destruct (connect_all kcf now l s1) as [s2 z].
  cbn [snd] in *. apply Forall_app. split; [exact Q|]. apply Forall_app. split; [|exact IH]. destruct b; repeat constructor.
Qed.
Lemma quiet_reconnect_all now l : forall s, Forall quiet (reconnect_all kcf now l s).2.
Proof.
  induction l as [|a l IH]; intros s; cbn [reconnect_all]; [by apply Forall_nil|].
  pose proof (quiet_connect now a s) as Q. destruct (connect kcf now a s) as [[b s1] y]. specialize (IH s1). destruct (reconnect_all kcf now l s1) as [s2 z].
  cbn [snd] in *. apply Forall_app. by split.
Qed.
Lemma quiet_disconnect_all l : forall s, Forall quiet (disconnect_all l s).2.
Proof.
  induction l as [|a l IH]; intros s; cbn [disconnect_all]; [by apply Forall_nil|]. unfold do_disconnect.
  match goal with |- context [disconnect_all l ?s1] => specialize (IH s1); destruct (disconnect_all l s1) as [s2 z] end.
  cbn [snd] in *. by apply Forall_cons.
Qed.
(** The calls that tell the node nothing. *)
Definition silent (o : kop) : Prop := match o with KDisconnected _ _ | KMessage _ MVerack | KAddr _ _ => False | _ => True end.
Lemma silent_quiet o e s am s' am' x : silent o -> kstep kcf acf (o, e) (s, am) = Val (s', am', x) -> Forall quiet x.
Proof.
  intros So E. destruct o as [|a local l|a r|a m|a r| |a|o ae]; cbn [kstep] in E; try destruct So.
  - unfold PeerModel.initialize in E. pose proof (quiet_connect_all (ke_now e) (kc_persistent kcf) s) as Q. destruct (connect_all _ _ _ _) as [s1 x1].
    destruct (maintain_connections _ _ _ _ _) as [[[s2 am2] y]|] eqn:Em; cbn [mbind_M] in E; [|discriminate E]. injection E as <- <- <-.
    apply Forall_app. split; [exact Q|]. apply Forall_cons. split; [exact I|]. by eapply quiet_maintain.
  - injection E as <- <- <-. unfold peer_connected, do_disconnect. destruct l; [destruct (kc_maxin kcf <=? _)|]; repeat constructor.
  - destruct m; [|destruct So| |]; injection E as <- <- <-; unfold received_version, received_wtxidrelay, disconnect, do_disconnect; repeat case_match; repeat constructor.
  - injection E as <- <- <-. unfold disconnect, do_disconnect. case_match; repeat constructor.
  - unfold timer_expired in E. match type of E with context [disconnect_all ?l s] => pose proof (quiet_disconnect_all l s) as Q; destruct (disconnect_all l s) as [s1 x1] end.
    cbn [snd] in Q. case_match.
    + destruct (maintain_connections _ _ _ _ _) as [[[s2 am2] y]|] eqn:Em; cbn [mbind_M] in E; [|discriminate E]. apply quiet_maintain in Em.
      match type of E with context [maintain_persistent kcf e ?s] => pose proof (quiet_reconnect_all (ke_now e) _ _ : Forall quiet (maintain_persistent kcf e s).2) as Q3; destruct (maintain_persistent kcf e s) as [s3 z] end.
      injection E as <- <- <-. cbn [snd] in Q3. apply Forall_app. split; [exact Q|]. apply Forall_app. split; [|exact Q3]. apply Forall_app. split; [exact Em|]. repeat constructor.
    + cbn [mbind_M] in E.
      match type of E with context [maintain_persistent kcf e ?s] => pose proof (quiet_reconnect_all (ke_now e) _ _ : Forall quiet (maintain_persistent kcf e s).2) as Q3; destruct (maintain_persistent kcf e s) as [s3 z] end.
      injection E as <- <- <-. cbn [snd] in Q3. apply Forall_app. by split.
  - match type of E with context [connect kcf ?t a ?s1] => pose proof (quiet_connect t a s1) as Q; destruct (connect kcf t a s1) as [[b s2] y] end. by injection E as <- <- <-.
Qed.
Lemma follows_silent o : silent o -> follows (wcall_peer o) nothing.
Proof. intros So s. apply follows_peer; [by destruct o|]. intros p am x E. apply quiet_nodes. by eapply silent_quiet. Qed.

(** ** Events *)
Definition wev_run (e : wev) : wfun :=
  andthen (wevent CCbf e) (andthen (wevent CPing e) (andthen (wevent CInv e) (andthen (wevent CSync e) (andthen (wevent CAddr e) (wevent CPeer e))))).
Lemma wqueue_app (l l' : list (comp * wio)) : forall b, queue (l ++ l') b = queue l' (queue l b).
Proof. induction l as [|[c x] l IH]; intros b; cbn [queue app]; [done|]. apply IH. Qed.
Lemma wevent_run e (s : fsm full wmsg wev) : event wevent e s =
  ('(st, l) <-- wev_run e (f_state s) ;; Val (Fsm st (queue l (f_box s)), l)).
Proof.
  unfold event, receivers, wev_run, andthen. cbn [deliver].
  destruct (wevent CCbf e (f_state s)) as [[s1 l1]|p]; cbn [mbind_M f_state f_box]; [|done].
  destruct (wevent CPing e s1) as [[s2 l2]|p]; cbn [mbind_M f_state f_box]; [|done].
  destruct (wevent CInv e s2) as [[s3 l3]|p]; cbn [mbind_M f_state f_box]; [|done].
  destruct (wevent CSync e s3) as [[s4 l4]|p]; cbn [mbind_M f_state f_box]; [|done].
  destruct (wevent CAddr e s4) as [[s5 l5]|p]; cbn [mbind_M f_state f_box]; [|done].
  destruct (wevent CPeer e s5) as [[s6 l6]|p]; cbn [mbind_M f_state f_box]; [|done].
  by rewrite !wqueue_app, !app_nil_r.
Qed.
Lemma follows_other c e : c = CPing \/ c = CAddr -> follows (wevent c e) nothing.
Proof.
  intros [ -> | -> ].
  - apply (follows_fext (match ping_event e with Some o => wcall_ping o | None => skip end)); [intros s; cbn [FullModel.on_event]; by destruct (ping_event e)|].
    destruct (ping_event e); [apply follows_ping|apply follows_skip].
  - apply (follows_fext (match addr_event e with Some o => wcall_addr o | None => skip end)); [intros s; cbn [FullModel.on_event]; by destruct (addr_event e)|].
    destruct (addr_event e); [apply follows_addr|apply follows_skip].
Qed.
(** Any event but [verack]. *)
Definition is_verack (e : wev) : bool := match e with WvMessage _ WVerack => true | _ => false end.
Lemma follows_peer_event e : is_verack e = false -> follows (wevent CPeer e) nothing.
Proof.
  intros V. apply (follows_fext (match peer_event_of e with Some o => wcall_peer o | None => skip end)); [intros s; cbn [FullModel.on_event]; by destruct (peer_event_of e)|].
  destruct (peer_event_of e) as [o|] eqn:E; [|apply follows_skip]. apply follows_silent.
  destruct e as [| |a m| | |e]; try discriminate E.
  - destruct m; cbn in E; try discriminate V; injection E as <-; exact I.
  - destruct e as [| | |o1|o1|o1]; try discriminate E; destruct o1; try discriminate E; injection E as <-; exact I.
Qed.
Definition nev_run (e : wev) : nfun := match node_view e with Some e' => ev_run H scf P unkey env e' | None => nothing end.
Lemma follows_event e : is_verack e = false -> follows (wev_run e) (nev_run e).
Proof.
  intros V. unfold wev_run, nev_run. destruct (node_view e) as [e'|] eqn:Nv.
  - assert (Fn : forall c, node_comp c = true -> follows (wevent c e) (nevent c e')).
    { intros c Hc. apply (follows_fext (call_node (nevent c e'))); [|apply follows_node, nodal_event]. intros s. destruct c; try discriminate Hc; cbn [FullModel.on_event]; by rewrite Nv. }
    unfold ev_run. apply follows_then; [by apply Fn|]. apply follows_quiet_l; [apply follows_other; by left|]. apply follows_then; [by apply Fn|].
    apply follows_quiet_r; [by apply Fn|]. apply follows_quiet_l; [apply follows_other; by right|]. by apply follows_peer_event.
  - assert (Fn : forall c, node_comp c = true -> follows (wevent c e) nothing).
    { intros c Hc. apply (follows_fext skip); [|apply follows_skip]. intros s. destruct c; try discriminate Hc; cbn [FullModel.on_event]; by rewrite Nv. }
    apply follows_quiet_l; [by apply Fn|]. apply follows_quiet_l; [apply follows_other; by left|]. apply follows_quiet_l; [by apply Fn|].
    apply follows_quiet_l; [by apply Fn|]. apply follows_quiet_l; [apply follows_other; by right|]. by apply follows_peer_event.
Qed.
Lemma nevent_run e (s : fsm node nmsg nev) : event nevent e s = ('(n, l) <-- ev_run H scf P unkey env e (f_state s) ;; Val (Fsm n (queue l (f_box s)), l)).
Proof. apply event_run. Qed.

(** ** Steps *)
Lemma sim_queue s n st (l : list (comp * wio)) k : sim s n -> kept l k -> w_node st = w_node (f_state s) \/ True ->
  sim (Fsm st (queue l (f_box s))) (Fsm (w_node st) (queue k (f_box n))).
Proof.
  intros (_ & B & Pl) [F <-] _. split; [done|]. split; intros c; cbn [f_box]; rewrite !queue_box.
  - by rewrite omap_app', <- B, erase_by_comp.
  - apply Forall_app. split; [apply Pl|]. clear -F. induction F as [|[c' x] l Hx F IH]; cbn [flat_map]; [by apply Forall_nil|].
    apply Forall_app. split; [|exact IH]. cbn [fst snd] in *. destruct (decide (c' = c)); [by apply Forall_singleton|by apply Forall_nil].
Qed.
Lemma input_sim s n f g : ok (f_state s) -> sim s n -> follows_at (f_state s) f g ->
  match fstep wevent magic (FInput f) s with
  | Val (s', t) => ok (f_state s') /\ exists n', fstep nevent magic (FInput g) n = Val (n', omap (erase_item magic) t) /\ sim s' n'
  | Panic p => fstep nevent magic (FInput g) n = Panic p
  end.
Proof.
  intros O S F. specialize (F O). cbn [fstep]. pose proof S as (E & _). rewrite E. destruct (f (f_state s)) as [[st l]|p]; cbn [mbind_M]; [|by rewrite F].
  destruct F as (O' & k & -> & K). cbn [mbind_M f_state]. split; [exact O'|]. eexists. split; [|apply (sim_queue s n st l k S K); by right].
  rewrite erase_fqueued. by destruct K as [_ <-].
Qed.
Lemma sim_eta s n : sim s (Fsm (f_state n) (f_box n)) -> sim s n.
Proof. by destruct n. Qed.
Lemma input_nothing s n f : ok (f_state s) -> sim s n -> follows_at (f_state s) f nothing ->
  match fstep wevent magic (FInput f) s with
  | Val (s', t) => ok (f_state s') /\ sim s' n /\ omap (erase_item magic) t = []
  | Panic p => False
  end.
Proof.
  intros O S F. pose proof (input_sim s n f nothing O S F) as R. destruct (fstep wevent magic (FInput f) s) as [[s' t]|p]; [|discriminate R].
  destruct R as (O' & n' & E & S'). cbn in E. injection E as <- <-. split; [exact O'|]. split; [by apply sim_eta|done].
Qed.
Lemma event_sim e s n : is_verack e = false -> ok (f_state s) -> sim s n ->
  match event wevent e s with
  | Val (s', l) => ok (f_state s') /\
      match node_view e with
      | Some e' => exists n', event nevent e' n = Val (n', omap erase_pair l) /\ sim s' n'
      | None => sim s' n /\ omap erase_pair l = []
      end
  | Panic p => exists e', node_view e = Some e' /\ event nevent e' n = Panic p
  end.
Proof.
  intros V O S. pose proof (follows_event e V (f_state s) O) as F. rewrite wevent_run. pose proof S as (E & _). unfold nev_run in F.
  destruct (wev_run e (f_state s)) as [[st l]|p]; cbn [mbind_M].
  - destruct F as (O' & k & Ek & K). cbn [f_state]. split; [exact O'|]. destruct (node_view e) as [e'|].
    + eexists. rewrite nevent_run, E, Ek. cbn [mbind_M]. split; [|apply (sim_queue s n st l k S K); by right]. by destruct K as [_ <-].
    + unfold nothing in Ek. injection Ek as E1 <-. split; [|by destruct K]. pose proof (sim_queue s n st l [] S K (or_intror I)) as S'.
      cbn [queue] in S'. rewrite <- E1, <- E in S'. by apply sim_eta.
  - destruct (node_view e) as [e'|]; [|discriminate F]. exists e'. split; [done|]. by rewrite nevent_run, E, F.
Qed.

Definition passes (a : sockaddr) (mg : N) (m : wmsg) (s : full) : bool := (mg =? magic) && connected_at (w_peer s) a && hook a m.
Definition verack_of (a : sockaddr) (s : full) : option peer_event :=
  match pm_peers (w_peer s) !! a with
  | Some (Connected c (Some i)) =>
      match pi_state i with
      | HVersion _ => Some (PNegotiated (key a) (pi_height i) (is_outbound (cn_link c)) (has_services (pi_services i) NETWORK)
                              (has_services (pi_services i) COMPACT_FILTERS) (pi_relay i) (pi_wtxid i) (pi_persistent i))
      | HVerack _ => None
      end
  | _ => None
  end.
Definition nop_of (o : wop) (s : fsm full wmsg wev) : option nop :=
  match o with
  | WInitialize => Some NInitialize
  | WReceived a mg m =>
      if passes a mg m (f_state s) then
        match m with WNode m => Some (NMessage (key a) m) | WVerack => NPeer <$> verack_of a (f_state s) | _ => None end
      else None
  | WConnected _ _ _ | WDrop _ => None
  | WDisconnected a _ =>
      if disconnecting_at (w_peer (f_state s)) a || connected_at (w_peer (f_state s)) a then Some (NPeer (PDisconnected (key a))) else None
  | WTimer => Some NTimer
  | WCommand (CmdImportHeaders hds) => Some (NImport hds)
  | WCommand (CmdRequestFilters a b) => Some (NRequestFilters a b)
  | WCommand (CmdRequestBlock h) => Some (NRequestBlock h)
  | WCommand (CmdSubmit t) => Some (NSubmit t)
  | WCommand (CmdRescan a b w) => Some (NRescan a b w)
  | WCommand (CmdWatch w) => Some (NWatch w)
  | WCommand _ => None
  | WNext => match take_first sources (f_box s) with Some (c, x, _) => match erase c x with Some _ => Some NNext | None => None end | None => None end
  end.
Definition step_ok (o : wop) (s : fsm full wmsg wev) (n : fsm node nmsg nev) (r : M (fsm full wmsg wev * list (fitem wmsg wev))) : Prop :=
  match r with
  | Val (s', t) => ok (f_state s') /\
      match nop_of o s with
      | Some no => exists n', nstep no n = Val (n', omap (erase_item magic) t) /\ sim s' n'
      | None => sim s' n /\ omap (erase_item magic) t = []
      end
  | Panic p => (exists no, nop_of o s = Some no /\ nstep no n = Panic p) \/
               exists to, o = WCommand (CmdFindBranch to) /\ find_branch (n_cache (f_state n)) to = Panic p
  end.

Lemma step_some o s n no f g : ok (f_state s) -> sim s n -> nop_of o s = Some no -> nop_fop H scf P unkey env no = FInput g -> follows_at (f_state s) f g ->
  step_ok o s n (fstep wevent magic (FInput f) s).
Proof.
  intros O S E G F. pose proof (input_sim s n f g O S F) as R. unfold step_ok. rewrite E. unfold node_step. rewrite G.
  destruct (fstep wevent magic (FInput f) s) as [[s' t]|p]; [exact R|]. left. exists no. rewrite G. by split.
Qed.
Lemma step_none o s n f : ok (f_state s) -> sim s n -> nop_of o s = None -> follows_at (f_state s) f nothing ->
  step_ok o s n (fstep wevent magic (FInput f) s).
Proof.
  intros O S E F. pose proof (input_nothing s n f O S F) as R. unfold step_ok. rewrite E.
  destruct (fstep wevent magic (FInput f) s) as [[s' t]|p]; [exact R|]. by left.
Qed.
Lemma step_command c s n : ok (f_state s) -> sim s n -> step_ok (WCommand c) s n (fullstep (WCommand c) s).
Proof.
  intros O S. pose proof S as (En & _). unfold full_step, wop_fop.
  assert (Run : forall f g (r : full -> reply), follows f g -> follows_at (f_state s) (fun s0 => '(s', x, _) <-- ('(s', x) <-- f s0 ;; Val (s', x, r s0)) ;; Val (s', x)) g).
  { intros f g r F _. specialize (F (f_state s) O). destruct (f (f_state s)) as [[s' l]|p]; cbn [mbind_M]; exact F. }
  destruct c as [|h|h|to|sv|a|a|m pred|hds|l|a b|h|t|i|a b w|w]; cbn [exec].
  - apply step_none; [done..|]. intros _. cbn [mbind_M]. split; [exact O|]. exists []. split; [done|apply kept_nil].
  - apply step_none; [done..|]. intros _. cbn [mbind_M]. split; [exact O|]. exists []. split; [done|apply kept_nil].
  - apply step_none; [done..|]. intros _. cbn [mbind_M]. split; [exact O|]. exists []. split; [done|apply kept_nil].
  - cbn [fstep]. rewrite <- En. destruct (find_branch (n_cache (f_state n)) to) as [r|p] eqn:Ef; cbn [mbind_M].
    + pose proof (step_none (WCommand (CmdFindBranch to)) s n skip O S eq_refl (follows_skip (f_state s))) as R. cbn [fstep skip mbind_M] in R. exact R.
    + right. exists to. by split.
  - apply step_none; [done..|]. intros _. cbn [mbind_M]. split; [exact O|]. exists []. split; [done|apply kept_nil].
  - apply step_none; [done..|]. apply (Run _ _ (fun _ => RpNone)), follows_silent. exact I.
  - apply step_none; [done..|]. apply (Run _ _ (fun _ => RpNone)), follows_silent. exact I.
  - apply step_none; [done..|]. intros _. cbn [mbind_M]. split; [exact O|]. exists []. split; [done|]. split.
    + apply Forall_map, Forall_forall. done.
    + induction (List.filter _ _) as [|v l IH]; [done|]. cbn. unfold erase_pair. cbn. destruct m; exact IH.
  - eapply step_some; [done..| |]; [reflexivity|]. intros _. cbn [mbind_M].
    match goal with |- context [call_node ?g] => pose proof (follows_node g (nodal_sync _) (f_state s) O) as F end.
    destruct (SyncModel.sync_import _ _ _ _ _) as [[[s1 c1] r]|p] eqn:Ei; cbn [mbind_M].
    + destruct (call_node _ (f_state s)) as [[s' l]|p]; cbn [mbind_M]; exact F.
    + unfold call_sync, SyncModel.sync_step. rewrite Ei. done.
  - apply step_none; [done..|]. apply (Run _ _ (fun _ => RpNone)), follows_addr.
  - eapply step_some; [done..| |]; [reflexivity|]. intros _. cbn [mbind_M].
    match goal with |- context [call_node ?g] => pose proof (follows_node g (nodal_cbf _) (f_state s) O) as F end.
    destruct (CbfModel.cbf_step _ _ _ _ _ _) as [[s1 x1]|p] eqn:Ei; cbn [mbind_M].
    + destruct (call_node _ (f_state s)) as [[s' l]|p]; cbn [mbind_M]; exact F.
    + unfold call_cbf. rewrite Ei. done.
  - eapply step_some; [done..| |]; [reflexivity|]. apply (Run _ _ (fun _ => RpNone)), follows_node, nodal_inv.
  - eapply step_some; [done..| |]; [reflexivity|]. apply (Run _ _ (fun s => RpSubmit (match announced_to s with [] => None | l => Some l end))), follows_then; apply follows_node; [apply nodal_cbf|apply nodal_inv].
  - apply step_none; [done..|]. intros _. cbn [mbind_M]. split; [exact O|]. exists []. split; [done|apply kept_nil].
  - eapply step_some; [done..| |]; [reflexivity|]. apply (Run _ _ (fun _ => RpNone)), follows_node, nodal_cbf.
  - eapply step_some; [done..| |]; [reflexivity|]. apply (Run _ _ (fun _ => RpNone)), follows_node, nodal_cbf.
Qed.

Lemma internal_sim o e s n no : is_verack e = false -> ok (f_state s) -> sim s n ->
  nop_of o s = (match node_view e with Some _ => Some no | None => None end) ->
  (forall e', node_view e = Some e' -> nop_fop H scf P unkey env no = FInternal e') ->
  step_ok o s n (fstep wevent magic (FInternal e) s).
Proof.
  intros V O S E G. pose proof (event_sim e s n V O S) as R. cbn [fstep]. unfold step_ok. destruct (event wevent e s) as [[s' l]|p]; cbn [mbind_M].
  - destruct R as [O' R]. split; [exact O'|]. rewrite E. rewrite omap_app', erase_fqueued. destruct (node_view e) as [e'|] eqn:Nv.
    + destruct R as (n' & R & S'). exists n'. split; [|exact S']. unfold node_step. rewrite (G e' eq_refl). cbn [fstep]. rewrite R. cbn [mbind_M].
      cbn. by rewrite Nv.
    + destruct R as [S' ->]. split; [exact S'|]. cbn. by rewrite Nv.
  - destruct R as (e' & Nv & R). left. exists no. rewrite E, Nv. split; [done|]. unfold node_step. rewrite (G e' Nv). cbn [fstep]. by rewrite R.
Qed.
Lemma step_verack a s n : ok (f_state s) -> sim s n -> passes a magic WVerack (f_state s) = true ->
  step_ok (WReceived a magic WVerack) s n (fstep wevent magic (FInternal (WvMessage a WVerack)) s).
Proof.
  intros O S Pa. cbn [fstep]. rewrite wevent_run.
  assert (F : follows_at (f_state s) (wev_run (WvMessage a WVerack)) (both nothing (fun n => Val (n, match verack_of a (f_state s) with
    | Some (PNegotiated a h ob nw fl re wt pe) => [(CPeer, IoEvent (EvNegotiated a h ob nw fl re wt pe))] | _ => [] end)))).
  { assert (E : forall s0, wev_run (WvMessage a WVerack) s0 = andthen (wcall_addr (AMessage a)) (wcall_peer (KMessage a MVerack)) s0).
    { intros s0. unfold wev_run, andthen. cbn [FullModel.on_event node_view ping_event addr_event peer_event_of]. unfold skip. cbn [mbind_M].
      destruct (wcall_addr (AMessage a) s0) as [[s1 l]|p]; cbn [mbind_M]; [|done]. by destruct (wcall_peer (KMessage a MVerack) s1) as [[s2 l2]|p]. }
    unfold follows_at. rewrite E. apply follows_then_at; [apply follows_addr|]. intros s1 l _ E1. apply follows_peer; [exact I|]. intros p am x Ek.
    assert (Ep : w_peer s1 = w_peer (f_state s)).
    { unfold call_addr in E1. destruct (addr_step _ _ _) as [[am1 y]|]; cbn [mbind_M] in E1; [|discriminate E1]. by injection E1 as <- _. }
    rewrite Ep in Ek. cbn [kstep] in Ek. injection Ek as _ _ <-. unfold received_verack, verack_of, do_disconnect.
    destruct (pm_peers (w_peer (f_state s)) !! a) as [[t|c [i|]|]|]; try done. destruct (pi_state i); done. }
  specialize (F O). rewrite both_nothing_l in F. unfold step_ok. unfold nop_of. rewrite Pa.
  destruct (wev_run (WvMessage a WVerack) (f_state s)) as [[st l]|p]; cbn [mbind_M]; [|discriminate F].
  destruct F as (O' & k & Ek & K). cbn [f_state]. split; [exact O'|]. rewrite omap_app', erase_fqueued.
  pose proof (sim_queue s n st l k S K (or_intror I)) as S'. pose proof S as (En & _). injection Ek as En' Ek. rewrite <- En', <- En in S'.
  destruct K as [_ K]. rewrite K. cbn. rewrite app_nil_r. destruct (verack_of a (f_state s)) as [[? ? ? ? ? ? ? ?|]|] eqn:Ev.
  - cbn. subst k. eexists. split; [reflexivity|]. exact S'.
  - exfalso. unfold verack_of in Ev. repeat case_match; discriminate Ev.
  - cbn. subst k. split; [|done]. cbn [queue] in S'. by apply sim_eta.
Qed.
Lemma step_received a mg m s n : ok (f_state s) -> sim s n -> step_ok (WReceived a mg m) s n (fullstep (WReceived a mg m) s).
Proof.
  intros O S. unfold full_step, wop_fop, received_fop.
  assert (Sk : passes a mg m (f_state s) = false -> step_ok (WReceived a mg m) s n (fstep wevent magic (FInput skip) s)).
  { intros Pa. apply step_none; [done..| |apply follows_skip]. cbn [nop_of]. by rewrite Pa. }
  destruct (mg =? magic) eqn:Em; cbn [negb].
  2:{ apply step_none; [done..| |apply follows_silent; exact I]. cbn [nop_of]. unfold passes. by rewrite Em. }
  apply N.eqb_eq in Em. subst mg. destruct (connected_at (w_peer (f_state s)) a) eqn:Ec; cbn [negb].
  2:{ apply Sk. unfold passes. by rewrite N.eqb_refl, Ec. }
  destruct (hook a m) eqn:Eh; cbn [negb]; [|apply Sk; unfold passes; by rewrite N.eqb_refl, Ec, Eh].
  assert (Pa : passes a magic m (f_state s) = true) by (unfold passes; by rewrite N.eqb_refl, Ec, Eh).
  assert (D : m = WVerack \/ is_verack (WvMessage a m) = false) by (destruct m; first [by left|by right]).
  destruct D as [->|Nv]; [by apply step_verack|].
  apply (internal_sim _ _ s n (match m with WNode m => NMessage (key a) m | _ => NNext end)); [done|done|done| |].
  - unfold nop_of. rewrite Pa. by destruct m; try discriminate Nv.
  - intros e' E. destruct m; try discriminate E. by injection E as <-.
Qed.
Lemma step_disconnected a r s n : ok (f_state s) -> sim s n -> step_ok (WDisconnected a r) s n (fullstep (WDisconnected a r) s).
Proof.
  intros O S. unfold full_step, wop_fop.
  assert (F : forall k, (if disconnecting_at (w_peer (f_state s)) a || connected_at (w_peer (f_state s)) a then [(CPeer, IoEvent (EvDisconnected (key a)))] else []) = k ->
    follows_at (f_state s) (wcall_peer (KDisconnected a r)) (fun n => Val (n, k))).
  { intros k <-. apply follows_peer; [exact I|]. intros p am x E. cbn [kstep] in E. unfold peer_disconnected in E.
    assert (Q : exists y, x = (if disconnecting_at (w_peer (f_state s)) a || connected_at (w_peer (f_state s)) a then [KoDisconnected a r]
      else if connecting_at (w_peer (f_state s)) a then match r with DConnection => [KoFailed a] | _ => [] end else []) ++ y /\ Forall quiet y).
    { case_bool_decide.
      - unfold persistent_disconnected in E. case_match; cbn [mbind_M] in E; [discriminate E|]. injection E as <- <- <-. eexists. split; [reflexivity|]. repeat constructor.
      - destruct (maintain_connections _ _ _ _ _) as [[[s2 am2] y]|] eqn:Em; cbn [mbind_M] in E; [|discriminate E]. injection E as <- <- <-. eexists. split; [reflexivity|]. by eapply quiet_maintain. }
    destruct Q as (y & -> & Q). unfold peer_nodes. rewrite flat_map_app, omap_app'. fold (peer_nodes y). rewrite (quiet_nodes y Q), app_nil_r.
    destruct (disconnecting_at _ _ || connected_at _ _); [done|]. destruct (connecting_at _ _); [|done]. by destruct r. }
  destruct (disconnecting_at (w_peer (f_state s)) a || connected_at (w_peer (f_state s)) a) eqn:Ed.
  - eapply step_some; [done|done| | |by apply F]; [cbn [nop_of]; by rewrite Ed|reflexivity].
  - apply step_none; [done|done| |by apply F]. cbn [nop_of]. by rewrite Ed.
Qed.

(** *** Taking outputs *)
Lemma take_erase (b b' : comp -> list wio) (nb : comp -> list nio) c x y : (forall c, nb c = omap (erase c) (b c)) -> erase c x = Some y ->
  forall cs, take_first cs b = Some (c, x, b') -> exists nb', take_first cs nb = Some (c, y, nb') /\ forall c', nb' c' = omap (erase c') (b' c').
Proof.
  intros Hb Ex cs. induction cs as [|c0 cs IH]; cbn [take_first]; [done|]. destruct (b c0) as [|z rest] eqn:B.
  - intros E. rewrite (Hb c0), B. cbn. exact (IH E).
  - intros E. injection E as <- <- <-. rewrite (Hb c0), B. cbn. rewrite Ex. eexists. split; [reflexivity|]. intros c'. cbn. destruct (decide (c0 = c')) as [->|]; [done|apply Hb].
Qed.
Lemma erase_unstamp c x : erase c (unstamp (stamp magic x)) = erase c x.
Proof. by destruct x as [a m| | | |]. Qed.
Lemma pop_sim s n c x b' : sim s n -> take_first sources (f_box s) = Some (c, x, b') -> erase c x = None -> sim (Fsm (f_state s) b') n.
Proof.
  intros (E & B & Pl) T Ex. apply take_first_some in T as [T1 T2]. split; [exact E|]. cbn [f_box]. split; intros c'.
  - destruct (decide (c' = c)) as [->|Ne].
    + rewrite B, T1. cbn. by rewrite Ex.
    + rewrite B, T2; [done|exact Ne].
  - destruct (decide (c' = c)) as [->|Ne].
    + specialize (Pl c). rewrite T1 in Pl. apply Forall_cons in Pl as [_ Pl]. exact Pl.
    + rewrite T2; [apply Pl|exact Ne].
Qed.
Lemma step_next s n : ok (f_state s) -> sim s n -> step_ok WNext s n (fullstep WNext s).
Proof.
  intros O S. unfold full_step, wop_fop. cbn [fstep]. unfold next. unfold step_ok. cbn [nop_of].
  destruct (take_first sources (f_box s)) as [[[c x] b]|] eqn:T; cbn [mbind_M].
  2:{ split; [exact O|]. split; [exact S|done]. }
  assert (Px : plain x). { pose proof S as (_ & _ & Pl). specialize (Pl c). apply take_first_some in T as [T _]. rewrite T in Pl. by apply Forall_cons in Pl as [Pl _]. }
  destruct (erase c x) as [y|] eqn:Ex.
  - pose proof S as (En & B & Pl). destruct (take_erase _ b _ c x y B Ex sources T) as (nb & Tn & Hb).
    assert (S1 : sim (Fsm (f_state s) b) (Fsm (f_state n) nb)).
    { split; [exact En|]. split; [exact Hb|]. intros c'. cbn [f_box]. apply take_first_some in T as [T1 T2]. destruct (decide (c' = c)) as [->|Ne].
      - specialize (Pl c). rewrite T1 in Pl. apply Forall_cons in Pl as [_ Pl]. exact Pl.
      - rewrite T2; [apply Pl|exact Ne]. }
    destruct x as [a m|a|a r|d|e]; cbn [stamp mbind_M].
    + destruct m as [m| | | | | | | | |]; cbn [erase] in Ex; try discriminate Ex. destruct (node_comp c) eqn:Nc; [|discriminate Ex]. injection Ex as <-.
      split; [exact O|]. eexists. unfold node_step. cbn [nop_fop fstep]. unfold next. rewrite Tn. cbn [stamp mbind_M].
      split; [|exact S1]. cbn. by rewrite Nc.
    + cbn [erase] in Ex. destruct (node_comp c) eqn:Nc; [|discriminate Ex]. injection Ex as <-.
      split; [exact O|]. eexists. unfold node_step. cbn [nop_fop fstep]. unfold next. rewrite Tn. cbn [stamp mbind_M].
      split; [|exact S1]. cbn. by rewrite Nc.
    + cbn [erase] in Ex. destruct (node_comp c) eqn:Nc; [|discriminate Ex]. injection Ex as <-.
      split; [exact O|]. eexists. unfold node_step. cbn [nop_fop fstep]. unfold next. rewrite Tn. cbn [stamp mbind_M].
      split; [|exact S1]. cbn. by rewrite Nc.
    + cbn [erase] in Ex. destruct (node_comp c) eqn:Nc; [|discriminate Ex]. injection Ex as <-.
      split; [exact O|]. eexists. unfold node_step. cbn [nop_fop fstep]. unfold next. rewrite Tn. cbn [stamp mbind_M].
      split; [|exact S1]. cbn. by rewrite Nc.
    + cbn [erase] in Ex. destruct (node_view e) as [e'|] eqn:Nv; cbn in Ex; [|discriminate Ex]. injection Ex as <-.
      pose proof (event_sim e (Fsm (f_state s) b) (Fsm (f_state n) nb)) as R. rewrite Nv in R. specialize (R ltac:(by destruct e) O S1).
      destruct (event wevent e (Fsm (f_state s) b)) as [[s' l]|p]; cbn [mbind_M].
      * destruct R as (O' & n' & R & S'). split; [exact O'|]. exists n'. split; [|exact S']. unfold node_step. cbn [nop_fop fstep]. unfold next. rewrite Tn. cbn [stamp mbind_M].
        rewrite R. cbn [mbind_M]. rewrite omap_app', erase_fqueued. cbn. by rewrite Nv.
      * destruct R as (e1 & E1 & R). injection E1 as <-. left. exists NNext. split; [done|]. unfold node_step. cbn [nop_fop fstep]. unfold next. rewrite Tn. cbn [stamp mbind_M].
        by rewrite R.
  - pose proof (pop_sim s n c x b S T Ex) as S1. destruct x as [a m|a|a r|d|e]; cbn [stamp mbind_M].
    + split; [exact O|]. split; [exact S1|]. cbn. cbn [erase] in Ex. by rewrite Ex.
    + split; [exact O|]. split; [exact S1|]. cbn. cbn [erase] in Ex. by rewrite Ex.
    + split; [exact O|]. split; [exact S1|]. cbn. cbn [erase] in Ex. by rewrite Ex.
    + split; [exact O|]. split; [exact S1|]. cbn. cbn [erase] in Ex. by rewrite Ex.
    + cbn [erase] in Ex. destruct (node_view e) as [e'|] eqn:Nv; cbn in Ex; [discriminate Ex|].
      pose proof (event_sim e (Fsm (f_state s) b) n) as R. rewrite Nv in R. specialize (R ltac:(by destruct e) O S1).
      destruct (event wevent e (Fsm (f_state s) b)) as [[s' l]|p]; cbn [mbind_M].
      * destruct R as (O' & S' & R). split; [exact O'|]. split; [exact S'|]. rewrite omap_app', erase_fqueued, R. cbn. by rewrite Nv.
      * destruct R as (e1 & E1 & R). discriminate E1.
Qed.

Lemma follows_init : follows (FullModel.initialize H scf P kcf acf env wenv_of) (both (call_sync H scf unkey env SyncModel.SInitialize) (call_cbf H P unkey env CbfModel.CInitialize)).
Proof.
  unfold FullModel.initialize. apply (follows_fext
    (andthen (emit (fun _ => WvInitializing))
    (andthen (wcall_addr AInitialize)
    (andthen (call_node (call_sync H scf unkey env SyncModel.SInitialize))
    (andthen (wcall_peer KInit)
    (andthen (call_node (call_cbf H P unkey env CbfModel.CInitialize))
           (emit (fun s => WvReady (c_height (n_cache (w_node s))) (CbfModel.f_height (n_cbf (w_node s))))))))))); [done|].
  apply follows_quiet_l; [by apply follows_emit|]. apply follows_quiet_l; [apply follows_addr|]. apply follows_then; [apply follows_node, nodal_sync|].
  apply follows_quiet_l; [by apply follows_silent|]. apply follows_quiet_r; [apply follows_node, nodal_cbf|by apply follows_emit].
Qed.
Theorem step_sim o s n : ok (f_state s) -> sim s n -> step_ok o s n (fullstep o s).
Proof.
  intros O S. destruct o as [|a mg m|a local l|a r|a| |c|].
  - unfold full_step, wop_fop. eapply step_some; [done|done|reflexivity|reflexivity|apply follows_init].
  - by apply step_received.
  - unfold full_step, wop_fop. apply step_none; [done..|]. by apply follows_silent.
  - by apply step_disconnected.
  - unfold full_step, wop_fop. apply step_none; [done..|]. by apply follows_silent.
  - unfold full_step, wop_fop. eapply step_some; [done|done|reflexivity|reflexivity|].
    match goal with |- follows_at _ _ ?g => apply (follows_at_ext _ _ (both (fun n => call_inv unkey (InvModel.ITimer (SyncModel.se_now (ne_sync (env (n_calls n)))) (CbfModel.tr_height (tree_of H (n_cache n))) (ne_pick (env (n_calls n)))) n)
      (both (call_sync H scf unkey env SyncModel.STimer) (call_cbf H P unkey env CbfModel.CTimer)))); [reflexivity|] end.
    unfold timer.
    refine (follows_fext (andthen (call_node (fun n => call_inv unkey (InvModel.ITimer (SyncModel.se_now (ne_sync (env (n_calls n)))) (CbfModel.tr_height (tree_of H (n_cache n))) (ne_pick (env (n_calls n)))) n))
      (andthen (call_node (call_sync H scf unkey env SyncModel.STimer))
      (andthen (wcall_ping (fun w => PTimer (ke_now (we_peer w)) (we_order w) (we_nonces w)))
      (andthen (wcall_addr ATimer)
      (andthen (wcall_peer KTimer)
           (call_node (call_cbf H P unkey env CbfModel.CTimer))))))) _ _ _ _ (f_state s)); [reflexivity|].
    apply follows_then; [apply follows_node; intros ? ? ?; apply nodal_inv|]. apply follows_then; [apply follows_node, nodal_sync|].
    apply follows_quiet_l; [apply follows_ping|]. apply follows_quiet_l; [apply follows_addr|]. apply follows_quiet_l; [by apply follows_silent|]. apply follows_node, nodal_cbf.
  - by apply step_command.
  - by apply step_next.
Qed.
End Sim.
