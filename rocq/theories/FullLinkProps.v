(** Property theorems about the connections of the running client, in terms of
    its inputs and announced events (C113-C115), each followed by a concrete
    case. [link_of a l] reads off the log what the connection with [a] is. *)
From Verif Require Import Base RunEx PowModel BlockModel BlockSpec BlockExample BlockProps UtilModel FeeModel AddrModel AddrSpec AddrProps PeerModel PeerSpec PeerMain PeerProps
  PeerMore PeerEvents PeerDial PingModel DispModel DispSpec LoadModel NodeModel NodeSpec NodeProps FullModel FullSpec FullProps FullMgrSpec FullMgr FullLinkSpec FullLink FullLinked FullMgrProps.
From Verif Require SyncModel SyncSpec SyncProps CbfModel CbfSpec CbfProps InvModel PingSpec.
Open Scope N_scope.

(** ** C113: messages and handshakes *)

(** A message is passed on to the managers exactly when it is received with the
    right magic from an address with an open connection and the hook lets it
    through. *)
Theorem C113_passed H scf P kcf acf ping_timeout env wenv_of magic hook c0 f0 white am l s o s' x a m : wfair wenv_of am -> started (full_step H scf P kcf acf ping_timeout env wenv_of magic hook) (full0 c0 f0 white am) l s ->
  (full_step H scf P kcf acf ping_timeout env wenv_of magic hook) o s = Val (s', x) ->
  WvMessage a m ∈ announced x <-> o = WReceived a magic m /\ is_open (link_of a l) /\ hook a m = true.
Proof. intros (Fw & Fo & e0 & store & Fe0 & New). exact (passed H scf P kcf acf ping_timeout env wenv_of magic hook Fw Fo c0 f0 white am e0 store Fe0 New l s o s' x a m). Qed.
Print Assumptions C113_passed.

(** A step passes on at most one event, and only on receipt or when the queue is
    read. *)
Theorem C113_passed_only H scf P kcf acf ping_timeout env wenv_of magic hook c0 f0 white am l s o s' x : wfair wenv_of am -> started (full_step H scf P kcf acf ping_timeout env wenv_of magic hook) (full0 c0 f0 white am) l s ->
  (full_step H scf P kcf acf ping_timeout env wenv_of magic hook) o s = Val (s', x) ->
  (length (announced x) <= 1)%nat /\ ((forall a m, o <> WReceived a magic m) -> o <> WNext -> announced x = []).
Proof. intros (Fw & Fo & e0 & store & Fe0 & New). exact (passed_only H scf P kcf acf ping_timeout env wenv_of magic hook Fw Fo c0 f0 white am e0 store Fe0 New l s o s' x). Qed.
Print Assumptions C113_passed_only.

(** Fewer inbound connections than the configured number are open at any time. *)
Theorem C113_inbound H scf P kcf acf ping_timeout env wenv_of magic hook c0 f0 white am l s k : wfair wenv_of am -> started (full_step H scf P kcf acf ping_timeout env wenv_of magic hook) (full0 c0 f0 white am) l s ->
  NoDup k -> (forall a, a ∈ k -> open_in (link_of a l)) -> lenN k <= kc_maxin kcf - 1.
Proof. intros (Fw & Fo & e0 & store & Fe0 & New). exact (inbound_log H scf P kcf acf ping_timeout env wenv_of magic hook Fw Fo c0 f0 white am e0 store Fe0 New l s k). Qed.
Print Assumptions C113_inbound.

(** A peer is announced as negotiated exactly when its [verack] gets through on a
    connection on which its [version] did and no [verack] before; the
    announcement says what that [version] said. *)
Theorem C113_negotiated H scf P kcf acf ping_timeout env wenv_of magic hook c0 f0 white am l s o s' x a lk sv pe ag rc he ve re wt : wfair wenv_of am -> started (full_step H scf P kcf acf ping_timeout env wenv_of magic hook) (full0 c0 f0 white am) l s ->
  (full_step H scf P kcf acf ping_timeout env wenv_of magic hook) o s = Val (s', x) ->
  IoEvent (WvPeer (KoNegotiated a lk sv pe ag rc he ve re wt)) ∈ queued_by CPeer x <->
  heard_in a WVerack (o, x) /\ exists local m, link_of a l = LOpen local lk (Some (m, wt, false)) /\ as_told kcf a m sv pe ag rc he ve re.
Proof. intros (Fw & Fo & e0 & store & Fe0 & New). exact (negotiated_log H scf P kcf acf ping_timeout env wenv_of magic hook Fw Fo c0 f0 white am e0 store Fe0 New l s o s' x a lk sv pe ag rc he ve re wt). Qed.
Print Assumptions C113_negotiated.

(** An open connection with its handshake goes back to the inputs that made it. *)
Theorem C113_origin H scf P kcf acf ping_timeout env wenv_of magic hook c0 f0 white am l s a local lk h : wfair wenv_of am -> started (full_step H scf P kcf acf ping_timeout env wenv_of magic hook) (full0 c0 f0 white am) l s ->
  link_of a l = LOpen local lk h -> opened magic hook a local lk h l.
Proof. intros (Fw & Fo & e0 & store & Fe0 & New). exact (open_log H scf P kcf acf ping_timeout env wenv_of magic hook Fw Fo c0 f0 white am e0 store Fe0 New l s a local lk h). Qed.
Print Assumptions C113_origin.

(** We greet a peer when we connected to it, or in answer to its [version]; we
    say the height of our chain and a time the clock showed. *)
Theorem C113_greeting H scf P kcf acf ping_timeout env wenv_of magic hook c0 f0 white am l s o s' x a m : wfair wenv_of am -> started (full_step H scf P kcf acf ping_timeout env wenv_of magic hook) (full0 c0 f0 white am) l s ->
  (full_step H scf P kcf acf ping_timeout env wenv_of magic hook) o s = Val (s', x) ->
  IoWrite a (WVersion m) ∈ queued_by CPeer x ->
  exists local nonce t, greets kcf a local nonce (c_height (n_cache (w_node (f_state s)))) t m /\ shown wenv_of t /\
    (o = WConnected a local Outbound \/ exists v h, heard_in a (WVersion v) (o, x) /\ nonce = vm_nonce v /\ link_of a l = LOpen local Inbound h).
Proof. intros (Fw & Fo & e0 & store & Fe0 & New). exact (greet_log H scf P kcf acf ping_timeout env wenv_of magic hook Fw Fo c0 f0 white am e0 store Fe0 New l s o s' x a m). Qed.
Print Assumptions C113_greeting.

(** One more step after a run. *)
Lemma wx_next os o (Q : wlog -> wstate -> list (fitem wmsg wev) -> Prop) :
  match from_store exH ex_ng cp_store cp_params [], addr_new (ex_aenv T) ∅ with
  | Val (Ok c), Val am => match wx_log (WInitialize :: os) (wx_0 c am) with Val (l, s) => match wx_step o s with Val (s', x) => Q l s x | Panic _ => False end | Panic _ => False end
  | _, _ => False
  end ->
  exists c am l s s' x, wfair wx_wenv am /\ started wx_step (wx_0 c am) l s /\ wx_step o s = Val (s', x) /\ Q l s x.
Proof.
  intros R. destruct (wx_started os (fun l s => match wx_step o s with Val (s', x) => Q l s x | Panic _ => False end)) as (c & am & l & s & F & S & _ & R').
  { destruct (from_store exH ex_ng cp_store cp_params []) as [[c|]|]; try done. }
  revert R'. generalize (eq_refl (wx_step o s)). generalize (wx_step o s) at 2 3. intros [[s' x]|k] E R'; [|exfalso; exact R'].
  exists c, am, l, s, s', x. split; [exact F|]. split; [exact S|]. split; [exact E|exact R'].
Qed.
(** We connect to one peer, another connects to us; both send their [version].
    Then the first sends its [verack]. *)
Definition from_bob (m : wmsg) : wop := WReceived bob 7 m.
Definition wx_half : list wop := [WConnected alice me Outbound; WConnected bob me Inbound; from_alice (WVersion (hi 12 73)); from_bob (WVersion (hi 5 74)); from_bob WWtxidRelay].
Example C113_case : exists c am l s s' x, wfair wx_wenv am /\ started wx_step (wx_0 c am) l s /\ wx_step (from_alice WVerack) s = Val (s', x) /\
  (link_of alice l = LOpen me Outbound (Some (hi 12 73, false, false)) /\ link_of bob l = LOpen me Inbound (Some (hi 5 74, true, false)) /\
   announced x = [WvMessage alice WVerack] /\
   omap (fun y => match y with IoEvent (WvPeer (KoNegotiated a lk _ _ _ _ he _ _ wt)) => Some (a, lk, he, wt) | _ => None end) (queued_by CPeer x) = [(alice, Outbound, 100, false)] /\
   omap (fun y => match y with IoWrite a (WVersion m) => Some (a, to_height (vm_height m)) | _ => None end) (log_queued CPeer l) = [(alice, 0); (bob, 0)]).
Proof. refine (wx_next wx_half _ _ _). vm_compute. repeat split. Qed.
(** A message of the second for another network is not passed on, and ends the
    connection; what it sends afterwards is not passed on either. *)
Example C113_case_shut : exists c am l s s' x, wfair wx_wenv am /\ started wx_step (wx_0 c am) l s /\ wx_step (from_bob WVerack) s = Val (s', x) /\
  (link_of bob l = LClosing /\ announced x = []).
Proof. refine (wx_next (wx_half ++ [WReceived bob 8 WVerack]) _ _ _). vm_compute. repeat split. Qed.

(** ** C114: questions about peers, and dialling *)

(** The reply to a question for peers lists those with a complete handshake and
    the services asked for. *)
Theorem C114_peers H scf P kcf acf ping_timeout env wenv_of magic hook c0 f0 white am l s sv s' q r : wfair wenv_of am -> started (full_step H scf P kcf acf ping_timeout env wenv_of magic hook) (full0 c0 f0 white am) l s ->
  exec H scf P kcf acf env wenv_of (CmdGetPeers sv) (f_state s) = Val (s', q, r) ->
  s' = f_state s /\ q = [] /\ exists vs, r = RpPeers vs /\ lists wenv_of l (fun v k => k = true /\ has_services (v_services v) sv = true) vs.
Proof. intros (Fw & Fo & e0 & store & Fe0 & New). exact (asked_log H scf P kcf acf ping_timeout env wenv_of magic hook Fw Fo c0 f0 white am e0 store Fe0 New l s sv s' q r). Qed.
Print Assumptions C114_peers.

(** A broadcast goes once to every peer that has sent its [version] and is picked
    by the predicate, and these are the peers replied. *)
Theorem C114_broadcast H scf P kcf acf ping_timeout env wenv_of magic hook c0 f0 white am l s m pred s' q r : wfair wenv_of am -> started (full_step H scf P kcf acf ping_timeout env wenv_of magic hook) (full0 c0 f0 white am) l s ->
  exec H scf P kcf acf env wenv_of (CmdBroadcast m pred) (f_state s) = Val (s', q, r) ->
  exists vs, lists wenv_of l (fun v _ => pred v = true) vs /\ s' = f_state s /\ q = (fun v => (CMain, IoWrite (v_addr v) m)) <$> vs /\ r = RpSent (v_addr <$> vs).
Proof. intros (Fw & Fo & e0 & store & Fe0 & New). exact (broadcast_log H scf P kcf acf ping_timeout env wenv_of magic hook Fw Fo c0 f0 white am e0 store Fe0 New l s m pred s' q r). Qed.
Print Assumptions C114_broadcast.

(** Such a peer need not have completed its handshake: what is broadcast is also
    written to a peer whose [verack] is still awaited. *)
Theorem C114_handshake_refuted : exists c am l s s' q r, wfair wx_wenv am /\ started wx_step (wx_0 c am) l s /\
  exec exH SyncProps.ex_cf CbfProps.ex_P wx_kcf ex_acf nx_env wx_wenv (CmdBroadcast WSendHeaders (fun _ => true)) (f_state s) = Val (s', q, r) /\
  link_of bob l = LOpen me Inbound (Some (hi 5 74, true, false)) /\ (CMain, IoWrite bob WSendHeaders) ∈ q.
Proof.
  destruct (wx_started wx_half (fun l s => link_of bob l = LOpen me Inbound (Some (hi 5 74, true, false)) /\
    match exec exH SyncProps.ex_cf CbfProps.ex_P wx_kcf ex_acf nx_env wx_wenv (CmdBroadcast WSendHeaders (fun _ => true)) (f_state s) with
    | Val (_, q, _) => (if List.find (fun y => match y with (CMain, IoWrite a WSendHeaders) => bool_decide (a = bob) | _ => false end) q then true else false) = true | Panic _ => False end)) as (c & am & l & s & F & S & _ & R1 & R2).
  { vm_compute. split; reflexivity. }
  destruct (exec _ _ _ _ _ _ _ _ _) as [[[s' q] r]|] eqn:E; [|destruct R2]. exists c, am, l, s, s', q, r. do 4 (split; [done|]).
  destruct (List.find _ q) as [[c1 y]|] eqn:Fd; [|done]. apply List.find_some in Fd as [I%elem_of_list_In B].
  destruct c1; try done. destruct y as [a m| | | |]; try done. destruct m; try done. apply bool_decide_eq_true in B as ->. exact I.
Qed.
Print Assumptions C114_handshake_refuted.


(** We dial an address only in a domain we connect to, not while a connection
    with it is being made or open, and for one of three reasons. *)
Theorem C114_dial H scf P kcf acf ping_timeout env wenv_of magic hook c0 f0 white am l s o s' x a : wfair wenv_of am -> sane kcf -> started (full_step H scf P kcf acf ping_timeout env wenv_of magic hook) (full0 c0 f0 white am) l s ->
  (full_step H scf P kcf acf ping_timeout env wenv_of magic hook) o s = Val (s', x) ->
  IoConnect a ∈ queued_by CPeer x ->
  domain_ok kcf a /\
  (link_of a l = LIdle \/ link_of a l = LClosing \/ (exists r, o = WDisconnected a r) \/ (o = WTimer /\ IoDisconnect a RTimeout ∈ queued_by CPeer x)) /\
  (o = WCommand (CmdConnect a) \/ (a ∈ kc_persistent kcf /\ (o = WInitialize \/ o = WTimer)) \/
   (kc_persistent kcf = [] /\ (o = WInitialize \/ o = WTimer \/ exists b r, o = WDisconnected b r) /\ exists src sv, IoEvent (WvPeer (KoConnecting a src sv)) ∈ queued_by CPeer x)).
Proof. intros (Fw & Fo & e0 & store & Fe0 & New). intros Sn. exact (dial_log H scf P kcf acf ping_timeout env wenv_of magic hook Fw Fo c0 f0 white am e0 store Fe0 New l s o s' x a Sn). Qed.
Print Assumptions C114_dial.

(** A command to connect dials exactly then. *)
Theorem C114_dial_asked H scf P kcf acf ping_timeout env wenv_of magic hook c0 f0 white am l s s' x a : wfair wenv_of am -> started (full_step H scf P kcf acf ping_timeout env wenv_of magic hook) (full0 c0 f0 white am) l s ->
  (full_step H scf P kcf acf ping_timeout env wenv_of magic hook) (WCommand (CmdConnect a)) s = Val (s', x) ->
  (domain_ok kcf a /\ (link_of a l = LIdle \/ link_of a l = LClosing) -> queued_by CPeer x = [IoConnect a; IoTimer 6000]) /\
  (~ domain_ok kcf a \/ link_of a l = LDialing \/ is_open (link_of a l) -> queued_by CPeer x = []).
Proof. intros (Fw & Fo & e0 & store & Fe0 & New). exact (dial_asked_log H scf P kcf acf ping_timeout env wenv_of magic hook Fw Fo c0 f0 white am e0 store Fe0 New l s s' x a). Qed.
Print Assumptions C114_dial_asked.

(** One peer has completed its handshake and another not. We are asked for
    peers, and to connect to a peer with which we are connected and to one with
    which we are not. *)
Definition carol : sockaddr := (true, v4 55 55 55 55, 8333).
Example C114_case : exists c am l s, wfair wx_wenv am /\ started wx_step (wx_0 c am) l s /\ map fst l = WInitialize :: wx_half ++ [from_alice WVerack] /\
  (match exec exH SyncProps.ex_cf CbfProps.ex_P wx_kcf ex_acf nx_env wx_wenv (CmdGetPeers 1) (f_state s) with
   | Val (_, _, RpPeers vs) => (fun v => (v_addr v, v_height v)) <$> vs = [(alice, 100)] | _ => False end /\
   match exec exH SyncProps.ex_cf CbfProps.ex_P wx_kcf ex_acf nx_env wx_wenv (CmdGetPeers 128) (f_state s) with Val (_, _, RpPeers vs) => vs = [] | _ => False end /\
   match exec exH SyncProps.ex_cf CbfProps.ex_P wx_kcf ex_acf nx_env wx_wenv (CmdBroadcast WSendHeaders (fun v => v_services v =? 74)) (f_state s) with
   | Val (_, _, RpSent l) => l = [bob] | _ => False end /\
   match wx_step (WCommand (CmdConnect alice)) s with Val (_, x) => queued_by CPeer x = [] | _ => False end /\
   match wx_step (WCommand (CmdConnect carol)) s with Val (_, x) => queued_by CPeer x = [IoConnect carol; IoTimer 6000] | _ => False end).
Proof. apply wx_started. vm_compute. repeat split. Qed.
Example C114_case_sane : sane wx_kcf.
Proof. split; vm_compute; done. Qed.


(** ** C115: connections given up and reported *)

(** The peer manager ends a connection only for a cause that the log shows, and
    the reason given tells which. *)
Theorem C115_cause H scf P kcf acf ping_timeout env wenv_of magic hook c0 f0 white am l s o s' x a r : wfair wenv_of am -> started (full_step H scf P kcf acf ping_timeout env wenv_of magic hook) (full0 c0 f0 white am) l s ->
  (full_step H scf P kcf acf ping_timeout env wenv_of magic hook) o s = Val (s', x) ->
  IoDisconnect a r ∈ queued_by CPeer x -> drop_cause kcf magic l a r (o, x).
Proof. intros (Fw & Fo & e0 & store & Fe0 & New). exact (drop_log H scf P kcf acf ping_timeout env wenv_of magic hook Fw Fo c0 f0 white am e0 store Fe0 New l s o s' x a r). Qed.
Print Assumptions C115_cause.

(** A message for another network, undecodable data, a command, and reports of
    misbehaving or silent peers end the connection if it is open, and do nothing
    if it is not. *)
Theorem C115_dropped H scf P kcf acf ping_timeout env wenv_of magic hook c0 f0 white am l s o s' x a r : wfair wenv_of am -> started (full_step H scf P kcf acf ping_timeout env wenv_of magic hook) (full0 c0 f0 white am) l s ->
  (full_step H scf P kcf acf ping_timeout env wenv_of magic hook) o s = Val (s', x) ->
  gives_up magic a r (o, x) ->
  (is_open (link_of a l) -> queued_by CPeer x = [IoDisconnect a r]) /\ (~ is_open (link_of a l) -> queued_by CPeer x = []).
Proof. intros (Fw & Fo & e0 & store & Fe0 & New). exact (gives_up_log H scf P kcf acf ping_timeout env wenv_of magic hook Fw Fo c0 f0 white am e0 store Fe0 New l s o s' x a r). Qed.
Print Assumptions C115_dropped.

(** Connections made, ended and failed are reported exactly when they are. *)
Theorem C115_events H scf P kcf acf ping_timeout env wenv_of magic hook c0 f0 white am l s o s' x : wfair wenv_of am -> started (full_step H scf P kcf acf ping_timeout env wenv_of magic hook) (full0 c0 f0 white am) l s ->
  (full_step H scf P kcf acf ping_timeout env wenv_of magic hook) o s = Val (s', x) ->
  (forall a local lk, IoEvent (WvPeer (KoConnected a local lk)) ∈ queued_by CPeer x <-> o = WConnected a local lk) /\
  (forall a r, IoEvent (WvPeer (KoDisconnected a r)) ∈ queued_by CPeer x <-> o = WDisconnected a r /\ (is_open (link_of a l) \/ link_of a l = LClosing)) /\
  (forall a, IoEvent (WvPeer (KoFailed a)) ∈ queued_by CPeer x <-> o = WDisconnected a DConnection /\ link_of a l = LDialing).
Proof. intros (Fw & Fo & e0 & store & Fe0 & New). exact (events_log H scf P kcf acf ping_timeout env wenv_of magic hook Fw Fo c0 f0 white am e0 store Fe0 New l s o s' x). Qed.
Print Assumptions C115_events.

(** A second [verack] ends a connection; a command ends another; the reactor
    reports a connection gone. *)
Example C115_case : exists c am l s, wfair wx_wenv am /\ started wx_step (wx_0 c am) l s /\ map fst l = WInitialize :: wx_half ++ [from_alice WVerack] /\
  (match wx_step (from_alice WVerack) s with Val (_, x) => queued_by CPeer x = [IoDisconnect alice RMisbehaving] | _ => False end /\
   match wx_step (WCommand (CmdDisconnect bob)) s with Val (_, x) => queued_by CPeer x = [IoDisconnect bob RCommand] | _ => False end /\
   match wx_step (WReceived carol 8 WVerack) s with Val (_, x) => queued_by CPeer x = [] | _ => False end /\
   match wx_step (WDisconnected bob DConnection) s with Val (_, x) => IoEvent (WvPeer (KoDisconnected bob DConnection)) ∈ queued_by CPeer x | _ => False end /\
   match wx_step (WDisconnected carol DConnection) s with Val (_, x) => queued_by CPeer x = [] | _ => False end).
Proof. apply wx_started. vm_compute. repeat split. by left. Qed.
