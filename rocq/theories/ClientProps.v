(** Property theorems about the client: the threads that call its methods, the
    thread of the node and the channels between them (C106 to C108), each
    followed by a concrete case.

    The first and the last hold whatever the node does: [step] and [reply_of]
    are any functions. *)
From Verif Require Import Base RunEx PowModel BlockModel BlockSpec BlockExample BlockProps UtilModel FeeModel AddrModel AddrSpec AddrProps PeerModel PeerSpec PeerMain PeerProps
  PingModel DispModel LoadModel NodeModel NodeSpec NodeProps FullModel FullSpec FullProofs FullProps ClientModel ClientSpec ClientProofs.
From Verif Require SyncModel SyncSpec SyncProps CbfModel CbfSpec CbfProps InvModel.
Open Scope N_scope.

(** *** A node with its threads *)
Notation kx_reply := (node_reply exH SyncProps.ex_cf CbfProps.ex_P wx_kcf ex_acf nx_env wx_wenv).
Notation kx_run := (krun exH (full_step exH SyncProps.ex_cf CbfProps.ex_P wx_kcf ex_acf 60000 nx_env wx_wenv 7 (fun _ _ => true)) kx_reply).
Lemma kx_ex os (Q : client -> list kitem -> Prop) :
  match from_store exH ex_ng cp_store cp_params [], addr_new (ex_aenv T) ∅ with
  | Val (Ok c), Val am => let '(s, tr) := kx_run os (client0 (wx_0 c am)) in Q s tr
  | _, _ => False
  end -> exists n0 s tr, kx_run os (client0 n0) = (s, tr) /\ Q s tr.
Proof.
  destruct (from_store exH ex_ng cp_store cp_params []) as [[c|]|]; [|intros []..]. destruct (addr_new (ex_aenv T) ∅) as [am|]; [|intros []].
  destruct (kx_run os (client0 (wx_0 c am))) as [s tr] eqn:E. intros W. exists (wx_0 c am), s, tr. by split.
Qed.
(** One round of the reactor with an input, and with what is in the command
    channel. *)
Definition kdrain : list kop := OProcess :: repeat ONext 14.
Definition kboot : list kop := ORun :: repeat ONext 14.
Definition kinput (o : wop) : list kop := ONode o :: kdrain.
Definition kserve : list kop := [OWoken; OCommand; OCommand; OCommand; OCommand].
(** A thread calls a method and goes on so many times. *)
Definition kcall (t : N) (c : call) (n : nat) : list kop := OCall t c :: repeat (OThread t) n.
Definition meets (a : sockaddr) (m : vmsg) : list kop :=
  kinput (WConnected a me Outbound) ++ kinput (WReceived a 7 (WVersion m)) ++ kinput (WReceived a 7 WVerack).

(** ** C106 *)

(** Commands are executed one at a time in the order in which they were sent,
    each at most once; all that were sent and not executed are in the queue
    while the node runs. No thread sends twice. Each execution is one step of
    the node, and its reply is that of the state in which it was executed. *)
Theorem C106_order H step reply_of os n0 s tr : krun H step reply_of os (client0 n0) = (s, tr) ->
  executed tr `prefix_of` sent tr /\ NoDup (sent tr).*2 /\ (KStopped ∉ tr -> sent tr = executed tr ++ k_queue s) /\
  forall t c n n' r, KExecuted t c n n' r ∈ tr -> reply_of c n = Val r /\ exists x, KStep (WCommand c) n n' x ∈ tr /\ step (WCommand c) n = Val (n', x).
Proof.
  intros R. pose proof (run_ginv _ _ _ _ _ _ _ R) as G. split; [|split; [exact (g_nodup _ _ _ _ _ _ G)|split; [|exact (g_exec _ _ _ _ _ _ G)]]].
  - pose proof (g_queue _ _ _ _ _ _ G) as Q. destruct (k_node s); [rewrite Q; by exists (k_queue s)|apply Q].
  - intros N. pose proof (g_queue _ _ _ _ _ _ G) as Q. destruct (k_node s) eqn:En; [exact Q|]. by apply (g_stop _ _ _ _ _ _ G) in En.
Qed.
Print Assumptions C106_order.

(** What a call returns as the reply of its command is the reply of an
    execution between the call and the return: the node can be thought of as
    answering at once, at some time during the call. *)
Theorem C106_reply H step reply_of os n0 s a b t c r : krun H step reply_of os (client0 n0) = (s, a ++ KReturned t (HOk (VReply r)) :: b) ->
  called t (HAsk c) (a ++ KReturned t (HOk (VReply r)) :: b) ->
  exists a1 a2 n n', a = a1 ++ KExecuted t c n n' r :: a2 /\ called t (HAsk c) a1 /\ reply_of c n = Val r.
Proof.
  intros R C. pose proof (run_ginv _ _ _ _ _ _ _ R) as G. destruct (run_returns _ _ _ _ _ _ _ R) as (_ & _ & W). destruct (W _ _ _ _ eq_refl) as (c' & _ & U & Q).
  pose proof (U _ C) as Ec. subst c'. inversion Q as [n n' r' v Rc Re Wr| |? ? ? ? ? Sc| | | | | ]; subst; try done.
  assert (r' = r) as -> by (destruct r'; cbn in Wr; repeat case_match; congruence).
  destruct Re as (cm & a1 & a2 & [= <-] & -> & C1). exists a1, a2, n, n'. split; [done|]. split; [done|].
  destruct (g_exec _ _ _ _ _ _ G t c n n' r) as [A _]; [|exact A]. apply elem_of_app. left. apply elem_of_app. right. by left.
Qed.
Print Assumptions C106_reply.

(** Two threads ask for the tip while a third imports two headers: they are
    answered in the order they sent, not the one they called or woke the
    node. *)
Definition ask_race : list kop :=
  kboot ++ [OCall 1 (HAsk CmdGetTip); OCall 2 (HAsk (CmdImportHeaders [la1; la2])); OCall 3 (HAsk CmdGetTip)] ++
  [OThread 3; OThread 2; OThread 1; OThread 1] ++ kserve ++ [OThread 1; OThread 2; OThread 2; OThread 3; OThread 3].
Example C106_case : exists n0 s tr a b, kx_run ask_race (client0 n0) = (s, tr) /\ (sent tr).*2 = [3; 2; 1] /\ KStopped ∉ tr /\
  tr = a ++ KReturned 1 (HOk (VReply (RpTip 2 la2 (c_chainwork (n_cache (w_node (f_state (default n0 (k_node s))))))))) :: b /\ called 1 (HAsk CmdGetTip) tr /\
  (returned tr).*1 = [1; 2; 3] /\ match (returned tr) !! 2%nat with Some (_, HOk (VReply (RpTip h _ _))) => h = 0 | _ => False end.
Proof.
  destruct (kx_ex ask_race (fun s tr => (sent tr).*2 = [3; 2; 1] /\ forallb (fun i => match i with KStopped => false | _ => true end) tr = true /\
    (returned tr).*1 = [1; 2; 3] /\ match (returned tr) !! 2%nat with Some (_, HOk (VReply (RpTip h _ _))) => h = 0 | _ => False end /\
    match k_node s with Some n => match returned tr !! 0%nat with Some (_, HOk (VReply (RpTip h hd w))) => h = 2 /\ hd = la2 /\ w = c_chainwork (n_cache (w_node (f_state n))) | _ => False end | None => False end /\
    match List.find (fun i => match i with KCalled 1 _ => true | _ => false end) tr with Some (KCalled 1 (HAsk CmdGetTip)) => True | _ => False end))
    as (n0 & s & tr & R & Q1 & Q2 & Q3 & Q4 & Q5 & Q6); [vm_compute; repeat split|].
  destruct (k_node s) as [n|] eqn:En; [|done]. destruct (returned tr !! 0%nat) as [[t r]|] eqn:E0; [|done]. destruct r as [[]| |]; try done. destruct r; try done. destruct Q5 as (-> & -> & ->).
  assert (t = 1) as -> by (destruct (returned tr); [done|]; injection E0 as ->; by injection Q3).
  apply elem_of_list_lookup_2, elem_of_list_omap in E0 as (i & I & Ei). destruct i; try done. injection Ei as -> ->.
  apply elem_of_list_split in I as (a & b & ->). exists n0, s, (a ++ KReturned 1 (HOk (VReply (RpTip 2 la2 (c_chainwork (n_cache (w_node (f_state n))))))) :: b), a, b.
  split; [exact R|]. split; [exact Q1|]. split.
  - intros I. rewrite forallb_forall in Q2. by specialize (Q2 _ (proj1 (elem_of_list_In _ _) I)).
  - rewrite En. split; [reflexivity|]. split; [|by split]. destruct (List.find _ _) as [i|] eqn:F; [|done]. apply find_some in F as [I F]. apply elem_of_list_In in I. destruct i; try done.
    destruct t as [|[]]; try done. destruct c; try done. destruct c; try done.
Qed.

(** A call that waits for its reply has its command in the queue, or its reply
    ready, or the node is gone (and the call fails when it looks); the node does
    not go to sleep over a command whose sender has woken it; and when it wakes
    it executes all that is in the queue. *)
Theorem C106_waiting H step reply_of os n0 s tr t c : krun H step reply_of os (client0 n0) = (s, tr) -> k_threads s !! t = Some (TReceiving c) ->
  exists cm, command_of c = Some cm /\ called t c tr /\ KSent t cm ∈ tr /\
    (((cm, t) ∈ k_queue s /\ (k_phase s = PCommands \/ k_woken s = true)) \/
     (exists r n n', k_replies s !! t = Some r /\ replied t c n n' r tr) \/
     (KStopped ∈ tr /\ (kstep H step reply_of (OThread t) s).2 = [KReturned t (HErr EDisconnected)])).
Proof.
  intros R Et. pose proof (run_ginv _ _ _ _ _ _ _ R) as G. destruct (pending _ _ _ _ _ _ _ _ _ R Et) as (cm & Ec & C & Sn & W). exists cm. split; [done|]. split; [done|]. split; [done|].
  destruct W as [W|[W|W]].
  - left. split; [done|]. destruct (g_wake _ _ _ _ _ _ G _ _ W) as [A|[A|(c' & A)]]; [by right|by left|congruence].
  - right. by left.
  - destruct (k_replies s !! t) as [r|] eqn:Er.
    + right. left. destruct (g_reply _ _ _ _ _ _ G _ _ Er) as (c' & n & n' & Re). exists r, n, n'. split; [done|].
      assert (c' = c) as <-; [|done]. destruct Re as (? & a & b & _ & -> & Q). eapply (called_once _ _ _ _ _ _ G); [|exact C]. apply called_app. by left.
    + right. right. split; [done|]. apply (g_stop _ _ _ _ _ _ G) in W. cbn [kstep]. unfold run_thread. by rewrite Et, Er, W.
Qed.
Print Assumptions C106_waiting.

Theorem C106_served H step reply_of s s' x : k_phase s = PInputs -> k_woken s = true -> k_shutdown s = false -> k_node s <> None ->
  krun H step reply_of (OWoken :: repeat OCommand (length (k_queue s))) s = (s', x) ->
  KStopped ∈ x \/ (executed x = k_queue s /\ k_queue s' = []).
Proof. exact (served H step reply_of s s' x). Qed.
Print Assumptions C106_served.

(** Both threads of the run before have sent and one has woken the node, which
    waits for inputs. *)
Definition ask_waiting : list kop := kboot ++ kcall 1 (HAsk CmdGetTip) 2 ++ kcall 2 (HAsk (CmdGetByHeight 1)) 1.
Example C106_waiting_case : exists n0 s tr, kx_run ask_waiting (client0 n0) = (s, tr) /\ k_threads s !! 1 = Some (TReceiving (HAsk CmdGetTip)) /\
  k_phase s = PInputs /\ k_woken s = true /\ k_shutdown s = false /\ k_node s <> None /\ (k_queue s).*2 = [1; 2].
Proof.
  destruct (kx_ex ask_waiting (fun s tr => match k_threads s !! 1 with Some (TReceiving (HAsk CmdGetTip)) => True | _ => False end /\
    k_phase s = PInputs /\ k_woken s = true /\ k_shutdown s = false /\ match k_node s with Some _ => True | None => False end /\ (k_queue s).*2 = [1; 2])) as (n0 & s & tr & R & Q1 & Q2 & Q3 & Q4 & Q5 & Q6); [vm_compute; repeat split|].
  exists n0, s, tr. split; [exact R|]. split.
  - destruct (k_threads s !! 1) as [[]|]; try done. destruct c; try done. by destruct c.
  - split; [done|]. split; [done|]. split; [done|]. split; [by destruct (k_node s)|done].
Qed.

(** ** C107 *)

(** The thread of the node is one run of the machine of FullModel.v, whatever
    the other threads do, so that all that was proved of its runs holds; and the
    events that subscribers get are those the machine emits, in order. *)
Theorem C107_run H scf P kcf acf ping_timeout env wenv_of magic hook reply_of os n0 s tr :
  let step := full_step H scf P kcf acf ping_timeout env wenv_of magic hook in
  krun H step reply_of os (client0 n0) = (s, tr) ->
  published tr = emitted_events (node_items tr) /\
  exists n, full_run H scf P kcf acf ping_timeout env wenv_of magic hook (inputs tr) n0 = Val (n, node_items tr) /\ (k_node s = Some n \/ (k_node s = None /\ KStopped ∈ tr)).
Proof.
  intros step R. split.
  - eapply run_published; [|exact R]. apply full_only_next.
  - pose proof (run_ginv _ _ _ _ _ _ _ R) as G. destruct (g_run _ _ _ _ _ _ G) as (n & M & W). exists n. split; [by rewrite <- machine_full|].
    destruct W as [W|W]; [by left|right]. split; [done|]. by apply (g_stop _ _ _ _ _ _ G).
Qed.
Print Assumptions C107_run.

(** A receiver has been sent, in order, exactly what its kind of subscription
    makes of the events published since it was subscribed: what it took and what
    is still in its channel. *)
Theorem C107_feed H step reply_of os n0 s tr t f : krun H step reply_of os (client0 n0) = (s, tr) -> k_threads s !! t = Some (TFeed f) ->
  called t (HSubscribe f) tr /\ exists es q, heard t tr = Some es /\ k_feeds s !! t = Some (f, q) /\ took t tr ++ q = flat_map (forward f) es.
Proof.
  intros R Et. pose proof (run_ginv _ _ _ _ _ _ _ R) as G. destruct (called_here _ _ _ _ _ Et (g_threads _ _ _ _ _ _ G t)) as (c & C & _ & T). cbn [thread_ok] in T.
  destruct T as (-> & es & q & A & B & D). split; [done|]. exists es, q. by split.
Qed.
Print Assumptions C107_feed.

(** Nothing tells the receivers of a subscription that the node is gone: the
    channel stays open. *)
Theorem C107_silent H step reply_of os t f s s' x : k_node s = None -> k_threads s !! t = Some (TFeed f) -> ODrop t ∉ os -> krun H step reply_of os s = (s', x) ->
  k_threads s' !! t = Some (TFeed f) /\ published x = [].
Proof. exact (silent_run H step reply_of t f os s s' x). Qed.
Print Assumptions C107_silent.

(** One thread subscribes to events before a peer connects and one after it
    negotiated; the first has taken one. Then the node is shut down. *)
Definition two_feeds : list kop :=
  kboot ++ kcall 1 (HSubscribe FeedEvents) 1 ++ kinput (WConnected alice me Outbound) ++ kcall 2 (HSubscribe FeedEvents) 1 ++ [OThread 1] ++
  kinput (WReceived alice 7 (WVersion (hi 12 73))) ++ kinput (WReceived alice 7 WVerack) ++ kcall 3 HShutdown 2 ++ [OWoken].
Example C107_case : exists n0 s tr es1 es2, kx_run two_feeds (client0 n0) = (s, tr) /\ k_threads s !! 1 = Some (TFeed FeedEvents) /\ k_node s = None /\
  heard 1 tr = Some es1 /\ heard 2 tr = Some es2 /\ length (took 1 tr) = 1%nat /\ length es1 = S (length es2) /\ (2 <= length es2)%nat /\
  match es1 with WvPeer (KoConnected a _ Outbound) :: _ => a = alice | _ => False end.
Proof.
  destruct (kx_ex two_feeds (fun s tr => match k_threads s !! 1 with Some (TFeed FeedEvents) => True | _ => False end /\ match k_node s with None => True | _ => False end /\
    match heard 1 tr, heard 2 tr with Some es1, Some es2 => length (took 1 tr) = 1%nat /\ length es1 = S (length es2) /\ (2 <=? length es2)%nat = true /\
      match es1 with WvPeer (KoConnected a _ Outbound) :: _ => a = alice | _ => False end | _, _ => False end)) as (n0 & s & tr & R & Q1 & Q2 & Q3); [vm_compute; repeat split|].
  destruct (heard 1 tr) as [es1|] eqn:E1; [|done]. destruct (heard 2 tr) as [es2|] eqn:E2; [|done]. destruct Q3 as (A & B & C & D). exists n0, s, tr, es1, es2. split; [exact R|]. split.
  - destruct (k_threads s !! 1) as [[]|]; try done. by destruct f.
  - split; [by destruct (k_node s)|]. split; [exact E1|]. split; [exact E2|]. split; [done|]. split; [done|]. split; [by apply Nat.leb_le|done].
Qed.

(** ** C108 *)

(** Every call returns at most once, and for a reason at that time: the reply to
    its command, an event that was published after it subscribed, its timeout,
    the end of the node, or at once. *)
Theorem C108_reasons H step reply_of os n0 s tr : krun H step reply_of os (client0 n0) = (s, tr) ->
  NoDup (returned tr).*1 /\
  forall a b t r, tr = a ++ KReturned t r :: b -> exists c, called t c a /\ (forall c', called t c' tr -> c' = c) /\ reason_to_return H t c a r.
Proof. intros R. destruct (run_returns _ _ _ _ _ _ _ R) as (A & _ & B). by split. Qed.
Print Assumptions C108_reasons.

(** [connect] and [disconnect] return the link of a connection, or that there is
    no longer one, that was reported during the call, with the address asked
    for. *)
Theorem C108_connect H step reply_of os n0 s a b t v ad : krun H step reply_of os (client0 n0) = (s, a ++ KReturned t (HOk v) :: b) ->
  (called t (HConnect ad) (a ++ KReturned t (HOk v) :: b) ->
   exists a1 a2 p local l, v = VLink l /\ a = a1 ++ KPublished (WvPeer (KoConnected p local l)) :: a2 /\ called t (HConnect ad) a1 /\ (p = ad \/ (ad.1.2 = 0 /\ p.2 = ad.2))) /\
  (called t (HDisconnect ad) (a ++ KReturned t (HOk v) :: b) ->
   exists a1 a2 p r, v = VUnit /\ a = a1 ++ KPublished (WvPeer (KoDisconnected p r)) :: a2 /\ called t (HDisconnect ad) a1 /\ (p = ad \/ (ad.1.2 = 0 /\ p.2 = ad.2))).
Proof.
  intros R. assert (Sm : forall p, same_peer p ad = true -> p = ad \/ (ad.1.2 = 0 /\ p.2 = ad.2)).
  { intros p. unfold same_peer. intros [E|[E1 E2]%andb_true_iff]%orb_true_iff; [left; by apply bool_decide_eq_true in E|]. right. split; by apply N.eqb_eq. }
  split; intros C; (destruct (waited _ _ _ _ _ _ _ _ _ _ _ _ R eq_refl C eq_refl) as [[W _]|(a1 & e & a2 & known & seen & -> & C1 & W)]; [done|]); cbn [waits_for] in W;
    destruct e as [| | |o| | ]; try done; destruct o; try done; destruct (same_peer a ad) eqn:E; try done; injection W as <-; apply Sm in E.
  - by exists a1, a2, a, local, l.
  - by exists a1, a2, a, r.
Qed.
Print Assumptions C108_connect.

(** [wait_for_peers] returns as many peers as asked for, each of which was in
    the reply of the node or negotiated during the call with the services. *)
Theorem C108_peers H step reply_of os n0 s a b t v k sv : krun H step reply_of os (client0 n0) = (s, a ++ KReturned t (HOk v) :: b) ->
  called t (HWaitPeers k sv) (a ++ KReturned t (HOk v) :: b) ->
  exists l n n' r, v = VPeers l /\ lenN l = k /\ replied t (HWaitPeers k sv) n n' r a /\
    forall x, x ∈ l -> (exists w, r = RpPeers w /\ exists p, p ∈ w /\ x = (v_addr p, (v_height p, v_services p))) \/
      exists a1 a2 li pe ag rc vn rl wt, a = a1 ++ KPublished (WvPeer (KoNegotiated x.1 li x.2.2 pe ag rc x.2.1 vn rl wt)) :: a2 /\
        called t (HWaitPeers k sv) a1 /\ has_services x.2.2 sv = true.
Proof.
  intros R C. destruct (waited_peers _ _ _ _ _ _ _ _ _ _ _ _ _ R eq_refl C) as (l & n & n' & r & Ev & L & Re & Q). exists l, n, n', r. split; [done|]. split; [done|]. split; [done|].
  intros x I. destruct (Q _ I) as [(w & Er & W)|(a1 & a2 & e & Ea & C1 & (li & pe & ag & rc & vn & rl & wt & -> & Hs))].
  - left. exists w. split; [done|]. apply elem_of_list_fmap in W as (p & -> & Ip). by exists p.
  - right. by exists a1, a2, li, pe, ag, rc, vn, rl, wt.
Qed.
Print Assumptions C108_peers.

(** [wait_for_height] returns the hash of the header that the node had at the
    height when it looked, or one that was reported as the tip at this height,
    during the call. *)
Theorem C108_height H step reply_of os n0 s a b t v h : krun H step reply_of os (client0 n0) = (s, a ++ KReturned t (HOk v) :: b) ->
  called t (HWaitHeight h) (a ++ KReturned t (HOk v) :: b) ->
  (exists n n' hd, v = VHash (H hd) /\ replied t (HWaitHeight h) n n' (RpHeader (Some hd)) a) \/
  exists a1 a2 re hash rv cn, v = VHash hash /\ a = a1 ++ KPublished (WvNode (EvSync (SyncModel.SoImported re hash h rv cn))) :: a2 /\ called t (HWaitHeight h) a1.
Proof.
  intros R C. destruct (waited _ _ _ _ _ _ _ _ _ _ _ _ R eq_refl C eq_refl) as [(_ & n & n' & r & Re & W)|(a1 & e & a2 & known & seen & -> & C1 & W)].
  - left. destruct r; try done. destruct r; [|done]. injection W as <-. by exists n, n', h0.
  - right. cbn [waits_for] in W. destruct e as [| | | | |e]; try done. destruct e as [o| | | | | ]; try done. destruct o; try done. destruct (N.eqb_spec height h) as [->|]; [|done]. injection W as <-. by eexists a1, a2, _, _, _, _.
Qed.
Print Assumptions C108_height.

(** A thread waits for two peers and one for height 1, another connects to
    Bob; Alice is there already, Bob connects and sends a header. *)
Definition reached : list kop :=
  kboot ++ meets alice (hi 12 73) ++ kcall 1 (HConnect bob) 3 ++ kcall 2 (HWaitPeers 2 1) 3 ++ kcall 3 (HWaitHeight 1) 3 ++ kserve ++ kdrain ++
  repeat (OThread 2) 12 ++ meets bob (hi 13 73) ++ kinput (WReceived alice 7 (WNode (MHeaders [la1]))) ++
  repeat (OThread 3) 40 ++ repeat (OThread 2) 40 ++ repeat (OThread 1) 40.
Definition links (l : list (N * hresult)) : list (N * N) :=
  (fun p => (p.1, match p.2 with HOk (VLink Outbound) => 1 | HOk (VPeers l) => 2 + lenN l | HOk (VHash h) => 100 + h | _ => 0 end)) <$> l.
Example C108_case : exists n0 s tr, kx_run reached (client0 n0) = (s, tr) /\ links (returned tr) = [(3, 100 + exH la1); (2, 4); (1, 1)] /\
  called 1 (HConnect bob) tr /\ called 2 (HWaitPeers 2 1) tr /\ called 3 (HWaitHeight 1) tr.
Proof.
  destruct (kx_ex reached (fun s tr => links (returned tr) = [(3, 100 + exH la1); (2, 4); (1, 1)] /\
    existsb (fun i => match i with KCalled 1 (HConnect a) => bool_decide (a = bob) | _ => false end) tr = true /\
    existsb (fun i => match i with KCalled 2 (HWaitPeers 2 1) => true | _ => false end) tr = true /\
    existsb (fun i => match i with KCalled 3 (HWaitHeight 1) => true | _ => false end) tr = true)) as (n0 & s & tr & R & Q1 & Q2 & Q3 & Q4); [vm_compute; repeat split|].
  exists n0, s, tr. split; [exact R|]. split; [exact Q1|]. unfold called.
  apply existsb_exists in Q2 as (i & I & E). apply existsb_exists in Q3 as (j & J & F). apply existsb_exists in Q4 as (k & K & G). apply elem_of_list_In in I, J, K.
  split; [|split].
  - destruct i as [t c| | | | | | | |]; try done. destruct t as [|[]], c; try done. apply bool_decide_eq_true in E as ->. exact I.
  - destruct j as [t c| | | | | | | |]; try done. destruct t as [|[|[]|]]; try done. destruct c; try done. destruct count as [|[|[]|]]; try done. destruct services as [|[]]; try done.
  - destruct k as [t c| | | | | | | |]; try done. destruct t as [|[[]| |]]; try done. destruct c; try done. destruct h as [|[]]; try done.
Qed.
Definition waits_on (s : client) (t : N) (P : call -> Prop) : Prop :=
  match k_threads s !! t, k_feeds s !! t with Some (TWaiting c _ _), Some (_, []) => P c | _, _ => False end.
Definition quiet_at (s : client) (P : full -> Prop) : Prop :=
  k_phase s = PInputs /\ k_queue s = [] /\ match k_node s with Some n => w_drained_b n = true /\ P (f_state n) | None => False end.

(** [wait_for_height] goes on waiting though the node passed the height: two
    headers came at once, the event only says the second. *)
Theorem C108_passed_refuted : exists n0 os s tr, kx_run os (client0 n0) = (s, tr) /\
  waits_on s 1 (fun c => c = HWaitHeight 1) /\ quiet_at s (fun n => c_height (n_cache (w_node n)) = 2) /\ length (executed tr) = 2%nat.
Proof.
  set (os := kboot ++ kcall 1 (HWaitHeight 1) 3 ++ kserve ++ kdrain ++ repeat (OThread 1) 9 ++ kcall 2 (HAsk (CmdImportHeaders [la1; la2])) 2 ++ kserve ++ kdrain ++ repeat (OThread 1) 9).
  destruct (kx_ex os (fun s tr => waits_on s 1 (fun c => c = HWaitHeight 1) /\ quiet_at s (fun n => c_height (n_cache (w_node n)) = 2) /\ length (executed tr) = 2%nat)) as (n0 & s & tr & R & Q); [vm_compute; repeat split|].
  by exists n0, os, s, tr.
Qed.
Print Assumptions C108_passed_refuted.

(** The height of a hash, as far as the node knows. *)
Definition has_hash (h hash : N) (n : wstate) : Prop :=
  match get_block_by_height (n_cache (w_node (f_state n))) h with Some hd => exH hd = hash | None => False end.
Definition had (h hash : N) (i : kitem) : Prop := match i with KStep _ n n' _ => has_hash h hash n \/ has_hash h hash n' | _ => False end.
Definition had_b (h hash : N) (i : kitem) : bool :=
  let at_ n := match get_block_by_height (n_cache (w_node (f_state n))) h with Some hd => exH hd =? hash | None => false end in
  match i with KStep _ n n' _ => at_ n || at_ n' | _ => false end.
Lemma had_ok h hash l : forallb (fun i => negb (had_b h hash i)) l = true -> Forall (fun i => ~ had h hash i) l.
Proof.
  intros F. apply Forall_forall. intros i I Q. rewrite forallb_forall in F. specialize (F _ (proj1 (elem_of_list_In _ _) I)). apply negb_true_iff in F. destruct i; try done.
  unfold had_b, had, has_hash in *. apply orb_false_iff in F as [A B].
  destruct (get_block_by_height (n_cache (w_node (f_state s))) h), (get_block_by_height (n_cache (w_node (f_state s'))) h); rewrite ?N.eqb_neq in *; destruct Q; done.
Qed.
Fixpoint after_call (t : N) (l : list kitem) : list kitem := match l with [] => [] | KCalled t' c :: l' => if t' =? t then l' else after_call t l' | _ :: l' => after_call t l' end.
Lemma after_split t l : after_call t l <> [] -> exists a c, l = a ++ KCalled t c :: after_call t l.
Proof.
  induction l as [|i l IH]; [done|]. assert (On : after_call t l <> [] -> exists a c, i :: l = a ++ KCalled t c :: after_call t l) by (intros W; destruct (IH W) as (a & c & E); exists (i :: a), c; cbn; by rewrite <- E).
  destruct i; cbn [after_call]; try exact On. destruct (N.eqb_spec t0 t) as [->|]; [|exact On]. intros _. by exists [], c.
Qed.

(** [wait_for_height] can return the hash of a block that was not in the chain
    at any time during the call: it was imported and reverted before, and only
    the event comes after. *)
Theorem C108_stale_refuted : exists n0 os s a b c, kx_run os (client0 n0) = (s, a ++ KCalled 3 c :: b) /\ c = HWaitHeight 2 /\
  KReturned 3 (HOk (VHash (exH la2))) ∈ b /\ Forall (fun i => ~ had 2 (exH la2) i) b.
Proof.
  set (os := kboot ++ kcall 1 (HAsk (CmdImportHeaders [la1; la2])) 1 ++ kcall 2 (HAsk (CmdImportHeaders [hard])) 2 ++ [OWoken; OCommand; OCommand] ++
             kcall 3 (HWaitHeight 2) 3 ++ [OCommand; OCommand] ++ kdrain ++ repeat (OThread 3) 40).
  destruct (kx_ex os (fun s tr => match List.find (fun i => match i with KCalled 3 _ => true | _ => false end) tr with Some (KCalled 3 (HWaitHeight 2)) => True | _ => False end /\
    existsb (fun i => match i with KReturned 3 (HOk (VHash k)) => k =? exH la2 | _ => false end) (after_call 3 tr) = true /\ forallb (fun i => negb (had_b 2 (exH la2) i)) (after_call 3 tr) = true))
    as (n0 & s & tr & R & Q1 & Q2 & Q3); [vm_compute; repeat split|].
  destruct (after_split 3 tr) as (a & c & E); [intros W; by rewrite W in Q2|]. exists n0, os, s, a, (after_call 3 tr), c. rewrite <- E. split; [exact R|]. split; [|split].
  - destruct (List.find _ _) as [i|] eqn:F; [|done]. apply find_some in F as [I F]. destruct i as [t c'| | | | | | | |]; try done. destruct t as [|[[]| |]]; try done.
    destruct c'; try done. destruct h as [|[|[]|]]; try done. eapply (called_once _ _ _ _ _ _ (run_ginv _ _ _ _ _ _ _ R) 3); [|by apply elem_of_list_In].
    rewrite E. apply elem_of_app. right. by left.
  - apply existsb_exists in Q2 as (i & I & F). apply elem_of_list_In in I. destruct i as [| | | | | | |t r|]; try done. destruct t as [|[[]| |]]; try done. destruct r as [[]| |]; try done. by apply N.eqb_eq in F as ->.
  - by apply had_ok.
Qed.
Print Assumptions C108_stale_refuted.

(** [wait_for_peers] asks for exactly so many peers: with two it waits for one. *)
Theorem C108_enough_refuted : exists n0 os s tr, kx_run os (client0 n0) = (s, tr) /\
  waits_on s 1 (fun c => c = HWaitPeers 1 1) /\ quiet_at s (fun n => length (List.filter (fun p => is_negotiated p.2 && has_services (pi_services p.2) 1) (peers_of wx_wenv n)) = 2%nat).
Proof.
  set (os := kboot ++ meets alice (hi 12 73) ++ meets bob (hi 13 73) ++ kcall 1 (HWaitPeers 1 1) 3 ++ kserve ++ kdrain ++ repeat (OThread 1) 9).
  destruct (kx_ex os (fun s tr => waits_on s 1 (fun c => c = HWaitPeers 1 1) /\ quiet_at s (fun n => length (List.filter (fun p => is_negotiated p.2 && has_services (pi_services p.2) 1) (peers_of wx_wenv n)) = 2%nat))) as (n0 & s & tr & R & Q); [vm_compute; repeat split|].
  by exists n0, os, s, tr.
Qed.
Print Assumptions C108_enough_refuted.

(** It also counts those that are gone: Alice leaves before Bob comes, and two
    peers are returned. *)
Theorem C108_gone_refuted : exists n0 os s tr l, kx_run os (client0 n0) = (s, tr) /\ returned tr = [(1, HOk (VPeers l))] /\ length l = 2%nat /\
  quiet_at s (fun n => length (List.filter (fun p => is_negotiated p.2) (peers_of wx_wenv n)) = 1%nat).
Proof.
  set (os := kboot ++ meets alice (hi 12 73) ++ kcall 1 (HWaitPeers 2 1) 3 ++ kserve ++ kdrain ++ repeat (OThread 1) 9 ++ kinput (WDisconnected alice DConnection) ++ meets bob (hi 13 73) ++ repeat (OThread 1) 30).
  destruct (kx_ex os (fun s tr => match returned tr with [(1, HOk (VPeers l))] => length l = 2%nat | _ => False end /\ quiet_at s (fun n => length (List.filter (fun p => is_negotiated p.2) (peers_of wx_wenv n)) = 1%nat))) as (n0 & s & tr & R & Q1 & Q2); [vm_compute; repeat split|].
  destruct (returned tr) as [|[t r] [|p l]] eqn:E; [done| |by destruct t as [|[]], r as [[]| |]]. destruct t as [|[]]; try done. destruct r as [[]| |]; try done. exists n0, os, s, tr, l. by split.
Qed.
Print Assumptions C108_gone_refuted.

(** [connect] to a peer that is connected waits for an event that does not
    come. *)
Theorem C108_connected_refuted : exists n0 os s tr, kx_run os (client0 n0) = (s, tr) /\
  waits_on s 1 (fun c => c = HConnect alice) /\ quiet_at s (fun n => connected_at (w_peer n) alice = true) /\ length (executed tr) = 1%nat.
Proof.
  set (os := kboot ++ meets alice (hi 12 73) ++ kcall 1 (HConnect alice) 3 ++ kserve ++ kdrain ++ repeat (OThread 1) 9).
  destruct (kx_ex os (fun s tr => waits_on s 1 (fun c => c = HConnect alice) /\ quiet_at s (fun n => connected_at (w_peer n) alice = true) /\ length (executed tr) = 1%nat)) as (n0 & s & tr & R & Q); [vm_compute; repeat split|].
  by exists n0, os, s, tr.
Qed.
Print Assumptions C108_connected_refuted.
