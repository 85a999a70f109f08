(** The whole state machine (p2p/src/fsm.rs:334-360): the managers of
    NodeModel.v together with the peer, address and ping managers, in the
    dispatcher of DispModel.v; and the commands of the user (fsm.rs:636-740).

    Not modelled: the samples given to the adjusted clock (the clock is part
    of the environment), and hooks other than the two that can refuse a
    message. *)
From Verif Require Import Base PowModel BlockModel UtilModel FeeModel AddrModel PeerModel PingModel DispModel LoadModel NodeModel.
From Verif Require SyncModel CbfModel InvModel.
Open Scope N_scope.

(** bitcoin [NetworkMessage]: those read or written by NodeModel.v, and the
    others that some manager reads or writes. *)
Inductive wmsg :=
| WNode (m : nmsg)
| WVersion (m : vmsg)
| WVerack
| WWtxidRelay
| WSendHeaders
| WPing (nonce : N)
| WPong (nonce : N)
| WAddr (l : list (N * address))
| WGetAddr
| WOther (n : N).

(** p2p/src/fsm/event.rs. *)
Inductive wev :=
| WvInitializing
| WvReady (tip filter_tip : N)
| WvMessage (from : sockaddr) (m : wmsg)
| WvPeer (o : kout)
| WvAddr (o : aout)
| WvNode (e : nev).

(** Addresses are numbers for the managers of NodeModel.v. *)
Definition key (a : sockaddr) : N := Npos (encode a).
Definition unkey (n : N) : sockaddr :=
  match n with Npos p => default ((true, 0), 0) (decode p) | N0 => ((true, 0), 0) end.

(** bitcoin [ServiceFlags]. *)
Definition NETWORK : N := 1.
Definition COMPACT_FILTERS : N := 64.

(** What the outside decides during one call of the peer, address or ping
    manager. *)
Record wenv := WEnv {
  we_peer : kenv;
  we_addr : aenv;
  we_nonces : N -> N;
  we_order : list N -> list N;
}.

(** fsm.rs:334-360 [StateMachine]. *)
Record full := Full {
  w_node : node;
  w_peer : pmgr;
  w_addr : amgr;
  w_ping : pings;
  w_calls : nat;
}.

(** fsm.rs:162-179 [Peer]. *)
Record view := View {
  v_addr : sockaddr;
  v_local : sockaddr;
  v_link : link;
  v_since : N;
  v_height : N;
  v_services : N;
  v_agent : N;
  v_relay : bool;
}.
(** fsm.rs:188-201. *)
Definition view_of (c : conn) (i : pinfo) : view :=
  View (cn_addr c) (cn_local c) (cn_link c) (cn_since c) (pi_height i) (pi_services i) (pi_agent i) (pi_relay i).

(** fsm.rs:205-257 [Command]; [QueryTree] only as used by the handle's
    [find_branch] (client/src/client.rs:508-520). *)
Inductive cmd :=
| CmdGetTip
| CmdGetBlock (hash : N)
| CmdGetByHeight (height : N)
| CmdFindBranch (to : N)
| CmdGetPeers (services : N)
| CmdConnect (a : sockaddr)
| CmdDisconnect (a : sockaddr)
| CmdBroadcast (m : wmsg) (pred : view -> bool)
| CmdImportHeaders (hds : list header)
| CmdImportAddresses (l : list address)
| CmdRequestFilters (a b : N)
| CmdRequestBlock (hash : N)
| CmdSubmit (t : tx)
| CmdGetSubmitted (txid : N)
| CmdRescan (from to : CbfModel.bound) (watch : list N)
| CmdWatch (scripts : list N).
(** What is sent back over the channel of a command. *)
Inductive reply :=
| RpNone
| RpTip (height : N) (hd : header) (work : N)
| RpBlock (r : option (N * header))
| RpHeader (r : option header)
| RpBranch (r : option (N * list header))
| RpPeers (l : list view)
| RpSent (l : list sockaddr)
| RpImport (r : result import_result err)
| RpFilters (ok : bool)
| RpSubmit (r : option (list sockaddr))
| RpTx (r : option tx).

Section Full.
Context (H : header -> N).
Context (scf : SyncModel.sconf) (P : CbfModel.params) (kcf : kconf) (acf : aconf) (ping_timeout : N).
(** The environments of the calls of NodeModel.v and of the other managers,
    and the magic number of the network. *)
Context (env : nat -> nenv) (wenv_of : nat -> wenv) (magic : N).
(** fsm.rs:784 [on_message] of the user. *)
Context (hook : sockaddr -> wmsg -> bool).

Notation io := (DispModel.io wmsg wev).

(** Outputs as entries of the outboxes. *)
Definition node_io (x : comp * DispModel.io nmsg nev) : comp * io :=
  (x.1, match x.2 with
        | IoWrite a m => IoWrite a (WNode m)
        | IoConnect a => IoConnect a
        | IoDisconnect a r => IoDisconnect a r
        | IoTimer d => IoTimer d
        | IoEvent e => IoEvent (WvNode e)
        end).
Definition peer_io (o : kout) : list (comp * io) :=
  match o with
  | KoVersion a m => [(CPeer, IoWrite a (WVersion m))]
  | KoWtxidRelay a => [(CPeer, IoWrite a WWtxidRelay)]
  | KoVerack a => [(CPeer, IoWrite a WVerack)]
  | KoSendHeaders a => [(CPeer, IoWrite a WSendHeaders)]
  | KoTimer d => [(CPeer, IoTimer d)]
  | KoConnect a => [(CPeer, IoConnect a)]
  | KoDisconnect a r => [(CPeer, IoDisconnect a r)]
  | KoOffset _ _ => []
  | o => [(CPeer, IoEvent (WvPeer o))]
  end.
Definition addr_io (o : aout) : list (comp * io) :=
  match o with
  | AoGetAddr a => [(CAddr, IoWrite a WGetAddr)]
  | AoAddr a l => [(CAddr, IoWrite a (WAddr l))]
  | AoTimer d => [(CAddr, IoTimer d)]
  | AoSample _ => []
  | o => [(CAddr, IoEvent (WvAddr o))]
  end.
Definition ping_io (o : pout) : list (comp * io) :=
  match o with
  | PoPing a n => [(CPing, IoWrite (unkey a) (WPing n))]
  | PoPong a n => [(CPing, IoWrite (unkey a) (WPong n))]
  | PoDisconnect a => [(CPing, IoDisconnect (unkey a) RTimeout)]
  | PoTimer d => [(CPing, IoTimer d)]
  end.

(** One call of a manager. *)
Definition call_node (f : node -> M (node * list (comp * DispModel.io nmsg nev))) (s : full) : M (full * list (comp * io)) :=
  '(n, x) <-- f (w_node s) ;;
  Val (Full n (w_peer s) (w_addr s) (w_ping s) (w_calls s), map node_io x).
(** The height of the chain is read from the tree. *)
Definition kenv_at (s : full) : kenv :=
  let e := we_peer (wenv_of (w_calls s)) in
  KEnv (ke_now e) (c_height (n_cache (w_node s))) (ke_nonce e) (ke_hook e) (ke_order e) (ke_draw e).
Definition call_peer (o : kop) (s : full) : M (full * list (comp * io)) :=
  '(p, am, x) <-- kstep kcf acf (o, kenv_at s) (w_peer s, w_addr s) ;;
  Val (Full (w_node s) p am (w_ping s) (S (w_calls s)), flat_map peer_io x).
Definition call_addr (o : addr_op) (s : full) : M (full * list (comp * io)) :=
  '(am, x) <-- addr_step acf (o, we_addr (wenv_of (w_calls s))) (w_addr s) ;;
  Val (Full (w_node s) (w_peer s) am (w_ping s) (S (w_calls s)), flat_map addr_io x).
Definition call_ping (o : wenv -> ping_op) (s : full) : M (full * list (comp * io)) :=
  let '(p, x) := ping_step ping_timeout (o (wenv_of (w_calls s))) (w_ping s) in
  Val (Full (w_node s) (w_peer s) (w_addr s) p (S (w_calls s)), flat_map ping_io x).

(** What the managers of NodeModel.v see of an event. *)
Definition node_view (e : wev) : option nev :=
  match e with
  | WvPeer (KoNegotiated a l sv pe _ _ h _ re wt) =>
      Some (EvNegotiated (key a) h (is_outbound l) (has_services sv NETWORK) (has_services sv COMPACT_FILTERS) re wt pe)
  | WvPeer (KoDisconnected a _) => Some (EvDisconnected (key a))
  | WvMessage a (WNode m) => Some (EvMessage (key a) m)
  | WvNode e => Some e
  | _ => None
  end.
(** pingmgr.rs:93-112 [received_event]. *)
Definition ping_event (e : wev) : option (wenv -> ping_op) :=
  match e with
  | WvPeer (KoNegotiated a _ _ _ _ _ _ _ _ _) => Some (fun w => PingModel.PNegotiated (ke_now (we_peer w)) (key a) (we_nonces w (key a)))
  | WvPeer (KoDisconnected a _) => Some (fun _ => PingModel.PDisconnected (key a))
  | WvMessage a (WPing n) => Some (fun _ => PPing (key a) n)
  | WvMessage a (WPong n) => Some (fun w => PPong (ke_now (we_peer w)) (key a) n)
  | _ => None
  end.
(** addrmgr.rs:125-166 [received_event]. *)
Definition addr_event (e : wev) : option addr_op :=
  match e with
  | WvPeer (KoConnected a _ _) => Some (AConnected a)
  | WvPeer (KoNegotiated a l sv _ _ rc _ _ _ _) => Some (ANegotiated a sv (is_outbound l) rc)
  | WvPeer (KoConnecting a _ _) => Some (AConnecting a)
  | WvPeer (KoDisconnected a r) => Some (ADisconnected a r)
  | WvMessage a (WAddr l) => Some (AAddr a l)
  | WvMessage a WGetAddr => Some (AGetAddr a)
  | WvMessage a _ => Some (AMessage a)
  | _ => None
  end.
(** peermgr.rs:230-255 [received_event]. *)
Definition peer_event_of (e : wev) : option kop :=
  match e with
  | WvNode (EvInv (InvModel.IoTimedOut a)) => Some (KDrop (unkey a) RTimeout)
  | WvNode (EvSync (SyncModel.SoMisbehaved a)) => Some (KDrop (unkey a) RMisbehaving)
  | WvNode (EvCbf (CbfModel.CoMisbehaved a)) => Some (KDrop (unkey a) RMisbehaving)
  | WvMessage a (WVersion m) => Some (KMessage a (MVersion m))
  | WvMessage a WVerack => Some (KMessage a MVerack)
  | WvMessage a WWtxidRelay => Some (KMessage a MWtxidRelay)
  | WvMessage a _ => Some (KMessage a MOther)
  | _ => None
  end.
Definition skip (s : full) : M (full * list (comp * io)) := Val (s, []).
Definition on_event (c : comp) (e : wev) (s : full) : M (full * list (comp * io)) :=
  match c with
  | CCbf | CInv | CSync =>
      match node_view e with Some e' => call_node (NodeModel.on_event H scf P unkey env c e') s | None => skip s end
  | CPing => match ping_event e with Some o => call_ping o s | None => skip s end
  | CAddr => match addr_event e with Some o => call_addr o s | None => skip s end
  | CPeer => match peer_event_of e with Some o => call_peer o s | None => skip s end
  | CMain => skip s
  end.

Definition andthen (f g : full -> M (full * list (comp * io))) (s : full) : M (full * list (comp * io)) :=
  '(s, x) <-- f s ;;
  '(s, y) <-- g s ;;
  Val (s, x ++ y).
Definition emit (e : full -> wev) (s : full) : M (full * list (comp * io)) := Val (s, [(CMain, IoEvent (e s))]).

(** fsm.rs:752-763 [initialize]. *)
Definition initialize (s : full) : M (full * list (comp * io)) :=
  (andthen (emit (fun _ => WvInitializing))
  (andthen (call_addr AInitialize)
  (andthen (call_node (call_sync H scf unkey env SyncModel.SInitialize))
  (andthen (call_peer KInit)
  (andthen (call_node (call_cbf H P unkey env CbfModel.CInitialize))
           (emit (fun s => WvReady (c_height (n_cache (w_node s))) (CbfModel.f_height (n_cbf (w_node s)))))))))) s.
(** fsm.rs:825-833 [timer_expired]; the rest of it logs. *)
Definition timer (s : full) : M (full * list (comp * io)) :=
  (andthen (call_node (fun n => let e := env (n_calls n) in
     call_inv unkey (InvModel.ITimer (SyncModel.se_now (ne_sync e)) (CbfModel.tr_height (tree_of H (n_cache n))) (ne_pick e)) n))
  (andthen (call_node (call_sync H scf unkey env SyncModel.STimer))
  (andthen (call_ping (fun w => PTimer (ke_now (we_peer w)) (we_order w) (we_nonces w)))
  (andthen (call_addr ATimer)
  (andthen (call_peer KTimer)
           (call_node (call_cbf H P unkey env CbfModel.CTimer))))))) s.

(** peermgr.rs:703-711 [peers], in the order of the hash map. *)
Definition peers_of (s : full) : list (conn * pinfo) :=
  omap (fun a => match pm_peers (w_peer s) !! a with Some (Connected c (Some i)) => Some (c, i) | _ => None end)
    (ke_order (we_peer (wenv_of (w_calls s))) (fst <$> map_to_list (pm_peers (w_peer s)))).
(** invmgr.rs:478-496: what [announce] returns (in the order of the hash map
    of the code, here of the model). *)
Definition announced_to (s : full) : list sockaddr :=
  map (fun p => unkey p.1) (List.filter (fun p => InvModel.ip_relay p.2) (map_to_list (InvModel.iv_peers (n_inv (w_node s))))).
(** invmgr.rs:236-238 [get_submitted_tx]. *)
Definition submitted_tx (txid : N) (s : full) : option tx :=
  List.find (fun t => t_id t =? txid) (snd <$> map_to_list (InvModel.iv_mempool (n_inv (w_node s)))).
(** The reply of the compact filter manager among its outputs. *)
Definition cbf_replies (l : list CbfModel.cout) : bool :=
  match List.last l (CbfModel.CoReply false) with CbfModel.CoReply ok => ok | _ => false end.

(** fsm.rs:636-740 [command]: the new state, what is queued, and the reply. *)
Definition exec (c : cmd) (s : full) : M (full * list (comp * io) * reply) :=
  let ask (r : reply) : M (full * list (comp * io) * reply) := Val (s, [], r) in
  let run (f : full -> M (full * list (comp * io))) (r : reply) := '(s, x) <-- f s ;; Val (s, x, r) in
  let ch := n_cache (w_node s) in
  match c with
  | CmdGetTip => ask (RpTip (c_height ch) (c_tip H ch).2 (c_chainwork ch))
  | CmdGetBlock hash => ask (RpBlock (get_block ch hash))
  | CmdGetByHeight h => ask (RpHeader (get_block_by_height ch h))
  | CmdFindBranch to => r <-- find_branch ch to ;; ask (RpBranch r)
  | CmdGetPeers sv =>
      ask (RpPeers ((fun p => view_of p.1 p.2) <$> List.filter (fun p => is_negotiated p.2 && has_services (pi_services p.2) sv) (peers_of s)))
  | CmdConnect a => run (call_peer (KConnect a)) RpNone
  | CmdDisconnect a => run (call_peer (KDrop a RCommand)) RpNone
  | CmdBroadcast m pred =>
      let l := List.filter pred ((fun p => view_of p.1 p.2) <$> peers_of s) in
      Val (s, map (fun v => (CMain, IoWrite (v_addr v) m)) l, RpSent (v_addr <$> l))
  | CmdImportHeaders hds =>
      let n := w_node s in
      '(_, _, r) <-- SyncModel.sync_import H (ne_sync (env (n_calls n))) (with_choices env n hds) ch (n_sync n) ;;
      run (call_node (call_sync H scf unkey env (SyncModel.SImport (with_choices env n hds)))) (RpImport r)
  | CmdImportAddresses l => run (call_addr (AInsert (map (fun a => (0, a)) l) FromImport)) RpNone
  | CmdRequestFilters a b =>
      let n := w_node s in
      let e := env (n_calls n) in
      '(_, x) <-- CbfModel.cbf_step P (ne_cbf e) (SyncModel.se_now (ne_sync e)) (tree_of H ch) (CbfModel.CRequestFilters a b) (n_cbf n) ;;
      run (call_node (call_cbf H P unkey env (CbfModel.CRequestFilters a b))) (RpFilters (cbf_replies x))
  | CmdRequestBlock hash => run (call_node (call_inv unkey (InvModel.IGetBlock hash))) RpNone
  | CmdSubmit t =>
      run (andthen (call_node (call_cbf H P unkey env (CbfModel.CWatchTx (t_id t) (t_outs t).*2)))
                   (call_node (call_inv unkey (InvModel.IAnnounce t))))
          (RpSubmit (match announced_to s with [] => None | l => Some l end))
  | CmdGetSubmitted txid => ask (RpTx (submitted_tx txid s))
  | CmdRescan a b w => run (call_node (call_cbf H P unkey env (CbfModel.CRescan a b w))) RpNone
  | CmdWatch w => run (call_node (call_cbf H P unkey env (CbfModel.CWatch w))) RpNone
  end.

(** The inputs of the state machine.  [WReceived] has the magic number of the
    message; [WAttempted] (fsm.rs:801-803) only has a debug assertion;
    [WDrop] is [disconnect] (557-559) as called by the service for bytes that
    do not decode (client/src/service.rs:107-114). *)
Inductive wop :=
| WInitialize
| WReceived (a : sockaddr) (mg : N) (m : wmsg)
| WConnected (a local : sockaddr) (l : link)
| WDisconnected (a : sockaddr) (r : dreason)
| WDrop (a : sockaddr)
| WTimer
| WCommand (c : cmd)
| WNext.

(** fsm.rs:766-799 [message_received]: in this state, what is passed on. *)
Definition received_fop (a : sockaddr) (mg : N) (m : wmsg) (s : full) : fop full wmsg wev :=
  if negb (mg =? magic) then FInput (call_peer (KDrop a RMagic))
  else if negb (connected_at (w_peer s) a) then FInput skip
  else if negb (hook a m) then FInput skip
  else FInternal (WvMessage a m).
Definition wop_fop (o : wop) (s : full) : fop full wmsg wev :=
  match o with
  | WInitialize => FInput initialize
  | WReceived a mg m => received_fop a mg m s
  | WConnected a local l => FInput (call_peer (KConnected a local l))
  | WDisconnected a r => FInput (call_peer (KDisconnected a r))
  | WDrop a => FInput (call_peer (KDrop a RDecode))
  | WTimer => FInput timer
  | WCommand c => FInput (fun s => '(s, x, _) <-- exec c s ;; Val (s, x))
  | WNext => FNext
  end.
Definition full_step (o : wop) (s : fsm full wmsg wev) : M (fsm full wmsg wev * list (fitem wmsg wev)) :=
  fstep on_event magic (wop_fop o (f_state s)) s.
Fixpoint full_run (os : list wop) (s : fsm full wmsg wev) : M (fsm full wmsg wev * list (fitem wmsg wev)) :=
  match os with
  | [] => Val (s, [])
  | o :: os' => '(s, x) <-- full_step o s ;; '(s, y) <-- full_run os' s ;; Val (s, x ++ y)
  end.

(** The start, over loaded stores and an address book. *)
Definition full0 (c : cache) (f : CbfModel.cbf) (white : gset ip) (am : amgr) : fsm full wmsg wev :=
  Fsm (Full (Node c SyncModel.sync_init f InvModel.inv0 0) (pm_new white) am ∅ 0) (fun _ => []).
End Full.
