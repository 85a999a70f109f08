(** Model of the peer manager, p2p/src/fsm/peermgr.rs, which draws addresses
    from the address manager of AddrModel.v.  Times are milliseconds;
    subtraction of times does not go below zero, as in net/src/time.rs.
    Debug assertions (peermgr.rs:298-302, 363-364, 665, 853) are not part of
    a release build and are not modelled; neither is logging. *)
From Verif Require Import Base AddrModel.
Open Scope N_scope.

(** peermgr.rs:41-54; p2p/src/fsm.rs:68 [MIN_PROTOCOL_VERSION]. *)
Definition HANDSHAKE_TIMEOUT : N := 12000.
Definition CONNECTION_TIMEOUT : N := 6000.
Definition IDLE_TIMEOUT : N := 60000.
Definition MAX_STALE_HEIGHT_DIFFERENCE : N := 2016.
Definition MIN_PROTOCOL_VERSION : N := 70012.

(** net/src/lib.rs [Link]. *)
Inductive link := Inbound | Outbound.
Definition is_inbound (l : link) : bool := match l with Inbound => true | Outbound => false end.
Definition is_outbound (l : link) : bool := negb (is_inbound l).

(** bitcoin [VersionMessage]; the user agent is a number standing for the
    string. *)
Record vmsg := VMsg {
  vm_version : N;
  vm_services : N;
  vm_timestamp : Z;
  vm_receiver : address;
  vm_sender : address;
  vm_nonce : N;
  vm_agent : N;
  vm_height : Z;
  vm_relay : bool;
}.

(** peermgr.rs:66-92 [Config] and fsm.rs:447-454 [Whitelist]; the addresses of
    the whitelist change and are part of the state. *)
Record kconf := KConf {
  kc_version : N;
  kc_agents : gset N;
  kc_services : N;
  kc_persistent : list sockaddr;
  kc_required : N;
  kc_preferred : N;
  kc_target : N;
  kc_maxin : N;
  kc_retry_max : N;
  kc_retry_min : N;
  kc_agent : N;
  kc_ipv4 : bool;
  kc_ipv6 : bool;
}.

(** peermgr.rs:95-101 [HandshakeState], 105-115 [Connection], 139-163
    [PeerInfo], 119-135 [Peer]. *)
Inductive hstate := HVersion (since : N) | HVerack (since : N).
Record conn := Conn { cn_addr : sockaddr; cn_local : sockaddr; cn_link : link; cn_since : N }.
Record pinfo := PInfo {
  pi_height : N;
  pi_services : N;
  pi_agent : N;
  pi_offset : Z;
  pi_receiver : address;
  pi_relay : bool;
  pi_wtxid : bool;
  pi_version : N;
  pi_persistent : bool;
  pi_nonce : N;
  pi_state : hstate;
}.
Inductive peer := Connecting (time : N) | Connected (c : conn) (i : option pinfo) | Disconnecting.
(** peermgr.rs:166-169 [is_negotiated]. *)
Definition is_negotiated (i : pinfo) : bool := match pi_state i with HVerack _ => true | HVersion _ => false end.

(** peermgr.rs:174-188 [PeerManager], with the whitelisted addresses. *)
Record pmgr := PMgr {
  pm_idle : option N;
  pm_peers : gmap sockaddr peer;
  pm_retry : gmap sockaddr (option N * N);
  pm_white : gset ip;
}.
Definition pm_new (white : gset ip) : pmgr := PMgr None ∅ ∅ white.
Definition set_peers (s : pmgr) (p : gmap sockaddr peer) : pmgr := PMgr (pm_idle s) p (pm_retry s) (pm_white s).
Definition set_retry (s : pmgr) (r : gmap sockaddr (option N * N)) : pmgr := PMgr (pm_idle s) (pm_peers s) r (pm_white s).

(** What the manager queues for the reactor and the other components;
    [KoOffset] is the sample given to the adjusted clock. *)
Inductive kout :=
| KoVersion (a : sockaddr) (m : vmsg)
| KoWtxidRelay (a : sockaddr)
| KoVerack (a : sockaddr)
| KoSendHeaders (a : sockaddr)
| KoTimer (d : N)
| KoConnect (a : sockaddr)
| KoDisconnect (a : sockaddr) (r : reason)
| KoOffset (a : sockaddr) (z : Z)
| KoError (a : sockaddr)
| KoConnected (a local : sockaddr) (l : link)
| KoDisconnected (a : sockaddr) (r : dreason)
| KoFailed (a : sockaddr)
| KoNegotiated (a : sockaddr) (l : link) (services : N) (persistent : bool) (agent : N) (receiver : address) (height version : N) (relay wtxid : bool)
| KoConnecting (a : sockaddr) (src : source) (services : N).

(** The clock, the height of the chain, a random number, the version hook
    (whether it accepts), the order of hash maps and the choices made by the
    address manager at each draw. *)
Record kenv := KEnv {
  ke_now : N;
  ke_height : N;
  ke_nonce : N;
  ke_hook : sockaddr -> vmsg -> bool;
  ke_order : list sockaddr -> list sockaddr;
  ke_draw : nat -> aenv;
}.

(** peermgr.rs:669-711: the states of a peer. *)
Definition connected_at (s : pmgr) (a : sockaddr) : bool := match pm_peers s !! a with Some (Connected _ _) => true | _ => false end.
Definition connecting_at (s : pmgr) (a : sockaddr) : bool := match pm_peers s !! a with Some (Connecting _) => true | _ => false end.
Definition disconnecting_at (s : pmgr) (a : sockaddr) : bool := match pm_peers s !! a with Some Disconnecting => true | _ => false end.
Definition disconnected_at (s : pmgr) (a : sockaddr) : bool := match pm_peers s !! a with None => true | _ => false end.
(** How many peers there are with a property. *)
Definition countp (f : peer -> bool) (s : pmgr) : N := lenN (List.filter (fun p => f p.2) (map_to_list (pm_peers s))).
(** peermgr.rs:704-711, 713-719, 722-728: connecting, connected and negotiated peers. *)
Definition p_connecting (p : peer) : bool := match p with Connecting _ => true | _ => false end.
Definition p_connected (p : peer) : bool := match p with Connected _ _ => true | _ => false end.
Definition p_inbound (p : peer) : bool := match p with Connected c _ => is_inbound (cn_link c) | _ => false end.
Definition p_negotiated (p : peer) : bool := match p with Connected c (Some i) => is_negotiated i && is_outbound (cn_link c) | _ => false end.
Definition p_primary (sv : N) (p : peer) : bool :=
  p_negotiated p && match p with Connected _ (Some i) => has_services (pi_services i) sv | _ => false end.

(** peermgr.rs:787-790 [_disconnect], 780-784 [disconnect]. *)
Definition do_disconnect (a : sockaddr) (r : reason) (s : pmgr) : pmgr * list kout :=
  (set_peers s (<[a := Disconnecting]> (pm_peers s)), [KoDisconnect a r]).
Definition disconnect (a : sockaddr) (r : reason) (s : pmgr) : pmgr * list kout :=
  if connected_at s a then do_disconnect a r s else (s, []).

(** bitcoin [Address::new]. *)
Definition mk_address (a : sockaddr) (services : N) : address :=
  Address services (if a.1.1 then 0xffff * 2 ^ 32 + a.1.2 else a.1.2) a.2.

(** Wrapping signed arithmetic. *)
Definition to_i32 (n : N) : Z := ((Z.of_N n + 2 ^ 31) mod 2 ^ 32 - 2 ^ 31)%Z.
Definition to_i64 (z : Z) : Z := ((z + 2 ^ 63) mod 2 ^ 64 - 2 ^ 63)%Z.
(** [i32 as u64]. *)
Definition to_height (z : Z) : N := Z.to_N (z mod 2 ^ 64)%Z.

Section Model.
Context (cf : kconf) (acf : aconf).

(** peermgr.rs:622-657 [version]. *)
Definition mk_version (a local : sockaddr) (nonce height now : N) : vmsg :=
  VMsg (kc_version cf) (kc_services cf) (Z.of_N (wrap32 (now / 1000))) (mk_address a 0) (mk_address local (kc_services cf)) nonce (kc_agent cf) (to_i32 height) false.

(** peermgr.rs:731-748 [connect]: whether the peer is now being connected to. *)
Definition connect (now : N) (a : sockaddr) (s : pmgr) : bool * pmgr * list kout :=
  if connected_at s a || connecting_at s a then (true, s, [])
  else if negb (disconnected_at s a) && negb (disconnecting_at s a) then (false, s, [])
  else if negb (if a.1.1 then kc_ipv4 cf else kc_ipv6 cf) then (false, s, [])
  else (true, set_peers s (<[a := Connecting now]> (pm_peers s)), [KoConnect a; KoTimer CONNECTION_TIMEOUT]).

(** Checked subtraction of [usize]. *)
Definition csub (line : N) (a b : N) (k : N -> M N) : M N := if a <? b then Panic (POverflow line) else k (a - b).

(** peermgr.rs:793-837 [delta]; lines 801, 803, 826, 836. *)
Definition delta (s : pmgr) : M N :=
  let primary := countp (p_primary (kc_preferred cf)) s in
  csub 801 (countp p_negotiated s) primary (fun secondary =>
  csub 803 (countp p_connected s) primary (fun c =>
  csub 803 c secondary (fun connected =>
  let unknown := countp p_connecting s + connected in
  let total := primary + secondary + unknown in
  let max := kc_target cf + kc_target cf / 2 in
  if 2 ^ 64 <=? max then Panic (POverflow 822)
  else if (max <? total) || (kc_target cf <? primary + unknown) then Val 0
  else csub 831 max total (fun x => csub 831 (kc_target cf) (primary + unknown) (fun y => Val (N.min x y)))))).

(** peermgr.rs:856-873: the draws of one round. *)
Definition draw (e : kenv) (n : nat) (below : bool) (am : amgr) : M (amgr * option (address * source)) :=
  '(am, r) <-- addr_sample acf (ke_draw e (3 * n)) (kc_preferred cf) am ;;
  match r with
  | Some _ => Val (am, r)
  | None =>
      if below then
        '(am, r) <-- addr_sample acf (ke_draw e (3 * n + 1)) (kc_required cf) am ;;
        match r with Some _ => Val (am, r) | None => addr_sample acf (ke_draw e (3 * n + 2)) 0 am end
      else Val (am, None)
  end.
(** peermgr.rs:854-899: the loop.  The fuel runs out only if the loop does not
    end. *)
Fixpoint connect_loop (fuel n : nat) (e : kenv) (d : N) (below : bool) (done : gset sockaddr) (s : pmgr) (am : amgr) : M (pmgr * amgr * list kout) :=
  match fuel with
  | O => Panic (PDiverge 854)
  | S fuel =>
      if lenN (elements done) <? d then
        '(am, r) <-- draw e n below am ;;
        match r with
        | None => Val (s, am, [])
        | Some (a, src) =>
            match socket_addr a with
            | None => connect_loop fuel (S n) e d below done s am
            | Some sa =>
                let '(ok, s', x) := connect (ke_now e) sa s in
                if ok then
                  '(s'', am, xs) <-- connect_loop fuel (S n) e d below ({[sa]} ∪ done) s' am ;;
                  Val (s'', am, x ++ [KoConnecting sa src (ad_services a)] ++ xs)
                else connect_loop fuel (S n) e d below done s' am
            end
        end
      else Val (s, am, [])
  end.
(** peermgr.rs:840-900 [maintain_connections]. *)
Definition maintain_connections (e : kenv) (s : pmgr) (am : amgr) : M (pmgr * amgr * list kout) :=
  match kc_persistent cf with
  | _ :: _ => Val (s, am, [])
  | [] =>
      d <-- delta s ;;
      connect_loop (S (S (size (am_peers am)))) 0 e d (countp p_negotiated s <? kc_target cf) ∅ s am
  end.

(** peermgr.rs:218-228 [initialize]. *)
Fixpoint connect_all (now : N) (l : list sockaddr) (s : pmgr) : pmgr * list kout :=
  match l with
  | [] => (s, [])
  | a :: l =>
      let '(ok, s, x) := connect now a s in
      let '(s, y) := connect_all now l s in
      (s, x ++ (if ok then [] else [KoError a]) ++ y)
  end.
Definition initialize (e : kenv) (s : pmgr) (am : amgr) : M (pmgr * amgr * list kout) :=
  let '(s, x) := connect_all (ke_now e) (kc_persistent cf) s in
  '(s, am, y) <-- maintain_connections e s am ;;
  Val (s, am, x ++ [KoTimer IDLE_TIMEOUT] ++ y).

(** peermgr.rs:259-268 [persistent_disconnected]; [attempts as u32] keeps the
    low 32 bits.  [Ord::clamp] panics if the bounds are not in order. *)
Definition backoff (attempts : N) : N :=
  N.max (kc_retry_min cf) (N.min (1000 * N.min (2 ^ wrap32 attempts) (2 ^ 64 - 1)) (kc_retry_max cf)).
Definition persistent_disconnected (a : sockaddr) (now : N) (s : pmgr) : M (pmgr * list kout) :=
  let attempts := match pm_retry s !! a with Some (_, n) => n | None => 0 end in
  if kc_retry_max cf <? kc_retry_min cf then Panic (PAssert 262)
  else
    let delay := backoff attempts in
    Val (set_retry s (<[a := (Some (now + delay), attempts + 1)]> (pm_retry s)), [KoTimer delay]).

(** peermgr.rs:271-290 [maintain_persistent]. *)
Definition due (now : N) (r : option N * N) : bool := match r.1 with Some t => t <=? now | None => false end.
Fixpoint reconnect_all (now : N) (l : list sockaddr) (s : pmgr) : pmgr * list kout :=
  match l with
  | [] => (s, [])
  | a :: l =>
      let '(_, s, x) := connect now a s in
      let '(s, y) := reconnect_all now l s in
      (s, x ++ y)
  end.
Definition maintain_persistent (e : kenv) (s : pmgr) : pmgr * list kout :=
  let l := List.filter (fun a => match pm_retry s !! a with Some r => due (ke_now e) r | None => false end) (ke_order e (fst <$> map_to_list (pm_retry s))) in
  reconnect_all (ke_now e) l (set_retry s ((fun r => if due (ke_now e) r then (None, r.2) else r) <$> pm_retry s)).

(** peermgr.rs:293-352 [peer_connected]. *)
Definition peer_connected (e : kenv) (a local : sockaddr) (l : link) (s : pmgr) : pmgr * list kout :=
  let s := PMgr (pm_idle s) (<[a := Connected (Conn a local l (ke_now e)) None]> (pm_peers s)) (delete a (pm_retry s)) (pm_white s) in
  let '(s, x) :=
    match l with
    | Inbound => if kc_maxin cf <=? countp p_inbound s then do_disconnect a RLimit s else (s, [])
    | Outbound => (s, [KoVersion a (mk_version a local (ke_nonce e) (ke_height e) (ke_now e))])
    end in
  (s, x ++ [KoTimer HANDSHAKE_TIMEOUT; KoConnected a local l]).

(** peermgr.rs:355-392 [peer_disconnected]. *)
Definition peer_disconnected (e : kenv) (a : sockaddr) (r : dreason) (s : pmgr) (am : amgr) : M (pmgr * amgr * list kout) :=
  let x :=
    if disconnecting_at s a || connected_at s a then [KoDisconnected a r]
    else if connecting_at s a then match r with DConnection => [KoFailed a] | _ => [] end
    else [] in
  let s := set_peers s (delete a (pm_peers s)) in
  if bool_decide (a ∈ kc_persistent cf) then
    '(s, y) <-- persistent_disconnected a (ke_now e) s ;; Val (s, am, x ++ y)
  else
    '(s, am, y) <-- maintain_connections e s am ;; Val (s, am, x ++ y).

(** peermgr.rs:395-414 [received_wtxidrelay]. *)
Definition set_wtxid (i : pinfo) : pinfo :=
  PInfo (pi_height i) (pi_services i) (pi_agent i) (pi_offset i) (pi_receiver i) (pi_relay i) true (pi_version i) (pi_persistent i) (pi_nonce i) (pi_state i).
Definition received_wtxidrelay (a : sockaddr) (s : pmgr) : pmgr * list kout :=
  match pm_peers s !! a with
  | Some (Connected c (Some i)) =>
      match pi_state i with
      | HVersion _ => (set_peers s (<[a := Connected c (Some (set_wtxid i))]> (pm_peers s)), [])
      | HVerack _ => disconnect a RMisbehaving s
      end
  | _ => (s, [])
  end.

(** peermgr.rs:447-479: the checks of [handle_version], in order. *)
Definition refuses (e : kenv) (a : sockaddr) (c : conn) (m : vmsg) (s : pmgr) : option reason :=
  let trusted := bool_decide (a.1 ∈ pm_white s) || bool_decide (vm_agent m ∈ kc_agents cf) || is_local a.1 in
  let out := is_outbound (cn_link c) in
  if vm_version m <? MIN_PROTOCOL_VERSION then Some RVersion
  else if out && negb (has_services (vm_services m) (kc_required cf)) && negb trusted then Some RServices
  else if out && (MAX_STALE_HEIGHT_DIFFERENCE <? ke_height e - to_height (vm_height m)) && negb trusted then Some RHeight
  else if existsb (fun p => match p.2 with Connected c (Some i) => is_outbound (cn_link c) && (pi_nonce i =? vm_nonce m) | _ => false end) (map_to_list (pm_peers s)) then Some RSelf
  else if out && negb (has_services (vm_services m) (kc_preferred cf)) && (kc_target cf <=? countp p_negotiated s) then Some RLimit
  else if negb (ke_hook e a m) then Some ROther
  else None.
(** peermgr.rs:417-541 [received_version], [handle_version]. *)
Definition received_version (e : kenv) (a : sockaddr) (m : vmsg) (s : pmgr) : pmgr * list kout :=
  match pm_peers s !! a with
  | Some (Connected c _) =>
      match refuses e a c m s with
      | Some r => do_disconnect a r s
      | None =>
          let i := PInfo (to_height (vm_height m)) (vm_services m) (vm_agent m) (to_i64 (vm_timestamp m - Z.of_N (wrap32 (ke_now e / 1000)))) (vm_receiver m)
                     (vm_relay m) false (N.min (kc_version cf) (vm_version m)) (bool_decide (cn_addr c ∈ kc_persistent cf)) (vm_nonce m) (HVersion (ke_now e)) in
          (set_peers s (<[cn_addr c := Connected c (Some i)]> (pm_peers s)),
           (if is_inbound (cn_link c) then [KoVersion (cn_addr c) (mk_version (cn_addr c) (cn_local c) (vm_nonce m) (ke_height e) (ke_now e))] else []) ++
           [KoWtxidRelay (cn_addr c); KoVerack (cn_addr c); KoSendHeaders (cn_addr c); KoTimer HANDSHAKE_TIMEOUT])
      end
  | _ => (s, [])
  end.

(** peermgr.rs:544-577 [received_verack]. *)
Definition set_state (i : pinfo) (h : hstate) : pinfo :=
  PInfo (pi_height i) (pi_services i) (pi_agent i) (pi_offset i) (pi_receiver i) (pi_relay i) (pi_wtxid i) (pi_version i) (pi_persistent i) (pi_nonce i) h.
Definition received_verack (e : kenv) (a : sockaddr) (s : pmgr) : pmgr * list kout :=
  match pm_peers s !! a with
  | Some (Connected c (Some i)) =>
      match pi_state i with
      | HVersion _ =>
          (set_peers s (<[a := Connected c (Some (set_state i (HVerack (ke_now e))))]> (pm_peers s)),
           [KoNegotiated a (cn_link c) (pi_services i) (pi_persistent i) (pi_agent i) (pi_receiver i) (pi_height i) (pi_version i) (pi_relay i) (pi_wtxid i);
            KoOffset a (pi_offset i)])
      | HVerack _ => do_disconnect a RMisbehaving s
      end
  | _ => (s, [])
  end.

(** peermgr.rs:580-615 [timer_expired]; the three collections are in the order
    of the hash map. *)
Fixpoint disconnect_all (l : list sockaddr) (s : pmgr) : pmgr * list kout :=
  match l with
  | [] => (s, [])
  | a :: l =>
      let '(s, x) := do_disconnect a RTimeout s in
      let '(s, y) := disconnect_all l s in
      (s, x ++ y)
  end.
Definition late_connecting (now : N) (p : peer) : bool := match p with Connecting t => CONNECTION_TIMEOUT <=? now - t | _ => false end.
Definition late_verack (now : N) (p : peer) : bool :=
  match p with Connected _ (Some i) => match pi_state i with HVersion t => HANDSHAKE_TIMEOUT <=? now - t | HVerack _ => false end | _ => false end.
Definition late_version (now : N) (p : peer) : bool := match p with Connected c None => HANDSHAKE_TIMEOUT <=? now - cn_since c | _ => false end.
Definition select (e : kenv) (f : peer -> bool) (s : pmgr) : list sockaddr :=
  List.filter (fun a => match pm_peers s !! a with Some p => f p | None => false end) (ke_order e (fst <$> map_to_list (pm_peers s))).
Definition conn_addr (s : pmgr) (a : sockaddr) : sockaddr := match pm_peers s !! a with Some (Connected c _) => cn_addr c | _ => a end.
Definition timer_expired (e : kenv) (s : pmgr) (am : amgr) : M (pmgr * amgr * list kout) :=
  let late := select e (late_connecting (ke_now e)) s ++ (conn_addr s <$> select e (late_verack (ke_now e)) s) ++ (conn_addr s <$> select e (late_version (ke_now e)) s) in
  let '(s, x) := disconnect_all late s in
  '(s, am, y) <--
    (if IDLE_TIMEOUT <=? ke_now e - default 0 (pm_idle s) then
       '(s, am, y) <-- maintain_connections e s am ;;
       Val (PMgr (Some (ke_now e)) (pm_peers s) (pm_retry s) (pm_white s), am, y ++ [KoTimer IDLE_TIMEOUT])
     else Val (s, am, [])) ;;
  let '(s, z) := maintain_persistent e s in
  Val (s, am, x ++ y ++ z).

(** The calls made by p2p/src/fsm.rs: initialization (line 756), connections
    (807-823), messages (796 through 626-634), timers (841); [KDrop] is
    [disconnect] with any reason (551-553, 681, 771 and peermgr.rs:232-238);
    [KConnect] is the user's command (676-679).  [KAddr]: the address manager
    does something on its own. *)
Inductive kmsg := MVersion (m : vmsg) | MVerack | MWtxidRelay | MOther.
Inductive kop :=
| KInit
| KConnected (a local : sockaddr) (l : link)
| KDisconnected (a : sockaddr) (r : dreason)
| KMessage (a : sockaddr) (m : kmsg)
| KDrop (a : sockaddr) (r : reason)
| KTimer
| KConnect (a : sockaddr)
| KAddr (o : addr_op) (e : aenv).
Definition kstep (oe : kop * kenv) (st : pmgr * amgr) : M (pmgr * amgr * list kout) :=
  let '(o, e) := oe in
  let '(s, am) := st in
  let keep (r : pmgr * list kout) : M (pmgr * amgr * list kout) := Val (r.1, am, r.2) in
  match o with
  | KInit => initialize e s am
  | KConnected a local l => keep (peer_connected e a local l s)
  | KDisconnected a r => peer_disconnected e a r s am
  | KMessage a (MVersion m) => keep (received_version e a m s)
  | KMessage a MVerack => keep (received_verack e a s)
  | KMessage a MWtxidRelay => keep (received_wtxidrelay a s)
  | KMessage a MOther => keep (s, [])
  | KDrop a r => keep (disconnect a r s)
  | KTimer => timer_expired e s am
  | KConnect a =>
      let '(_, s, x) := connect (ke_now e) a (PMgr (pm_idle s) (pm_peers s) (pm_retry s) ({[a.1]} ∪ pm_white s)) in
      Val (s, am, x)
  | KAddr o ae => '(am, _) <-- addr_step acf (o, ae) am ;; Val (s, am, [])
  end.
End Model.
