(** Model of the address manager, p2p/src/fsm/addrmgr.rs, over the peer store
    of common/src/p2p/peer.rs.  Times are milliseconds; subtraction of times
    does not go below zero, as in net/src/time.rs.  Where the code draws
    random numbers or walks a hash map, the order is an argument. *)
From Verif Require Import Base.
Open Scope N_scope.

(** [net::IpAddr]: whether it is IPv4, and its 32 or 128 bits. *)
Notation ip := (bool * N)%type.
(** [net::SocketAddr]: address and port. *)
Notation sockaddr := (ip * N)%type.

(** bitcoin [Address]: services, the 128-bit address and the port.  IPv4
    addresses are embedded in IPv6. *)
Record address := Address { ad_services : N; ad_bits : N; ad_port : N }.
(** bitcoin [Address::socket_addr]: onion addresses (first three segments
    fd87:d87e:eb43) have none; [Ipv6Addr::to_ipv4] recognizes ::ffff:a.b.c.d
    and ::a.b.c.d. *)
Definition is_onion (bits : N) : bool := bits / 2 ^ 80 =? 0xfd87d87eeb43.
Definition socket_addr (a : address) : option sockaddr :=
  if is_onion (ad_bits a) then None
  else if (ad_bits a / 2 ^ 32 =? 0) || (ad_bits a / 2 ^ 32 =? 0xffff) then Some ((true, ad_bits a mod 2 ^ 32), ad_port a)
  else Some ((false, ad_bits a), ad_port a).
(** bitcoin [ServiceFlags::has], [GETUTXO], [BLOOM]. *)
Definition has_services (s f : N) : bool := N.land s f =? f.
Definition GETUTXO : N := 2.
Definition BLOOM : N := 4.

(** common/src/p2p/peer.rs:165-185 [Source], 187-203 [KnownAddress]. *)
Inductive source := FromPeer (a : sockaddr) | FromDns | FromImport.
Record known := Known {
  ka_addr : address;
  ka_source : source;
  ka_success : option N;
  ka_sampled : option N;
  ka_attempt : option N;
  ka_active : option N;
}.
(** peer.rs:207-216 [KnownAddress::new]. *)
Definition new_known (a : address) (src : source) (active : option N) : known := Known a src None None None active.

(** addrmgr.rs:22, 25, 28, 31, 33. *)
Definition REQUEST_TIMEOUT : N := 60000.
Definition ADDR_IDLE_TIMEOUT : N := 60000.
Definition SAMPLE_TIMEOUT : N := 180000.
Definition MAX_ADDR_ADDRESSES : N := 1000.
Definition MAX_RANGE_SIZE : N := 256.

(** addrmgr.rs:72-79 [Config]; domains: whether IPv4 and IPv6 are enabled. *)
Record aconf := AConf { ac_required : N; ac_ipv4 : bool; ac_ipv6 : bool }.
Definition in_domains (cf : aconf) (a : sockaddr) : bool := if a.1.1 then ac_ipv4 cf else ac_ipv6 cf.

(** addrmgr.rs:92-108 [AddressManager]. *)
Record amgr := AMgr {
  am_peers : gmap ip known;
  am_bans : gset ip;
  am_ranges : gmap N (gset ip);
  am_connected : gset ip;
  am_sources : gset sockaddr;
  am_local : gset sockaddr;
  am_request : option N;
  am_idle : option N;
}.
Definition with_peers (s : amgr) (p : gmap ip known) : amgr :=
  AMgr p (am_bans s) (am_ranges s) (am_connected s) (am_sources s) (am_local s) (am_request s) (am_idle s).

(** p2p/src/fsm.rs:99-123 [DisconnectReason], 125-134 [is_transient];
    net/src/lib.rs:56-76 [Disconnect]. *)
Inductive reason :=
| RMisbehaving | RVersion | RServices | RHeight | RMagic | RTimeout | RSelf | RLimit | RDecode | RCommand | ROther.
Definition is_transient (r : reason) : bool := match r with RLimit | RTimeout | RHeight => true | _ => false end.
Inductive dreason := DDial | DConnection | DMachine (r : reason).

(** The clock, the order of hash maps and random choices, and whether the
    store can be written. *)
Record aenv := AEnv {
  ae_now : N;
  ae_order : N -> list ip -> list ip;
  ae_ranges : list (gset ip) -> list (gset ip);
  ae_sources : list sockaddr -> list sockaddr;
  ae_flush : bool;
}.

Inductive aout :=
| AoGetAddr (addr : sockaddr)
| AoAddr (addr : sockaddr) (l : list (N * address))
| AoTimer (d : N)
| AoExhausted
| AoError
| AoSample (r : option (address * source)).

(** std [Ipv4Addr]: the four octets and the classification of addresses. *)
Definition octet (i a : N) : N := a / 2 ^ (8 * (3 - i)) mod 256.
Definition is_private (a : N) : bool :=
  (octet 0 a =? 10) || ((octet 0 a =? 172) && (16 <=? octet 1 a) && (octet 1 a <=? 31)) || ((octet 0 a =? 192) && (octet 1 a =? 168)).
Definition is_loopback (a : N) : bool := octet 0 a =? 127.
Definition is_link_local (a : N) : bool := (octet 0 a =? 169) && (octet 1 a =? 254).
Definition is_broadcast (a : N) : bool := (octet 0 a =? 255) && (octet 1 a =? 255) && (octet 2 a =? 255) && (octet 3 a =? 255).
Definition is_documentation (a : N) : bool :=
  ((octet 0 a =? 192) && (octet 1 a =? 0) && (octet 2 a =? 2)) ||
  ((octet 0 a =? 198) && (octet 1 a =? 51) && (octet 2 a =? 100)) ||
  ((octet 0 a =? 203) && (octet 1 a =? 0) && (octet 2 a =? 113)).
Definition is_unspecified (a : N) : bool := (octet 0 a =? 0) && (octet 1 a =? 0) && (octet 2 a =? 0) && (octet 3 a =? 0).

(** addrmgr.rs:632-645 [ipv4_is_routable], 584-590 [is_routable] (all IPv6
    addresses are), 593-600 [is_local]. *)
Definition ipv4_is_routable (a : N) : bool :=
  if (a =? 0xc0000009) || (a =? 0xc000000a) then true
  else negb (is_private a) && negb (is_loopback a) && negb (is_link_local a) && negb (is_broadcast a) &&
    negb (is_documentation a) && negb (octet 0 a =? 0).
Definition is_routable (i : ip) : bool := if i.1 then ipv4_is_routable i.2 else true.
Definition is_local (i : ip) : bool :=
  if i.1 then is_private i.2 || is_loopback i.2 || is_link_local i.2 || is_unspecified i.2 else false.

(** addrmgr.rs:604-626 [addr_key]. *)
Definition addr_key (i : ip) : N :=
  if i.1 then (i.2 / 2 ^ 16 mod 2 ^ 16) mod 255 else (i.2 / 2 ^ 96 mod 2 ^ 32) mod 255.

Section Model.
Context (cf : aconf).

(** A random element of a non-empty set. *)
Definition pick (order : list ip -> list ip) (r : gset ip) : option ip := head (order (elements r)).

(** addrmgr.rs:526-550 [populate_address_ranges]: evicts a random address
    from a full range. *)
Definition populate (order : list ip -> list ip) (i : ip) (s : amgr) : M amgr :=
  let k := addr_key i in
  let r := default ∅ (am_ranges s !! k) in
  if lenN (elements r) =? MAX_RANGE_SIZE then
    match pick order r with
    | None => Panic (PIndex 542)
    | Some v =>
        Val (AMgr (delete v (am_peers s)) (am_bans s) (<[k := {[i]} ∪ r ∖ {[v]}]> (am_ranges s))
               (am_connected s) (am_sources s) (am_local s) (am_request s) (am_idle s))
    end
  else
    Val (AMgr (am_peers s) (am_bans s) (<[k := {[i]} ∪ r]> (am_ranges s))
           (am_connected s) (am_sources s) (am_local s) (am_request s) (am_idle s)).

(** addrmgr.rs:301-322 [new], with the addresses of the store in some order. *)
Fixpoint populate_all (e : aenv) (n : N) (ips : list ip) (s : amgr) : M amgr :=
  match ips with
  | [] => Val s
  | i :: ips' => s' <-- populate (ae_order e n) i s ;; populate_all e (n + 1) ips' s'
  end.
Definition addr_new (e : aenv) (store : gmap ip known) : M amgr :=
  populate_all e 1 (ae_order e 0 (map fst (map_to_list store))) (AMgr store ∅ ∅ ∅ ∅ ∅ None None).

(** addrmgr.rs:289-296 [idle], 120-122 [initialize]. *)
Definition addr_idle (e : aenv) (s : amgr) : amgr * list aout :=
  (AMgr (am_peers s) (am_bans s) (am_ranges s) (am_connected s) (am_sources s) (am_local s) (am_request s) (Some (ae_now e)),
   (if ae_flush e then [] else [AoError]) ++ [AoTimer ADDR_IDLE_TIMEOUT]).

(** addrmgr.rs:51-69 [is_exhausted]. *)
Definition unusable (s : amgr) (time : N) (i : ip) (ka : known) : bool :=
  (bool_decide (is_Some (ka_attempt ka)) && bool_decide (ka_success ka = None)) ||
  (time - default 0 (ka_sampled ka) <? SAMPLE_TIMEOUT) || bool_decide (i ∈ am_connected s).
Definition is_exhausted (s : amgr) : M bool :=
  match am_idle s with
  | None => Panic (PAssert 54)
  | Some time => Val (forallb (fun p => unusable s time p.1 p.2) (map_to_list (am_peers s)))
  end.

(** addrmgr.rs:169-186 [timer_expired], 216-220 [get_addresses]. *)
Definition addr_timer (e : aenv) (s : amgr) : M (amgr * list aout) :=
  '(s, x) <-- (if REQUEST_TIMEOUT <=? ae_now e - default 0 (am_request s) then
      b <-- is_exhausted s ;;
      Val (if (b : bool) then
             (AMgr (am_peers s) (am_bans s) (am_ranges s) (am_connected s) (am_sources s) (am_local s) (Some (ae_now e)) (am_idle s),
              AoExhausted :: map AoGetAddr (ae_sources e (elements (am_sources s))) ++ [AoTimer REQUEST_TIMEOUT])
           else (s, []))
    else Val (s, [])) ;;
  Val (if ADDR_IDLE_TIMEOUT <=? ae_now e - default 0 (am_idle s) then
         let '(s, y) := addr_idle e s in (s, x ++ y)
       else (s, x)).

(** addrmgr.rs:191-208 [received_getaddr]; [block_time] truncates to 32 bits. *)
Fixpoint one_per_range (e : aenv) (s : amgr) (n : N) (ranges : list (gset ip)) : M (list (N * address)) :=
  match ranges with
  | [] => Val []
  | r :: ranges' =>
      match pick (ae_order e n) r with
      | None => Panic (PIndex 198)
      | Some i =>
          match am_peers s !! i with
          | None => Panic (PAssert 200)
          | Some ka =>
              l <-- one_per_range e s (n + 1) ranges' ;;
              Val ((match ka_active ka with Some t => t / 1000 mod two32 | None => 0 end, ka_addr ka) :: l)
          end
      end
  end.
Definition received_getaddr (e : aenv) (from : sockaddr) (s : amgr) : M (amgr * list aout) :=
  l <-- one_per_range e s 0 (ae_ranges e (map snd (map_to_list (am_ranges s)))) ;; Val (s, [AoAddr from l]).

(** addrmgr.rs:223-229 [peer_attempted]. *)
Definition addr_attempted (now : N) (a : sockaddr) (s : amgr) : amgr :=
  with_peers s (alter (fun k => Known (ka_addr k) (ka_source k) (ka_success k) (ka_sampled k) (Some now) (ka_active k)) a.1 (am_peers s)).

(** addrmgr.rs:232-237 [peer_connected]. *)
Definition addr_connected (a : sockaddr) (s : amgr) : amgr :=
  if negb (is_routable a.1) || is_local a.1 then s
  else AMgr (am_peers s) (am_bans s) (am_ranges s) ({[a.1]} ∪ am_connected s) (am_sources s) (am_local s) (am_request s) (am_idle s).

(** addrmgr.rs:240-263 [peer_negotiated], preceded by lines 137-139. *)
Definition addr_negotiated (now : N) (a : sockaddr) (services : N) (outbound : bool) (receiver : address) (s : amgr) : amgr * list aout :=
  let local := match socket_addr receiver with Some r => {[r]} ∪ am_local s | None => am_local s end in
  if bool_decide (a.1 ∈ am_connected s) then
    let sources := if outbound then {[a]} ∪ am_sources s else am_sources s in
    match am_peers s !! a.1 with
    | Some k =>
        (AMgr (<[a.1 := Known (Address services (ad_bits (ka_addr k)) (ad_port (ka_addr k))) (ka_source k)
                          (Some now) (ka_sampled k) (ka_attempt k) (Some now)]> (am_peers s))
           (am_bans s) (am_ranges s) (am_connected s) sources local (am_request s) (am_idle s),
         if ka_success k then [] else [AoGetAddr a])
    | None => (AMgr (am_peers s) (am_bans s) (am_ranges s) (am_connected s) sources local (am_request s) (am_idle s), [])
    end
  else (AMgr (am_peers s) (am_bans s) (am_ranges s) (am_connected s) (am_sources s) local (am_request s) (am_idle s), []).

(** addrmgr.rs:553-571 [ban]. *)
Definition ban (i : ip) (s : amgr) : amgr :=
  let k := addr_key i in
  match am_ranges s !! k with
  | None => s
  | Some r =>
      let r' := r ∖ {[i]} in
      AMgr (delete i (am_peers s)) ({[i]} ∪ am_bans s)
        (if decide (r' = ∅) then delete k (am_ranges s) else <[k := r']> (am_ranges s))
        (am_connected s) (am_sources s) (am_local s) (am_request s) (am_idle s)
  end.

(** addrmgr.rs:266-287 [peer_disconnected]. *)
Definition bans_for (r : dreason) : bool :=
  match r with DMachine r => negb (is_transient r) | DDial => true | DConnection => false end.
Definition addr_disconnected (a : sockaddr) (r : dreason) (s : amgr) : amgr :=
  if bool_decide (a.1 ∈ am_connected s) then
    let s := AMgr (am_peers s) (am_bans s) (am_ranges s) (am_connected s ∖ {[a.1]}) (am_sources s ∖ {[a]}) (am_local s) (am_request s) (am_idle s) in
    if bans_for r then ban a.1 s else s
  else s.

(** addrmgr.rs:361-403: whether an address is worth recording, and under
    which key. *)
Definition acceptable (time : N) (s : amgr) (active : N) (a : address) : option ip :=
  if negb (has_services (ad_services a) (ac_required cf)) then None
  else if has_services (ad_services a) GETUTXO || has_services (ad_services a) BLOOM then None
  else if active =? 0 then None
  else if time + 3600000 <? active * 1000 then None
  else match socket_addr a with
  | None => None
  | Some na =>
      if negb (in_domains cf na) then None
      else if bool_decide (na ∈ am_local s) then None
      else if bool_decide (na.1 ∈ am_bans s) then None
      else if negb (is_routable na.1) then None
      else if is_local na.1 then None
      else Some na.1
  end.
(** addrmgr.rs:405-422; the store does not overwrite an address it has. *)
Definition insert_one (e : aenv) (n time : N) (src : source) (active : N) (a : address) (s : amgr) : M amgr :=
  match acceptable time s active a with
  | None => Val s
  | Some i =>
      match am_peers s !! i with
      | Some _ => Val s
      | None => populate (ae_order e n) i (with_peers s (<[i := new_known a src (Some (active * 1000))]> (am_peers s)))
      end
  end.
Fixpoint insert_all (e : aenv) (n time : N) (src : source) (l : list (N * address)) (s : amgr) : M amgr :=
  match l with
  | [] => Val s
  | (active, a) :: l' => s' <-- insert_one e n time src active a s ;; insert_all e (n + 1) time src l' s'
  end.
(** addrmgr.rs:352-423 [insert]. *)
Definition addr_insert (e : aenv) (l : list (N * address)) (src : source) (s : amgr) : M amgr :=
  match am_idle s with
  | None => Panic (PAssert 359)
  | Some time => insert_all e 0 time src l s
  end.
(** addrmgr.rs:342-348 [received_addr]. *)
Definition received_addr (e : aenv) (from : sockaddr) (l : list (N * address)) (s : amgr) : M amgr :=
  if (lenN l =? 0) || (MAX_ADDR_ADDRESSES <? lenN l) then Val s else addr_insert e l (FromPeer from) s.

(** addrmgr.rs:483-516: the first usable address of a range. *)
Definition usable (s : amgr) (time : N) (pred : known -> bool) (i : ip) (ka : known) : bool :=
  match socket_addr (ka_addr ka) with None => false | Some a => in_domains cf a end &&
  negb (unusable s time i ka) && pred ka.
Fixpoint sample_range (s : amgr) (time : N) (pred : known -> bool) (ips : list ip) : M (option (ip * known)) :=
  match ips with
  | [] => Val None
  | i :: ips' =>
      match am_peers s !! i with
      | None => Panic (PAssert 484)
      | Some ka => if usable s time pred i ka then Val (Some (i, ka)) else sample_range s time pred ips'
      end
  end.
Fixpoint sample_ranges (e : aenv) (s : amgr) (time : N) (pred : known -> bool) (n : N) (ranges : list (gset ip)) : M (option (ip * known)) :=
  match ranges with
  | [] => Val None
  | r :: ranges' =>
      assertM (negb (bool_decide (r = ∅))) 477
        (o <-- sample_range s time pred (ae_order e n (elements r)) ;;
         match o with Some p => Val (Some p) | None => sample_ranges e s time pred (n + 1) ranges' end)
  end.
(** addrmgr.rs:460-520 [sample_with]. *)
Definition sample_with (e : aenv) (pred : known -> bool) (s : amgr) : M (amgr * option (address * source)) :=
  if bool_decide (am_peers s = ∅) || bool_decide (am_ranges s = ∅) then Val (s, None)
  else match am_idle s with
  | None => Panic (PAssert 469)
  | Some time =>
      o <-- sample_ranges e s time pred 0 (ae_ranges e (map snd (map_to_list (am_ranges s)))) ;;
      Val (match o with
           | None => (s, None)
           | Some (i, ka) =>
               (with_peers s (<[i := Known (ka_addr ka) (ka_source ka) (ka_success ka) (Some time) (ka_attempt ka) (ka_active ka)]> (am_peers s)),
                Some (ka_addr ka, ka_source ka))
           end)
  end.
(** addrmgr.rs:432-456 [sample]. *)
Definition addr_sample (e : aenv) (services : N) (s : amgr) : M (amgr * option (address * source)) :=
  sample_with e (fun ka => has_services (ad_services (ka_addr ka)) services) s.

(** addrmgr.rs:149-151: a known peer was heard from. *)
Definition heard_from (now : N) (from : sockaddr) (s : amgr) : amgr :=
  with_peers s (alter (fun k => Known (ka_addr k) (ka_source k) (ka_success k) (ka_sampled k) (ka_attempt k) (Some now)) from.1 (am_peers s)).

(** addrmgr.rs:125-166 [received_event], the timer and the public functions. *)
Inductive addr_op :=
| AInitialize
| AConnected (a : sockaddr)
| ANegotiated (a : sockaddr) (services : N) (outbound : bool) (receiver : address)
| AConnecting (a : sockaddr)
| ADisconnected (a : sockaddr) (r : dreason)
| AAddr (from : sockaddr) (l : list (N * address))
| AGetAddr (from : sockaddr)
| AMessage (from : sockaddr)
| ATimer
| AInsert (l : list (N * address)) (src : source)
| ASample (services : N).
Definition addr_step (oe : addr_op * aenv) (s : amgr) : M (amgr * list aout) :=
  let e := oe.2 in
  match oe.1 with
  | AInitialize => Val (addr_idle e s)
  | AConnected a => Val (addr_connected a s, [])
  | ANegotiated a services outbound receiver => Val (addr_negotiated (ae_now e) a services outbound receiver s)
  | AConnecting a => Val (addr_attempted (ae_now e) a s, [])
  | ADisconnected a r => Val (addr_disconnected a r s, [])
  | AAddr from l => s <-- received_addr e from l (heard_from (ae_now e) from s) ;; Val (s, [])
  | AGetAddr from => received_getaddr e from (heard_from (ae_now e) from s)
  | AMessage from => Val (heard_from (ae_now e) from s, [])
  | ATimer => addr_timer e s
  | AInsert l src => s <-- addr_insert e l src s ;; Val (s, [])
  | ASample services => '(s, r) <-- addr_sample e services s ;; Val (s, [AoSample r])
  end.
End Model.
