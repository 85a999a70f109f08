(** Vocabulary for the address manager properties. *)
From Verif Require Import Base AddrModel.
Open Scope N_scope.

Section Spec.
Context (cf : aconf).
Fixpoint addr_run (os : list (addr_op * aenv)) (s : amgr) : M (amgr * list (list aout)) :=
  match os with
  | [] => Val (s, [])
  | o :: os' =>
      '(s, x) <-- addr_step cf o s ;;
      '(s, xs) <-- addr_run os' s ;;
      Val (s, x :: xs)
  end.
End Spec.

(** Hash maps are walked in some order, and random choices are made in the
    range asked for. *)
Definition fair_aenv (e : aenv) : Prop :=
  (forall n l, ae_order e n l ≡ₚ l) /\ (forall l, ae_ranges e l ≡ₚ l) /\ (forall l, ae_sources e l ≡ₚ l).
Definition fair_aenvs (os : list (addr_op * aenv)) : Prop := Forall (fun oe => fair_aenv oe.2) os.

(** The store is keyed by the address of its entries. *)
Definition keyed (store : gmap ip known) : Prop :=
  forall i ka na, store !! i = Some ka -> socket_addr (ka_addr ka) = Some na -> na.1 = i.

(** Which addresses are connected, according to the events.  The manager
    ignores connections to addresses that are not routable. *)
Definition online_step (i : ip) (o : addr_op) (b : bool) : bool :=
  match o with
  | AConnected a => if decide (a.1 = i) then b || (is_routable i && negb (is_local i)) else b
  | ADisconnected a _ => if decide (a.1 = i) then false else b
  | _ => b
  end.
Fixpoint online (i : ip) (os : list (addr_op * aenv)) (b : bool) : bool :=
  match os with [] => b | oe :: os' => online i os' (online_step i oe.1 b) end.

(** IPv4 addresses as ranges of numbers; [net a b c d n] is a.b.c.d/n. *)
Definition net (a b c d n x : N) : Prop :=
  let lo := a * 2 ^ 24 + b * 2 ^ 16 + c * 2 ^ 8 + d in lo <= x < lo + 2 ^ (32 - n).
(** Addresses that cannot be reached over the internet (RFC 1918, 1122,
    3927, 5737, 919). *)
Definition reserved (x : N) : Prop :=
  net 10 0 0 0 8 x \/ net 172 16 0 0 12 x \/ net 192 168 0 0 16 x \/ net 127 0 0 0 8 x \/
  net 169 254 0 0 16 x \/ net 255 255 255 255 32 x \/ net 192 0 2 0 24 x \/
  net 198 51 100 0 24 x \/ net 203 0 113 0 24 x \/ net 0 0 0 0 8 x.

(** The addresses presented by an operation, with the time they claim to have
    been active. *)
Definition op_addrs (o : addr_op) : list (N * address) :=
  match o with AAddr _ l | AInsert l _ => l | _ => [] end.
Definition heard (os : list (addr_op * aenv)) : list (N * address) := concat (map (fun oe => op_addrs oe.1) os).

(** Reasons that rule a peer out for good. *)
Definition severe (r : dreason) : Prop :=
  r = DDial \/ exists m, r = DMachine m /\ m ∈ [RMisbehaving; RVersion; RServices; RMagic; RSelf; RDecode; RCommand; ROther].

(** The number of addresses in the range of [i]. *)
Definition crowd (i : ip) (s : amgr) : N := lenN (elements (default ∅ (am_ranges s !! addr_key i))).

(** How many of some addresses belong to the range of [i]. *)
Definition newcomers (i : ip) (l : list (N * address)) : N :=
  lenN (List.filter (fun p => match socket_addr p.2 with Some na => addr_key na.1 =? addr_key i | None => false end) l).

(** What an address must satisfy to be learned. *)
Definition acceptable_addr (cf : aconf) (time active : N) (a : address) (i : ip) : Prop :=
  has_services (ad_services a) (ac_required cf) = true /\
  has_services (ad_services a) GETUTXO = false /\ has_services (ad_services a) BLOOM = false /\
  0 < active /\ active * 1000 <= time + 3600000 /\
  (if i.1 then ac_ipv4 cf else ac_ipv6 cf) = true /\ is_routable i = true /\ is_local i = false.

(** When the manager last idled: at initialization and at timers at least a
    minute after the last time. *)
Definition idled_step (oe : addr_op * aenv) (v : N) : N :=
  match oe.1 with
  | AInitialize => ae_now oe.2
  | ATimer => if 60000 <=? ae_now oe.2 - v then ae_now oe.2 else v
  | _ => v
  end.
Fixpoint idled (os : list (addr_op * aenv)) (v : N) : N :=
  match os with [] => v | oe :: os' => idled os' (idled_step oe v) end.

(** A completed handshake with an address. *)
Definition handshake (i : ip) (o : addr_op) : Prop :=
  match o with ANegotiated a _ _ _ => a.1 = i | _ => False end.

(** A history: a manager made from a store, initialized at [t0], and used. *)
Definition addr_history (cf : aconf) (store : gmap ip known) (t0 : N) (os : list (addr_op * aenv)) (s : amgr) : Prop :=
  exists e0 e1 s0 s1 x1 xs, fair_aenv e0 /\ fair_aenvs os /\ addr_new e0 store = Val s0 /\
    ae_now e1 = t0 /\ addr_step cf (AInitialize, e1) s0 = Val (s1, x1) /\ addr_run cf os s1 = Val (s, xs).

(** Whether a connection is open. *)
Definition linked_step (a : sockaddr) (o : addr_op) (b : bool) : bool :=
  match o with
  | AConnected a' => if decide (a' = a) then true else b
  | ADisconnected a' _ => if decide (a' = a) then false else b
  | _ => b
  end.
Fixpoint linked (a : sockaddr) (os : list (addr_op * aenv)) (b : bool) : bool :=
  match os with [] => b | oe :: os' => linked a os' (linked_step a oe.1 b) end.

(** Addresses of the same network: the first 16 bits of an IPv4 address, the
    first 32 bits of an IPv6 address. *)
Definition same_group (i j : ip) : Prop :=
  i.1 = j.1 /\ (if i.1 then i.2 / 2 ^ 16 = j.2 / 2 ^ 16 else i.2 / 2 ^ 96 = j.2 / 2 ^ 96).

(** A history along with what was put out. *)
Definition addr_story (cf : aconf) (store : gmap ip known) (t0 : N) (os : list (addr_op * aenv)) (xs : list (list aout)) (s : amgr) : Prop :=
  exists e0 e1 s0 s1 x1, fair_aenv e0 /\ fair_aenvs os /\ addr_new e0 store = Val s0 /\
    ae_now e1 = t0 /\ addr_step cf (AInitialize, e1) s0 = Val (s1, x1) /\ addr_run cf os s1 = Val (s, xs).

(** The peers worth asking for addresses: outbound peers that completed the
    handshake and did not disconnect.  [on]: the address is connected. *)
Definition source_step (a : sockaddr) (o : addr_op) (on b : bool) : bool :=
  match o with
  | ANegotiated a' _ ob _ => if decide (a' = a) then b || (on && ob) else b
  | ADisconnected a' _ => if decide (a' = a) then b && negb on else b
  | _ => b
  end.
Fixpoint source_of (a : sockaddr) (os : list (addr_op * aenv)) (on b : bool) : bool :=
  match os with [] => b | oe :: os' => source_of a os' (online_step a.1 oe.1 on) (source_step a oe.1 on b) end.

(** When the manager last ran out of addresses. *)
Definition out_of_addresses (x : list aout) : bool := existsb (fun y => match y with AoExhausted => true | _ => false end) x.
Fixpoint ran_out (os : list (addr_op * aenv)) (xs : list (list aout)) (v : N) : N :=
  match os, xs with
  | oe :: os', x :: xs' => ran_out os' xs' (if out_of_addresses x then ae_now oe.2 else v)
  | _, _ => v
  end.

(** A peer told us that this is our address. *)
Definition told_own (a : sockaddr) (o : addr_op) : Prop :=
  match o with ANegotiated _ _ _ rc => socket_addr rc = Some a | _ => False end.
(** An address was disconnected for a severe reason. *)
Definition faulted (i : ip) (o : addr_op) : Prop :=
  match o with ADisconnected a r => a.1 = i /\ severe r | _ => False end.

(** What is told about an address: when it was last active (milliseconds) and
    its services.  A handshake tells both, any other message that it is
    active.  [on]: the address is connected. *)
Definition word_step (i : ip) (oe : addr_op * aenv) (on : bool) (v : option N * N) : option N * N :=
  match oe.1 with
  | ANegotiated a services _ _ => if decide (a.1 = i) then if on then (Some (ae_now oe.2), services) else v else v
  | AAddr from _ | AGetAddr from | AMessage from => if decide (from.1 = i) then (Some (ae_now oe.2), v.2) else v
  | _ => v
  end.
Fixpoint word (i : ip) (os : list (addr_op * aenv)) (on : bool) (v : option N * N) : option N * N :=
  match os with [] => v | oe :: os' => word i os' (online_step i oe.1 on) (word_step i oe on v) end.
(** Seconds, in 32 bits. *)
Definition stamp (t : option N) : N := match t with Some t => t / 1000 mod 2 ^ 32 | None => 0 end.
