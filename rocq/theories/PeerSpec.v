(** What the properties of the peer manager talk about: what was done to the
    manager and when, and what it put out. *)
From Verif Require Import Base AddrModel AddrSpec PeerModel.
Open Scope N_scope.

(** A trace: calls, their times, and the outputs of each. *)
Notation ktrace := (list (kop * N * list kout)).

Fixpoint krun (cf : kconf) (acf : aconf) (os : list (kop * kenv)) (st : pmgr * amgr) : M (pmgr * amgr * ktrace) :=
  match os with
  | [] => Val (st, [])
  | (o, e) :: os =>
      '(s, am, x) <-- kstep cf acf (o, e) st ;;
      '(st, tr) <-- krun cf acf os (s, am) ;;
      Val (st, (o, ke_now e, x) :: tr)
  end.

Definition fair_kenv (e : kenv) : Prop := (forall l, ke_order e l ≡ₚ l) /\ forall n, fair_aenv (ke_draw e n).
Definition fair_kop (oe : kop * kenv) : Prop := fair_kenv oe.2 /\ match oe.1 with KAddr _ ae => fair_aenv ae | _ => True end.

(** The manager was created with a whitelist, next to an address manager in
    some reachable state, and this happened. *)
Record khistory (cf : kconf) (acf : aconf) (white : gset ip) (os : list (kop * kenv)) (tr : ktrace) (s : pmgr) (am : amgr) : Prop := {
  kh_start : exists store t0 aos am0, addr_history acf store t0 aos am0 /\ krun cf acf os (pm_new white, am0) = Val (s, am, tr);
  kh_fair : Forall fair_kop os;
}.

(** ** What is observed of one address *)
(** What the peer said on a connection: its last [version] and when it came,
    whether [wtxidrelay] followed, and whether [verack] did. *)
Record hello := Hello { he_msg : vmsg; he_time : N; he_wtxid : bool; he_acked : bool }.
Inductive status :=
| Idle
| Dialing (since : N)
| Open (local : sockaddr) (l : link) (since : N) (h : option hello)
| Closing.
Definition hear (now : N) (m : kmsg) (h : option hello) : option hello :=
  match m, h with
  | MVersion m, _ => Some (Hello m now false false)
  | MVerack, Some h => Some (Hello (he_msg h) (he_time h) (he_wtxid h) true)
  | MWtxidRelay, Some h => Some (Hello (he_msg h) (he_time h) (he_wtxid h || negb (he_acked h)) (he_acked h))
  | _, _ => h
  end.
Definition observe_op (a : sockaddr) (now : N) (o : kop) (st : status) : status :=
  match o with
  | KConnected a' local l => if bool_decide (a' = a) then Open local l now None else st
  | KDisconnected a' _ => if bool_decide (a' = a) then Idle else st
  | KMessage a' m =>
      if bool_decide (a' = a) then match st with Open local l since h => Open local l since (hear now m h) | _ => st end else st
  | _ => st
  end.
Definition observe_out (a : sockaddr) (now : N) (x : kout) (st : status) : status :=
  match x with
  | KoConnect a' => if bool_decide (a' = a) then Dialing now else st
  | KoDisconnect a' _ => if bool_decide (a' = a) then Closing else st
  | _ => st
  end.
Definition observe (a : sockaddr) (t : kop * N * list kout) (st : status) : status :=
  fold_left (fun st x => observe_out a t.1.2 x st) t.2 (observe_op a t.1.2 t.1.1 st).
Definition status_of (a : sockaddr) (tr : ktrace) : status := fold_left (fun st t => observe a t st) tr Idle.

(** There are at most [n] addresses in a state. *)
Definition at_most (n : N) (P : status -> Prop) (tr : ktrace) : Prop :=
  forall l, NoDup l -> (forall a, a ∈ l -> P (status_of a tr)) -> lenN l <= n.
Definition open_inbound (st : status) : Prop := exists local since h, st = Open local Inbound since h.
(** Being dialled or connected. *)
Definition busy (st : status) : Prop := match st with Dialing _ | Open _ _ _ _ => True | _ => False end.
(** Being dialled, or connected by us. *)
Definition busy_outbound (st : status) : Prop := match st with Dialing _ => True | Open _ l _ _ => l = Outbound | _ => False end.

(** How often an address was disconnected since it was last connected, and the
    last time it was, with how often it had been before. *)
Definition drops_step (a : sockaddr) (t : kop * N * list kout) (d : N * option (N * N)) : N * option (N * N) :=
  match t.1.1 with
  | KConnected a' _ _ => if bool_decide (a' = a) then (0, d.2) else d
  | KDisconnected a' _ => if bool_decide (a' = a) then (d.1 + 1, Some (t.1.2, d.1)) else d
  | _ => d
  end.
Definition drops (a : sockaddr) (tr : ktrace) : N * option (N * N) := fold_left (fun d t => drops_step a t d) tr (0, None).
Definition failures (a : sockaddr) (tr : ktrace) : N := (drops a tr).1.
Definition last_drop (a : sockaddr) (tr : ktrace) : option (N * N) := (drops a tr).2.
(** The delay before an attempt to reconnect: one second, doubled with every
    failure, within limits. *)
Definition retry_delay (cf : kconf) (n : N) : N := N.max (kc_retry_min cf) (N.min (1000 * N.min (2 ^ n) (2 ^ 64 - 1)) (kc_retry_max cf)).

(** Which addresses are trusted. *)
Definition trusted (cf : kconf) (white : gset ip) (tr : ktrace) (a : sockaddr) (agent : N) : Prop :=
  a.1 ∈ white \/ (exists a' t x, (KConnect a', t, x) ∈ tr /\ a'.1 = a.1) \/ agent ∈ kc_agents cf \/ is_local a.1 = true.

(** The call or its outputs end, or replace, the connection of an address. *)
Definition cuts (a : sockaddr) (t : kop * N * list kout) : Prop :=
  (exists local l, t.1.1 = KConnected a local l) \/ (exists r, t.1.1 = KDisconnected a r) \/ (exists r, KoDisconnect a r ∈ t.2).

Definition domain_ok (cf : kconf) (a : sockaddr) : Prop := (if a.1.1 then kc_ipv4 cf else kc_ipv6 cf) = true.

(** Late: a connection attempt after six seconds, a handshake after twelve. *)
Definition overdue (now : N) (st : status) : Prop :=
  match st with
  | Dialing t => 6000 <= now - t
  | Open _ _ since None => 12000 <= now - since
  | Open _ _ _ (Some h) => he_acked h = false /\ 12000 <= now - he_time h
  | _ => False
  end.

(** The peers that count against the target: all that are being dialled or are
    connected, except outbound peers that completed the handshake without
    having the preferred services. *)
Definition counted (cf : kconf) (st : status) : Prop :=
  match st with
  | Dialing _ => True
  | Open _ Outbound _ (Some h) => he_acked h = true -> has_services (vm_services (he_msg h)) (kc_preferred cf) = true
  | Open _ _ _ _ => True
  | _ => False
  end.

(** A history in which the user asks for no connection, and outbound
    connections are made only when they were asked for. *)
Definition lawful (tr : ktrace) : Prop :=
  forall tr1 o now x tr2, tr = tr1 ++ (o, now, x) :: tr2 ->
  match o with
  | KConnected a _ Outbound => exists since, status_of a tr1 = Dialing since
  | KConnect _ => False
  | _ => True
  end.

(** The reasons to turn a peer away when its [version] comes.  Only peers we
    dialled must have the required services and a recent chain, unless they are
    trusted; once enough outbound peers have completed the handshake, they must
    have the preferred services too. *)
Definition full (cf : kconf) (tr : ktrace) : Prop :=
  exists k, NoDup k /\ kc_target cf <= lenN k /\ forall b, b ∈ k -> exists lb sb hb, status_of b tr = Open lb Outbound sb (Some hb) /\ he_acked hb = true.
Definition unwelcome (cf : kconf) (white : gset ip) (tr : ktrace) (a : sockaddr) (l : link) (m : vmsg) (height : N) (hook : bool) : Prop :=
  vm_version m < 70012 \/
  (l = Outbound /\ has_services (vm_services m) (kc_required cf) = false /\ ~ trusted cf white tr a (vm_agent m)) \/
  (l = Outbound /\ ((0 <= vm_height m)%Z /\ (vm_height m + 2016 < Z.of_N height)%Z) /\ ~ trusted cf white tr a (vm_agent m)) \/
  (exists b lb sb hb, status_of b tr = Open lb Outbound sb (Some hb) /\ vm_nonce (he_msg hb) = vm_nonce m) \/
  (l = Outbound /\ has_services (vm_services m) (kc_preferred cf) = false /\ full cf tr) \/
  hook = false.

(** ** Dialling *)
(** An address the address manager may give out: of a configured family, not
    connected, not one that was tried without ever succeeding, and not given
    out in the last three minutes by the address manager's clock. *)
Definition drawable (acf : aconf) (am : amgr) (a : sockaddr) (src : source) (services : N) : Prop :=
  exists i ka, am_peers am !! i = Some ka /\ socket_addr (ka_addr ka) = Some a /\ ka_source ka = src /\ ad_services (ka_addr ka) = services /\
    (if a.1.1 then ac_ipv4 acf else ac_ipv6 acf) = true /\ i ∉ am_connected am /\ (ka_attempt ka = None \/ ka_success ka <> None) /\
    180000 <= default 0 (am_idle am) - default 0 (ka_sampled ka).
(** The last timer that came at least a minute after the previous such timer. *)
Definition rested (tr : ktrace) : N :=
  fold_left (fun t y => match y.1.1 with KTimer => if 60000 <=? y.1.2 - t then y.1.2 else t | _ => t end) tr 0.
(** The calls after which missing connections are made up for. *)
Definition refills (tr : ktrace) (o : kop) (now : N) : Prop :=
  match o with KInit | KDisconnected _ _ => True | KTimer => 60000 <= now - rested tr | _ => False end.
(** What we say of ourselves in a [version] message. *)
Record greets (cf : kconf) (a local : sockaddr) (nonce height now : N) (m : vmsg) : Prop := {
  gr_version : vm_version m = kc_version cf;
  gr_services : vm_services m = kc_services cf;
  gr_time : now / 1000 < 2 ^ 32 -> vm_timestamp m = Z.of_N (now / 1000);
  gr_receiver : ad_services (vm_receiver m) = 0 /\ ad_port (vm_receiver m) = a.2 /\ (if a.1.1 then a.1.2 < 2 ^ 32 -> socket_addr (vm_receiver m) = Some a else ad_bits (vm_receiver m) = a.1.2);
  gr_sender : ad_services (vm_sender m) = kc_services cf /\ ad_port (vm_sender m) = local.2 /\ (if local.1.1 then local.1.2 < 2 ^ 32 -> socket_addr (vm_sender m) = Some local else ad_bits (vm_sender m) = local.1.2);
  gr_nonce : vm_nonce m = nonce;
  gr_agent : vm_agent m = kc_agent cf;
  gr_height : height < 2 ^ 31 -> vm_height m = Z.of_N height;
  gr_relay : vm_relay m = false;
}.
