(** Connections as they are seen in the log of a run: inputs, events and what
    was queued for the network. *)
From Verif Require Import Base AddrModel AddrSpec PeerModel DispModel DispSpec NodeModel FullModel FullSpec FullMgrSpec.
From Verif Require SyncModel CbfModel InvModel.
Open Scope N_scope.

(** Of a connection: the last [version] of the peer, whether [wtxidrelay]
    followed, and whether [verack] did. *)
Inductive lstate := LIdle | LDialing | LOpen (local : sockaddr) (l : link) (h : option (vmsg * bool * bool)) | LClosing.
Definition hears (m : wmsg) (h : option (vmsg * bool * bool)) : option (vmsg * bool * bool) :=
  match m, h with
  | WVersion v, _ => Some (v, false, false)
  | WVerack, Some (v, w, _) => Some (v, w, true)
  | WWtxidRelay, Some (v, w, k) => Some (v, w || negb k, k)
  | _, _ => h
  end.
Definition saw_input (a : sockaddr) (o : wop) (st : lstate) : lstate :=
  match o with
  | WConnected a' local l => if bool_decide (a' = a) then LOpen local l None else st
  | WDisconnected a' _ => if bool_decide (a' = a) then LIdle else st
  | _ => st
  end.
Definition saw_event (a : sockaddr) (e : wev) (st : lstate) : lstate :=
  match e with
  | WvMessage a' m => if bool_decide (a' = a) then match st with LOpen local l h => LOpen local l (hears m h) | _ => st end else st
  | _ => st
  end.
Definition saw_output (a : sockaddr) (x : io wmsg wev) (st : lstate) : lstate :=
  match x with
  | IoConnect a' => if bool_decide (a' = a) then LDialing else st
  | IoDisconnect a' _ => if bool_decide (a' = a) then LClosing else st
  | _ => st
  end.
(** What the peer manager queues counts; the ping manager also disconnects
    peers, which shows when the reactor says so. *)
Definition saw (a : sockaddr) (p : wop * list (fitem wmsg wev)) (st : lstate) : lstate :=
  fold_left (fun st x => saw_output a x st) (queued_by CPeer p.2) (fold_left (fun st e => saw_event a e st) (announced p.2) (saw_input a p.1 st)).
Definition link_of (a : sockaddr) (l : wlog) : lstate := fold_left (fun st p => saw a p st) l LIdle.

Definition open_in (st : lstate) : Prop := exists local h, st = LOpen local Inbound h.
Definition is_open (st : lstate) : Prop := exists local l h, st = LOpen local l h.

(** The connection with an address ends in a step, or is replaced. *)
Definition cut (a : sockaddr) (p : wop * list (fitem wmsg wev)) : Prop :=
  (exists local l, p.1 = WConnected a local l) \/ (exists r, p.1 = WDisconnected a r) \/ (exists r, IoDisconnect a r ∈ queued_by CPeer p.2).
(** A message got through. *)
Definition heard_in (a : sockaddr) (m : wmsg) (p : wop * list (fitem wmsg wev)) : Prop := WvMessage a m ∈ announced p.2.

(** A run from the start. *)
Definition started (step : wop -> wstate -> M (wstate * list (fitem wmsg wev))) (s0 : wstate) (l : wlog) (s : wstate) : Prop :=
  (exists x0 l', l = (WInitialize, x0) :: l') /\ logged step s0 l s.
(** What we are told of a peer in its [version] message. *)
Definition as_told (kcf : kconf) (a : sockaddr) (m : vmsg) (sv : N) (pe : bool) (ag : N) (rc : address) (he ve : N) (re : bool) : Prop :=
  70012 <= vm_version m /\ sv = vm_services m /\ pe = bool_decide (a ∈ kc_persistent kcf) /\ ag = vm_agent m /\ rc = vm_receiver m /\
  he = to_height (vm_height m) /\ ve = N.min (kc_version kcf) (vm_version m) /\ re = vm_relay m.
(** Why a connection is given up, after a log, in a step. *)
Definition drop_cause (kcf : kconf) (magic : N) (log : wlog) (a : sockaddr) (r : reason) (p : wop * list (fitem wmsg wev)) : Prop :=
  let st := link_of a log in
  let version (f : link -> vmsg -> Prop) := exists local l h m, st = LOpen local l h /\ heard_in a (WVersion m) p /\ f l m in
  match r with
  | RMagic => is_open st /\ exists mg m, p.1 = WReceived a mg m /\ mg <> magic
  | RDecode => is_open st /\ p.1 = WDrop a
  | RCommand => is_open st /\ p.1 = WCommand (CmdDisconnect a)
  | RMisbehaving => is_open st /\
      ((exists n, unkey n = a /\ (WvNode (EvSync (SyncModel.SoMisbehaved n)) ∈ announced p.2 \/ WvNode (EvCbf (CbfModel.CoMisbehaved n)) ∈ announced p.2)) \/
       ((heard_in a WVerack p \/ heard_in a WWtxidRelay p) /\ exists local l m w, st = LOpen local l (Some (m, w, true))))
  | RTimeout =>
      (is_open st /\ exists n, unkey n = a /\ WvNode (EvInv (InvModel.IoTimedOut n)) ∈ announced p.2) \/
      (p.1 = WTimer /\ (st = LDialing \/ exists local l, st = LOpen local l None \/ exists m w, st = LOpen local l (Some (m, w, false))))
  | RLimit =>
      (exists local, p.1 = WConnected a local Inbound) \/
      version (fun l m => l = Outbound /\ has_services (vm_services m) (kc_preferred kcf) = false)
  | RVersion => version (fun _ m => vm_version m < 70012)
  | RServices => version (fun l m => l = Outbound /\ has_services (vm_services m) (kc_required kcf) = false)
  | RHeight => version (fun l m => l = Outbound)
  | RSelf => version (fun _ m => exists b local h w k, link_of b log = LOpen local Outbound (Some (h, w, k)) /\ vm_nonce h = vm_nonce m)
  | ROther => version (fun _ _ => True)
  end.

(** How a connection came to be as it is: it was made, was not ended since, and
    these are the messages that got through. *)
Definition opened (magic : N) (hook : sockaddr -> wmsg -> bool) (a local : sockaddr) (lk : link) (h : option (vmsg * bool * bool)) (l : wlog) : Prop :=
  exists l1 x1 l2, l = l1 ++ (WConnected a local lk, x1) :: l2 /\ (forall r, IoDisconnect a r ∉ queued_by CPeer x1) /\ Forall (fun p => ~ cut a p) l2 /\
  match h with
  | None => Forall (fun p => forall m, ~ heard_in a (WVersion m) p) l2
  | Some (m, w, k) => exists l3 y l4, l2 = l3 ++ (WReceived a magic (WVersion m), y) :: l4 /\ hook a (WVersion m) = true /\
      Forall (fun p => forall m, ~ heard_in a (WVersion m) p) l4 /\
      (k = false -> Forall (fun p => ~ heard_in a WVerack p) l4 /\ (w = true <-> Exists (heard_in a WWtxidRelay) l4)) /\
      (k = true -> Exists (heard_in a WVerack) l4)
  end.

(** The reply to a question about peers: of these connections, each once, with
    what the peer said of itself and the time it connected. *)
Definition lists (wenv_of : nat -> wenv) (log : wlog) (ok : view -> bool -> Prop) (l : list view) : Prop :=
  NoDup (v_addr <$> l) /\
  exists since : sockaddr -> N, (forall a, is_open (link_of a log) -> shown wenv_of (since a)) /\
  forall v, v ∈ l <-> exists m w k,
    link_of (v_addr v) log = LOpen (v_local v) (v_link v) (Some (m, w, k)) /\
    v_since v = since (v_addr v) /\ v_height v = to_height (vm_height m) /\ v_services v = vm_services m /\ v_agent v = vm_agent m /\ v_relay v = vm_relay m /\
    ok v k.

(** The start of a client over an address book: hash maps behave. *)
Definition wfair (wenv_of : nat -> wenv) (am : amgr) : Prop :=
  fair_wenv wenv_of /\ (forall n l, we_order (wenv_of n) l ≡ₚ l) /\ exists e store, fair_aenv e /\ addr_new e store = Val am.

(** A step that calls for the end of a connection. *)
Definition gives_up (magic : N) (a : sockaddr) (r : reason) (p : wop * list (fitem wmsg wev)) : Prop :=
  match r with
  | RMagic => exists mg m, p.1 = WReceived a mg m /\ mg <> magic
  | RDecode => p.1 = WDrop a
  | RCommand => p.1 = WCommand (CmdDisconnect a)
  | RMisbehaving => exists n, unkey n = a /\ (WvNode (EvSync (SyncModel.SoMisbehaved n)) ∈ announced p.2 \/ WvNode (EvCbf (CbfModel.CoMisbehaved n)) ∈ announced p.2)
  | RTimeout => exists n, unkey n = a /\ WvNode (EvInv (InvModel.IoTimedOut n)) ∈ announced p.2
  | _ => False
  end.
