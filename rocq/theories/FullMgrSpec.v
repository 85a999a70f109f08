(** What the inputs and events of the whole state machine are for the peer,
    address and ping managers. *)
From Verif Require Import Base UtilModel FeeModel BlockModel AddrModel AddrSpec PeerModel PeerSpec PingModel DispModel DispSpec LoadModel NodeModel FullModel FullSpec.
From Verif Require SyncModel CbfModel InvModel PingSpec.
Open Scope N_scope.

(** Calls of the three managers; of those of the ping manager without the time
    and the nonces. *)
Inductive pcall := PcNegotiated (a : sockaddr) | PcDisconnected (a : sockaddr) | PcPing (a : sockaddr) (nonce : N) | PcPong (a : sockaddr) (nonce : N) | PcTimer.
Inductive mcall := ToPeer (o : kop) | ToAddr (o : addr_op) | ToPing (o : pcall).

(** What is made of a message. *)
Definition message_calls (a : sockaddr) (m : wmsg) : list mcall :=
  match m with
  | WVersion v => [ToAddr (AMessage a); ToPeer (KMessage a (MVersion v))]
  | WVerack => [ToAddr (AMessage a); ToPeer (KMessage a MVerack)]
  | WWtxidRelay => [ToAddr (AMessage a); ToPeer (KMessage a MWtxidRelay)]
  | WAddr l => [ToAddr (AAddr a l); ToPeer (KMessage a MOther)]
  | WGetAddr => [ToAddr (AGetAddr a); ToPeer (KMessage a MOther)]
  | WPing n => [ToPing (PcPing a n); ToAddr (AMessage a); ToPeer (KMessage a MOther)]
  | WPong n => [ToPing (PcPong a n); ToAddr (AMessage a); ToPeer (KMessage a MOther)]
  | WNode _ | WSendHeaders | WOther _ => [ToAddr (AMessage a); ToPeer (KMessage a MOther)]
  end.
(** What is made of an event. *)
Definition event_calls (e : wev) : list mcall :=
  match e with
  | WvMessage a m => message_calls a m
  | WvPeer (KoConnected a _ _) => [ToAddr (AConnected a)]
  | WvPeer (KoConnecting a _ _) => [ToAddr (AConnecting a)]
  | WvPeer (KoNegotiated a l sv _ _ rc _ _ _ _) => [ToPing (PcNegotiated a); ToAddr (ANegotiated a sv (is_outbound l) rc)]
  | WvPeer (KoDisconnected a r) => [ToPing (PcDisconnected a); ToAddr (ADisconnected a r)]
  | WvNode (EvInv (InvModel.IoTimedOut a)) => [ToPeer (KDrop (unkey a) RTimeout)]
  | WvNode (EvSync (SyncModel.SoMisbehaved a)) => [ToPeer (KDrop (unkey a) RMisbehaving)]
  | WvNode (EvCbf (CbfModel.CoMisbehaved a)) => [ToPeer (KDrop (unkey a) RMisbehaving)]
  | _ => []
  end.
(** What is made of an input. *)
Definition input_calls (magic : N) (o : wop) : list mcall :=
  match o with
  | WInitialize => [ToAddr AInitialize; ToPeer KInit]
  | WReceived a mg _ => if mg =? magic then [] else [ToPeer (KDrop a RMagic)]
  | WConnected a local l => [ToPeer (KConnected a local l)]
  | WDisconnected a r => [ToPeer (KDisconnected a r)]
  | WDrop a => [ToPeer (KDrop a RDecode)]
  | WTimer => [ToPing PcTimer; ToAddr ATimer; ToPeer KTimer]
  | WCommand (CmdConnect a) => [ToPeer (KConnect a)]
  | WCommand (CmdDisconnect a) => [ToPeer (KDrop a RCommand)]
  | WCommand (CmdImportAddresses l) => [ToAddr (AInsert (map (fun a => (0, a)) l) FromImport)]
  | WCommand _ | WNext => []
  end.
Definition calls_of (magic : N) (o : wop) (x : list (fitem wmsg wev)) : list mcall := input_calls magic o ++ flat_map event_calls (announced x).

(** Calls as the models of the managers have them. The peer manager has those of
    the address manager among its own, the address manager the draws of the peer
    manager. *)
Definition of_peer (o : kop) : mcall := match o with KAddr o _ => ToAddr o | o => ToPeer o end.
Definition not_ping (c : mcall) : option mcall := match c with ToPing _ => None | c => Some c end.
Definition of_addr (o : addr_op) : option mcall := match o with ASample _ => None | o => Some (ToAddr o) end.
Definition only_addr (c : mcall) : option mcall := match c with ToAddr o => Some c | _ => None end.
Definition of_ping (o : ping_op) : mcall :=
  ToPing match o with
         | PingModel.PNegotiated _ a _ => PcNegotiated (unkey a)
         | PingModel.PDisconnected a => PcDisconnected (unkey a)
         | PPing a n => PcPing (unkey a) n
         | PPong _ a n => PcPong (unkey a) n
         | PTimer _ _ _ => PcTimer
         end.
Definition only_ping (c : mcall) : option mcall := match c with ToPing _ => Some c | _ => None end.

(** The environments of a stretch of calls: the clock was read during it. *)
Section Did.
Context (kcf : kconf) (acf : aconf) (ping_timeout : N) (wenv_of : nat -> wenv).
Definition read (s s' : full) (t : N) : Prop := exists n, (w_calls s <= n < w_calls s')%nat /\ t = ke_now (we_peer (wenv_of n)).
Definition read_addr (s s' : full) (t : N) : Prop := exists n, (w_calls s <= n < w_calls s')%nat /\ t = ae_now (we_addr (wenv_of n)).

(** The managers went from one state to another with these calls, and this is
    what they queued. *)
Definition peer_did (cs : list mcall) (s s' : full) (out : list (io wmsg wev)) (tr : ktrace) : Prop :=
  (exists kos, krun kcf acf kos (w_peer s, w_addr s) = Val (w_peer s', w_addr s', tr) /\ Forall fair_kop kos) /\
  (fun t => of_peer t.1.1) <$> tr = omap not_ping cs /\
  Forall (fun t => read s s' t.1.2) tr /\
  out = snd <$> flat_map (fun t => flat_map peer_io t.2) tr.
Definition addr_did (cs : list mcall) (s s' : full) (out : list (io wmsg wev)) (aos : list (addr_op * aenv)) : Prop :=
  exists axs, addr_run acf aos (w_addr s) = Val (w_addr s', axs) /\ fair_aenvs aos /\
  omap (fun oe => of_addr oe.1) aos = omap only_addr cs /\
  Forall (fun oe => is_Some (of_addr oe.1) -> read_addr s s' (ae_now oe.2)) aos /\
  out = snd <$> flat_map (fun x => flat_map addr_io x) axs.
Definition ping_did (cs : list mcall) (s s' : full) (out : list (io wmsg wev)) (pos : list ping_op) : Prop :=
  exists pxs, PingSpec.ping_run ping_timeout pos (w_ping s) = (w_ping s', pxs) /\ Forall PingSpec.fair_order pos /\
  of_ping <$> pos = omap only_ping cs /\
  Forall (fun o => match o with PingModel.PNegotiated t _ _ | PPong t _ _ | PTimer t _ _ => read s s' t | _ => True end) pos /\
  out = snd <$> flat_map (fun x => flat_map ping_io x) pxs.
End Did.

(** The log of a run: inputs with what happened. *)
Notation wlog := (list (wop * list (fitem wmsg wev))).
Section Steps.
Context (step : wop -> wstate -> M (wstate * list (fitem wmsg wev))).
Inductive logged : wstate -> wlog -> wstate -> Prop :=
| logged_nil s : logged s [] s
| logged_snoc s l s1 o x s2 : logged s l s1 -> step o s1 = Val (s2, x) -> logged s (l ++ [(o, x)]) s2.
End Steps.
Definition log_calls (magic : N) (l : wlog) : list mcall := flat_map (fun p => calls_of magic p.1 p.2) l.
Definition log_queued (c : comp) (l : wlog) : list (io wmsg wev) := flat_map (fun p => queued_by c p.2) l.

(** A part of the history of a manager belongs to a step of the run: the calls
    are those of the step, and what the manager put out was queued in it. *)
Definition called (tr : ktrace) : list mcall := (fun t => of_peer t.1.1) <$> tr.
Definition put_peer (tr : ktrace) : list (io wmsg wev) := snd <$> flat_map (fun t => flat_map peer_io t.2) tr.
Definition peer_part (magic : N) (p : wop * list (fitem wmsg wev)) (tr : ktrace) : Prop :=
  called tr = omap not_ping (calls_of magic p.1 p.2) /\ queued_by CPeer p.2 = put_peer tr.
Definition put_addr (axs : list (list aout)) : list (io wmsg wev) := snd <$> flat_map (fun x => flat_map addr_io x) axs.
Definition addr_part (magic : N) (p : wop * list (fitem wmsg wev)) (h : list (addr_op * aenv) * list (list aout)) : Prop :=
  omap (fun oe => of_addr oe.1) h.1 = omap only_addr (calls_of magic p.1 p.2) /\ length h.1 = length h.2 /\ queued_by CAddr p.2 = put_addr h.2.
Definition put_ping (pxs : list (list pout)) : list (io wmsg wev) := snd <$> flat_map (fun x => flat_map ping_io x) pxs.
Definition ping_part (magic : N) (p : wop * list (fitem wmsg wev)) (h : list ping_op * list (list pout)) : Prop :=
  of_ping <$> h.1 = omap only_ping (calls_of magic p.1 p.2) /\ length h.1 = length h.2 /\ queued_by CPing p.2 = put_ping h.2.
(** A reading of the clock. *)
Definition shown (wenv_of : nat -> wenv) (t : N) : Prop := exists n, t = ke_now (we_peer (wenv_of n)).
