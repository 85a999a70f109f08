(** Model of the state machine that joins the managers (p2p/src/fsm.rs and
    p2p/src/fsm/output.rs): their outboxes, the order in which outputs are
    taken from them, how events reach the managers and which messages are let
    through; and of the service around it (client/src/service.rs).

    Each manager is modelled in a file of its own. Here their states together
    are one value of any type, and what they do with an event is an argument:
    a function that gives a new state and what is queued, with the component in
    whose outbox it is queued (the compact filter manager also queues in the
    outbox of the inventory manager). *)
From Verif Require Import Base AddrModel PeerModel UtilModel.
Open Scope N_scope.

(** p2p/src/fsm.rs:334-360: the components that have an outbox; [CMain] is the
    one of the state machine itself. *)
Inductive comp := CMain | CPeer | CSync | CInv | CPing | CAddr | CCbf.
Global Instance comp_eq_dec : EqDecision comp.
Proof. solve_decision. Defined.

(** net/src/lib.rs [Io], p2p/src/fsm/output.rs:27. *)
Inductive io (Msg Ev : Type) :=
| IoWrite (a : sockaddr) (m : Msg)
| IoConnect (a : sockaddr)
| IoDisconnect (a : sockaddr) (r : reason)
| IoTimer (d : N)
| IoEvent (e : Ev).
Arguments IoWrite {Msg Ev} a m.
Arguments IoConnect {Msg Ev} a.
Arguments IoDisconnect {Msg Ev} a r.
Arguments IoTimer {Msg Ev} d.
Arguments IoEvent {Msg Ev} e.

Section Dispatch.
Context {St Msg Ev : Type}.
Notation io := (io Msg Ev).
(** bitcoin [RawNetworkMessage]: magic and payload; fsm.rs:76 [Io]. *)
Notation raw := (N * Msg)%type.
Notation xio := (DispModel.io raw Ev).

(** The states of the managers and their outboxes, each a queue
    (output.rs:37-42). *)
Record fsm := Fsm { f_state : St; f_box : comp -> list io }.

(** output.rs:69-71 [push], for a list of outputs. *)
Fixpoint queue (l : list (comp * io)) (b : comp -> list io) : comp -> list io :=
  match l with
  | [] => b
  | (c, x) :: l' => queue l' (fun c' => if decide (c = c') then b c' ++ [x] else b c')
  end.

(** What a manager does with an event. *)
Context (on_event : comp -> Ev -> St -> M (St * list (comp * io))).
(** The magic number of the network. *)
Context (magic : N).

(** fsm.rs:625-633 [event]: the managers in the order they are given the event.
    Also gives what was queued. *)
Definition receivers : list comp := [CCbf; CPing; CInv; CSync; CAddr; CPeer].
Fixpoint deliver (cs : list comp) (e : Ev) (s : fsm) : M (fsm * list (comp * io)) :=
  match cs with
  | [] => Val (s, [])
  | c :: cs' =>
      '(st, l) <-- on_event c e (f_state s) ;;
      '(s', l') <-- deliver cs' e (Fsm st (queue l (f_box s))) ;;
      Val (s', l ++ l')
  end.
Definition event : Ev -> fsm -> M (fsm * list (comp * io)) := deliver receivers.

(** fsm.rs:589-596: the outboxes in the order they are tried; output.rs:54-56:
    the first output of a queue. *)
Definition sources : list comp := [CMain; CPeer; CSync; CInv; CPing; CAddr; CCbf].
Fixpoint take_first (cs : list comp) (b : comp -> list io) : option (comp * io * (comp -> list io)) :=
  match cs with
  | [] => None
  | c :: cs' =>
      match b c with
      | x :: rest => Some (c, x, fun c' => if decide (c = c') then rest else b c')
      | [] => take_first cs' b
      end
  end.

(** fsm.rs:597-609: messages get the magic number of the network. *)
Definition stamp (x : io) : xio :=
  match x with
  | IoWrite a m => IoWrite a (magic, m)
  | IoConnect a => IoConnect a
  | IoDisconnect a r => IoDisconnect a r
  | IoTimer d => IoTimer d
  | IoEvent e => IoEvent e
  end.

(** fsm.rs:588-619 [next]. The component is given along with the output for the
    statements; also gives what was queued. *)
Definition next (s : fsm) : M (fsm * list (comp * io) * option (comp * xio)) :=
  match take_first sources (f_box s) with
  | None => Val (s, [], None)
  | Some (c, x, b) =>
      let s' := Fsm (f_state s) b in
      match stamp x with
      | IoEvent e => '(s'', l) <-- event e s' ;; Val (s'', l, Some (c, IoEvent e))
      | y => Val (s', [], Some (c, y))
      end
  end.

(** A run: any input that makes managers queue something (fsm.rs:752-763, 801-836 and
    the commands, 636-740), an event that is only passed on internally (795-798),
    or taking an output. *)
Inductive fop :=
| FInput (f : St -> M (St * list (comp * io)))
| FInternal (e : Ev)
| FNext.

(** What happened: queued, emitted, or passed on internally. *)
Inductive fitem :=
| FQueued (c : comp) (x : io)
| FEmitted (c : comp) (x : xio)
| FPassed (e : Ev).

Definition fqueued (l : list (comp * io)) : list fitem := map (fun p => FQueued p.1 p.2) l.

Definition fstep (o : fop) (s : fsm) : M (fsm * list fitem) :=
  match o with
  | FInput f => '(st, l) <-- f (f_state s) ;; Val (Fsm st (queue l (f_box s)), fqueued l)
  | FInternal e => '(s', l) <-- event e s ;; Val (s', fqueued l ++ [FPassed e])
  | FNext =>
      '(s', l, x) <-- next s ;;
      Val (s', fqueued l ++ match x with Some (c, y) => [FEmitted c y] | None => [] end)
  end.
Fixpoint frun (os : list fop) (s : fsm) : M (fsm * list fitem) :=
  match os with
  | [] => Val (s, [])
  | o :: os' => '(s', t) <-- fstep o s ;; '(s'', t') <-- frun os' s' ;; Val (s'', t ++ t')
  end.
End Dispatch.
Arguments fsm : clear implicits.
Arguments fop : clear implicits.
Arguments fitem : clear implicits.

(** ** Received messages *)

Section Message.
Context {Rest Msg Ev : Type}.
(** The peer manager and the states of the other managers. *)
Notation St := (pmgr * Rest)%type.
Notation io := (DispModel.io Msg Ev).

(** The outputs of [PeerModel.disconnect] as entries of the outbox of the peer
    manager; it has no others. *)
Definition as_io (o : kout) : list (comp * io) :=
  match o with
  | KoDisconnect a r => [(CPeer, IoDisconnect a r)]
  | _ => []
  end.

Context (on_event : comp -> Ev -> St -> M (St * list (comp * io))).
Context (magic : N).
(** fsm.rs:784 [on_message] of the user, which can only accept or drop the
    message (it gets the outbox by shared reference), and fsm.rs:795 the event
    [MessageReceived]. *)
Context (hook : sockaddr -> Msg -> bool).
Context (received : sockaddr -> Msg -> Ev).

(** fsm.rs:766-799 [message_received]. *)
Definition message_received (a : sockaddr) (m : N * Msg) (s : fsm St Msg Ev) : M (fsm St Msg Ev) :=
  if negb (m.1 =? magic) then
    let '(p, outs) := disconnect a RMagic (f_state s).1 in
    Val (Fsm (p, (f_state s).2) (queue (flat_map as_io outs) (f_box s)))
  else if negb (connected_at (f_state s).1 a) then Val s
  else if negb (hook a m.2) then Val s
  else '(s', _) <-- event on_event (received a m.2) s ;; Val s'.
End Message.

(** ** The service *)

Section Service.
Context {Msg : Type}.
Context (parse : list N -> parsed Msg).

(** What the reactor tells the service about a peer. *)
Inductive sop :=
| SBytes (a : sockaddr) (b : list N)
| SConnected (a : sockaddr)
| SDisconnected (a : sockaddr).

(** Calls of the state machine. *)
Inductive call :=
| CallMessage (a : sockaddr) (m : Msg)
| CallDecodeError (a : sockaddr)
| CallConnected (a : sockaddr)
| CallDisconnected (a : sockaddr).

(** service.rs:20 [inboxes]: the undecoded bytes of each peer. *)
Notation inboxes := (gmap sockaddr (list N)).

(** service.rs:98-122 [message_received], 126-129 [connected] (a new decoder
    each time), 131-134 [disconnected]. Running out of fuel is explicit. *)
Definition sstep (o : sop) (s : inboxes) : M (inboxes * list call) :=
  match o with
  | SBytes a b =>
      match s !! a with
      | Some buf =>
          match bytes_received parse buf b with
          | Some (buf', ms, e) =>
              Val (<[a := buf']> s, map (CallMessage a) ms ++ (if e then [CallDecodeError a] else []))
          | None => Panic (PDiverge 102)
          end
      | None => Val (s, [])
      end
  | SConnected a => Val (<[a := []]> s, [CallConnected a])
  | SDisconnected a => Val (delete a s, [CallDisconnected a])
  end.
Fixpoint srun (os : list sop) (s : inboxes) : M (inboxes * list call) :=
  match os with
  | [] => Val (s, [])
  | o :: os' => '(s', c) <-- sstep o s ;; '(s'', c') <-- srun os' s' ;; Val (s'', c ++ c')
  end.
End Service.
