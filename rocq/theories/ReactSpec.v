(** What the reactor is to satisfy, in terms of what the service asked for and
    what it was told. *)
From Verif Require Import Base AddrModel PeerModel UtilModel NetModel NetSpec ReactModel.
Open Scope N_scope.

Notation rtrace := (list (rop * list note)).

(** A connection as the service sees it. *)
Inductive cstate := Closed | Dialing | Open.
Global Instance cstate_eq_dec : EqDecision cstate.
Proof. solve_decision. Defined.

(** The state of a connection after a note, whether or not it was expected. *)
Definition after_note (a : sockaddr) (c : cstate) (n : note) : cstate :=
  match n with
  | NAttempted a' => if decide (a' = a) then Dialing else c
  | NConnected a' _ => if decide (a' = a) then Open else c
  | NDisconnected a' _ => if decide (a' = a) then Closed else c
  | _ => c
  end.
Definition state_of (a : sockaddr) (t : rtrace) : cstate := foldl (after_note a) Closed (t ≫= snd).

(** Whether a note is expected in a state of the connection: it is told of an
    attempt or an incoming connection when there is none, that a connection
    succeeded when it was attempted, of bytes and of sending when it is open,
    and of the end when there is a connection, or an attempt that could not be
    started. *)
Definition expected (a : sockaddr) (c : cstate) (n : note) : Prop :=
  match n with
  | NAttempted a' => a' = a -> c = Closed
  | NConnected a' Inbound => a' = a -> c = Closed
  | NConnected a' Outbound => a' = a -> c = Dialing
  | NDisconnected a' WhyDial => a' = a -> c = Closed
  | NDisconnected a' _ => a' = a -> c <> Closed
  | NBytes a' _ | NSent a' _ => a' = a -> c = Open
  | _ => True
  end.
Fixpoint all_expected (a : sockaddr) (c : cstate) (ns : list note) : Prop :=
  match ns with
  | [] => True
  | n :: ns' => expected a c n /\ all_expected a (after_note a c n) ns'
  end.

(** There is at most one connection for an address: none is opened, or accepted,
    for an address that has one. *)
Definition fresh_op (o : rop) (t : rtrace) : Prop :=
  match o with
  | ROut _ _ (OConnect a) | RAccept a _ => state_of a t = Closed
  | _ => True
  end.
(** A socket becomes readable only together with writable or after it. *)
Definition eager_op (o : rop) (t : rtrace) : Prop :=
  match o with RReady a false w true _ => state_of a t = Dialing -> w = true | _ => True end.
(** The system does not claim to have written more than it was given. *)
Definition honest_op (o : rop) : Prop :=
  match o with RReady _ _ _ _ an => lawful_op (KFlush (an_write an) (an_flush an)) | _ => True end.
Definition each (P : rop -> rtrace -> Prop) (t : rtrace) : Prop :=
  forall p o n q, t = p ++ (o, n) :: q -> P o p.

(** What the service asked to send on the present connection, and what was
    handed to the system. What is asked after the socket became invalid does not
    count. *)
Inductive wire := NoWire | Wire (lost : bool) (asked sent : list N).
Definition wire_note (a : sockaddr) (w : wire) (n : note) : wire :=
  match n with
  | NAttempted a' | NConnected a' Inbound => if decide (a' = a) then Wire false [] [] else w
  | NDisconnected a' _ => if decide (a' = a) then NoWire else w
  | NSent a' b =>
      match w with Wire l x y => if decide (a' = a) then Wire l x (y ++ b) else w | NoWire => w end
  | _ => w
  end.
Definition wire_op (a : sockaddr) (w : wire) (o : rop) : wire :=
  match o, w with
  | ROut _ _ (OWrite a' b), Wire false x y => if decide (a' = a) then Wire false (x ++ b) y else w
  | RReady a' true _ _ _, Wire _ x y => if decide (a' = a) then Wire true x y else w
  | _, _ => w
  end.
Definition wire_of (a : sockaddr) (t : rtrace) : wire :=
  foldl (fun w e => foldl (wire_note a) (wire_op a w e.1) e.2) NoWire t.
