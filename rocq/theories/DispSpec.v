(** What the dispatch of outputs, events and messages is to satisfy, in terms
    of what was queued, emitted and received. *)
From Verif Require Import Base AddrModel UtilModel DispModel.
Open Scope N_scope.

(** What a component queued and what was emitted for it, in order. *)
Definition queued_by {Msg Ev} (c : comp) (t : list (fitem Msg Ev)) : list (io Msg Ev) :=
  flat_map (fun i => match i with FQueued c' x => if decide (c' = c) then [x] else [] | _ => [] end) t.
Definition emitted_by {Msg Ev} (c : comp) (t : list (fitem Msg Ev)) : list (io (N * Msg) Ev) :=
  flat_map (fun i => match i with FEmitted c' x => if decide (c' = c) then [x] else [] | _ => [] end) t.

(** The events that were emitted or passed on internally, in order. *)
Definition announced {Msg Ev} (t : list (fitem Msg Ev)) : list Ev :=
  flat_map (fun i => match i with FEmitted _ (IoEvent e) => [e] | FPassed e => [e] | _ => [] end) t.

(** An output as it goes to the network: messages carry the magic number. *)
Definition wired {Msg Ev} (magic : N) (x : io Msg Ev) : io (N * Msg) Ev :=
  match x with
  | IoWrite a m => IoWrite a (magic, m)
  | IoConnect a => IoConnect a
  | IoDisconnect a r => IoDisconnect a r
  | IoTimer d => IoTimer d
  | IoEvent e => IoEvent e
  end.

(** The managers, except that they keep a diary of the events they get. *)
Definition with_diary {St Msg Ev} (h : comp -> Ev -> St -> M (St * list (comp * io Msg Ev)))
    (c : comp) (e : Ev) (s : St * list (comp * Ev)) : M (St * list (comp * Ev) * list (comp * io Msg Ev)) :=
  match h c e s.1 with
  | Val (st, l) => Val (st, s.2 ++ [(c, e)], l)
  | Panic p => Panic p
  end.
(** The same inputs. *)
Definition with_diary_op {St Msg Ev} (o : fop St Msg Ev) : fop (St * list (comp * Ev)) Msg Ev :=
  match o with
  | FInput f => FInput (fun s => match f s.1 with Val (st, l) => Val (st, s.2, l) | Panic p => Panic p end)
  | FInternal e => FInternal e
  | FNext => FNext
  end.

(** ** The service *)

(** The bytes read from a peer, the messages handed on for it and the decoding
    errors found. *)
Definition chunks_of (a : sockaddr) (os : list sop) : list (list N) :=
  flat_map (fun o => match o with SBytes a' b => if decide (a' = a) then [b] else [] | _ => [] end) os.
Definition messages_of {Msg} (a : sockaddr) (cs : list (call (Msg:=Msg))) : list Msg :=
  flat_map (fun c => match c with CallMessage a' m => if decide (a' = a) then [m] else [] | _ => [] end) cs.
Definition decode_error {Msg} (a : sockaddr) (cs : list (call (Msg:=Msg))) : Prop := CallDecodeError a ∈ cs.
(** The connection to a peer is neither opened nor closed. *)
Definition steady (a : sockaddr) (os : list sop) : Prop := SConnected a ∉ os /\ SDisconnected a ∉ os.
