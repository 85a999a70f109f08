(** Model of the socket write buffer (net/poll/src/socket.rs) and of the
    event channels (net/src/event.rs). *)
From Verif Require Import Base.
Open Scope N_scope.

(** ** Socket *)

(** What the system answers to one [write] call on a non-blocking stream
    ([io::Result<usize>]); error kinds are numbers. *)
Inductive wres := WErr (e : N) | WOk (n : N).

(** [io::ErrorKind::WriteZero] (the error made by socket.rs:57). *)
Definition write_zero : N := 0.

(** socket.rs:12-18 [Socket]: the write buffer. The address, the link and the
    stream itself are not represented: what the stream accepted is the second
    component of [sk_flush]. *)
Definition socket := list N.

(** socket.rs:34-41 [Socket::from]: an empty buffer. *)
Definition sk_new : socket := [].

(** socket.rs:47-49 [Socket::push]. *)
Definition sk_push (s : socket) (bytes : list N) : socket := s ++ bytes.

(** socket.rs:54-63, the [while] loop of [Socket::flush]: [env k b] is the
    answer to the [k]-th [write] call, made with the buffer [b]. Returns the buffer, the bytes the stream
    accepted and the error, if any. [Vec::drain] panics when the stream claims
    to have written more than it was given (line 59). The loop has as many
    rounds as bytes at most; running out of [fuel] is reported as divergence. *)
Fixpoint sk_loop (fuel : nat) (env : nat -> list N -> wres) (k : nat) (s : socket)
    : M (socket * list N * option N) :=
  match s with
  | [] => Val ([], [], None)
  | _ :: _ =>
      match fuel with
      | O => Panic (PDiverge 54)
      | S fuel' =>
          match env k s with
          | WErr e => Val (s, [], Some e)
          | WOk n =>
              if n =? 0 then Val (s, [], Some write_zero)
              else if lenN s <? n then Panic (PIndex 59)
              else
                '(s', w, e) <-- sk_loop fuel' env (S k) (drop (N.to_nat n) s) ;;
                Val (s', take (N.to_nat n) s ++ w, e)
          end
      end
  end.

(** socket.rs:51-66 [Socket::flush]; [fin] is the answer of the final
    [raw.flush()] (line 65). The [fallible!] macro (line 52) is only present in
    test builds. *)
Definition sk_flush (env : nat -> list N -> wres) (fin : option N) (s : socket)
    : M (socket * list N * option N) :=
  '(s', w, e) <-- sk_loop (length s) env 0 s ;;
  match e with
  | Some _ => Val (s', w, e)
  | None => Val (s', w, fin)
  end.

(** The calls the reactor makes on a socket. *)
Inductive sk_op :=
| KPush (bytes : list N)
| KFlush (env : nat -> list N -> wres) (fin : option N).

(** One call: the new buffer, the bytes accepted by the stream and, for
    [flush], the result. *)
Definition sk_step (s : socket) (o : sk_op) : M (socket * list N * option (option N)) :=
  match o with
  | KPush bytes => Val (sk_push s bytes, [], None)
  | KFlush env fin => '(s', w, e) <-- sk_flush env fin s ;; Val (s', w, Some e)
  end.

Fixpoint sk_run (s : socket) (os : list sk_op) : M (socket * list N) :=
  match os with
  | [] => Val (s, [])
  | o :: os' =>
      '(s', w, _) <-- sk_step s o ;;
      '(s'', w') <-- sk_run s' os' ;;
      Val (s'', w ++ w')
  end.

(** ** Events *)

Section Events.
Context {T : Type}.

(** One crossbeam channel made by [chan::unbounded]: whether the receiver still
    exists, and the messages it has not taken yet. *)
Record chanst := { ch_live : bool; ch_queue : list T }.

(** event.rs:29-31 [Emitter]: the senders, named by the order in which
    [subscribe] created them, and all channels ever created ([nth i] is channel
    [i]). A sender and its channel are kept apart because a receiver outlives its
    sender. The lock makes each call atomic and is not modelled. *)
Record emitter := { em_subs : list nat; em_chans : list chanst }.

Definition em_new : emitter := {| em_subs := []; em_chans := [] |}.

(** [Sender::try_send] on an unbounded channel: fails exactly when the receiver
    is gone. *)
Definition try_send (i : nat) (e : T) (cs : list chanst) : list chanst * bool :=
  match cs !! i with
  | Some c =>
      if ch_live c
      then (<[i := {| ch_live := true; ch_queue := ch_queue c ++ [e] |}]> cs, true)
      else (cs, false)
  | None => (cs, false)
  end.

(** event.rs:43-48 [Emitter::emit]: [Vec::retain] visits the senders in order
    and keeps those that could send. *)
Fixpoint em_retain (e : T) (subs : list nat) (cs : list chanst) : list nat * list chanst :=
  match subs with
  | [] => ([], cs)
  | i :: subs' =>
      let '(cs', ok) := try_send i e cs in
      let '(subs'', cs'') := em_retain e subs' cs' in
      (if ok then i :: subs'' else subs'', cs'')
  end.

Definition em_emit (s : emitter) (e : T) : emitter :=
  let '(subs, cs) := em_retain e (em_subs s) (em_chans s) in
  {| em_subs := subs; em_chans := cs |}.

(** event.rs:51-53 [Emitter::close]. *)
Definition em_close (s : emitter) : emitter := {| em_subs := []; em_chans := em_chans s |}.

(** event.rs:71-77 [Subscriber::subscribe]: the new receiver. *)
Definition em_subscribe (s : emitter) : emitter * nat :=
  ({| em_subs := em_subs s ++ [length (em_chans s)];
      em_chans := em_chans s ++ [{| ch_live := true; ch_queue := [] |}] |},
   length (em_chans s)).

(** Dropping a receiver discards what it has not taken. *)
Definition em_drop (s : emitter) (i : nat) : emitter :=
  {| em_subs := em_subs s;
     em_chans := alter (fun _ => {| ch_live := false; ch_queue := [] |}) i (em_chans s) |}.

(** [Receiver::try_recv] on a live receiver. *)
Definition em_recv (s : emitter) (i : nat) : emitter * option T :=
  match em_chans s !! i with
  | Some {| ch_live := true; ch_queue := e :: q |} =>
      ({| em_subs := em_subs s;
          em_chans := <[i := {| ch_live := true; ch_queue := q |}]> (em_chans s) |}, Some e)
  | _ => (s, None)
  end.

Inductive em_op :=
| ESubscribe
| EEmit (e : T)
| EClose
| EDrop (i : nat)
| ERecv (i : nat).
Inductive em_out := OSubscribed (i : nat) | OReceived (i : nat) (e : option T) | ONone.

Definition em_step (s : emitter) (o : em_op) : emitter * em_out :=
  match o with
  | ESubscribe => let '(s', i) := em_subscribe s in (s', OSubscribed i)
  | EEmit e => (em_emit s e, ONone)
  | EClose => (em_close s, ONone)
  | EDrop i => (em_drop s i, ONone)
  | ERecv i => let '(s', e) := em_recv s i in (s', OReceived i e)
  end.

Fixpoint em_run (s : emitter) (os : list em_op) : emitter * list em_out :=
  match os with
  | [] => (s, [])
  | o :: os' =>
      let '(s', r) := em_step s o in
      let '(s'', rs) := em_run s' os' in
      (s'', r :: rs)
  end.
End Events.
Arguments chanst : clear implicits.
Arguments emitter : clear implicits.
Arguments em_op : clear implicits.
Arguments em_out : clear implicits.

(** event.rs:13-25, 133-138 [Broadcast]: publishing hands the event to the
    [forward] closure, which emits zero or more events. The closures used by the
    client (client.rs:201-219) keep no state; [forward] maps an event to what it
    emits. *)
Definition bc_publish {E T} (forward : E -> list T) (s : emitter T) (e : E) : emitter T :=
  fold_left em_emit (forward e) s.

(** event.rs:96-129 [wait]: [recv k] is the result of the [k]-th
    [recv_timeout]; [None] stands for the deadline having passed before the
    [k]-th call. *)
Inductive recv_res (E : Type) := RGot (e : E) | RTimeout | RDisconnected.
Arguments RGot {E} e. Arguments RTimeout {E}. Arguments RDisconnected {E}.
Inductive wait_err := ETimeout | EDisconnected.
Fixpoint ev_wait {E T} (recvs : list (recv_res E)) (f : E -> option T) : result T wait_err :=
  match recvs with
  | [] => Err ETimeout
  | RDisconnected :: _ => Err EDisconnected
  | RTimeout :: rs => ev_wait rs f
  | RGot e :: rs => match f e with Some t => Ok t | None => ev_wait rs f end
  end.
