(** Model of the reactor (net/poll/src/reactor.rs) between the operating system
    and the service.

    The service is not represented: what it asks for are the operations
    [ROut], in any order, and what it is told are the notes. What the system
    answers are arguments of the operations. The clock is an argument of the
    operations after which it is read. Not represented: creating and binding the
    listener, channels for commands and published events (see NetModel), sockets
    below the write buffer (see [sk_flush] in NetModel). *)
From Verif Require Import Base AddrModel PeerModel UtilModel NetModel.
Open Scope N_scope.

(** A registered connection: socket.rs:12-18 [Socket], its write buffer and
    direction. *)
Record sock := Sock { so_buffer : socket; so_link : link }.

(** reactor.rs:60-69 [Reactor]. The sources ([popol::Sources], outside /repo)
    are the registered peers with whether writability is asked for; the listener
    and the waker are always registered and not represented. The same peer can
    be registered twice: [popol] does not look for duplicates. [r_ready] are the
    peers of the readiness events that are still to be handled in this round
    (reactor.rs:161, 188). *)
Record reactor := Reactor {
  r_peers : gmap sockaddr sock;
  r_connecting : gset sockaddr;
  r_sources : list (sockaddr * bool);
  r_timers : timers unit;
  r_ready : list sockaddr;
}.
Definition r_new : reactor := Reactor ∅ ∅ [] [] [].

Definition with_sources (s : reactor) (l : list (sockaddr * bool)) : reactor :=
  Reactor (r_peers s) (r_connecting s) l (r_timers s) (r_ready s).
Definition with_timers (s : reactor) (t : timers unit) : reactor :=
  Reactor (r_peers s) (r_connecting s) (r_sources s) t (r_ready s).
Definition with_ready (s : reactor) (l : list sockaddr) : reactor :=
  Reactor (r_peers s) (r_connecting s) (r_sources s) (r_timers s) l.
Definition with_socks (s : reactor) (p : gmap sockaddr sock) : reactor :=
  Reactor p (r_connecting s) (r_sources s) (r_timers s) (r_ready s).
Definition with_connecting (s : reactor) (c : gset sockaddr) : reactor :=
  Reactor (r_peers s) c (r_sources s) (r_timers s) (r_ready s).

(** [io::ErrorKind::WouldBlock] (numbers of error kinds are arbitrary). *)
Definition would_block : N := 11.

(** [popol]: register appends, unregister removes the first source with the
    key, and [get_mut] finds the first. *)
Fixpoint src_remove (a : sockaddr) (l : list (sockaddr * bool)) : list (sockaddr * bool) :=
  match l with
  | [] => []
  | x :: l' => if decide (x.1 = a) then l' else x :: src_remove a l'
  end.
Fixpoint src_set (a : sockaddr) (w : bool) (l : list (sockaddr * bool)) : list (sockaddr * bool) :=
  match l with
  | [] => []
  | x :: l' => if decide (x.1 = a) then (a, w) :: l' else x :: src_set a w l'
  end.
Definition src_has (a : sockaddr) (l : list (sockaddr * bool)) : bool := bool_decide (a ∈ l.*1).

(** Why a connection was closed, as far as the service is told. *)
Inductive why := WhyDial | WhyConnection | WhyService (r : reason).

(** What the service is told, and what is handed to the system. *)
Inductive note :=
| NTick (now : N)
| NTimer
| NAttempted (a : sockaddr)
| NConnected (a : sockaddr) (l : link)
| NDisconnected (a : sockaddr) (w : why)
| NBytes (a : sockaddr) (b : list N)
| NSent (a : sockaddr) (b : list N)
| NPublished.

(** reactor.rs:74-80 [register_peer]. *)
Definition register_peer (a : sockaddr) (l : link) (s : reactor) : reactor :=
  Reactor (<[a := Sock sk_new l]> (r_peers s)) (r_connecting s) (r_sources s ++ [(a, true)]) (r_timers s) (r_ready s).

(** reactor.rs:83-97 [unregister_peer]. *)
Definition unregister_peer (a : sockaddr) (w : why) (s : reactor) : reactor * list note :=
  (Reactor (delete a (r_peers s)) (r_connecting s ∖ {[ a ]}) (src_remove a (r_sources s)) (r_timers s) (r_ready s),
   [NDisconnected a w]).

(** The answer to [dial] (reactor.rs:456-480). *)
Inductive dialed := DialOk | DialExists | DialError.

(** What the service asks for (net/src/lib.rs [Io]); messages are bytes. *)
Inductive rout :=
| OWrite (a : sockaddr) (b : list N)
| OConnect (a : sockaddr)
| ODisconnect (a : sockaddr) (r : reason)
| OTimer (d : N)
| OEvent.

Section Model.
Context (sort : timers unit -> timers unit).

(** One round of the loop of [process] (reactor.rs:295-350). [TimeoutManager]
    has a threshold of one second (reactor.rs:111). *)
Definition process (now : N) (d : dialed) (o : rout) (s : reactor) : reactor * list note :=
  match o with
  | OWrite a b =>
      match r_peers s !! a with
      | Some so =>
          if src_has a (r_sources s) then
            (with_sources (with_socks s (<[a := Sock (sk_push (so_buffer so) b) (so_link so)]> (r_peers s)))
               (src_set a true (r_sources s)), [])
          else (s, [])
      | None => (s, [])
      end
  | OConnect a =>
      match d with
      | DialOk =>
          let s' := register_peer a Outbound s in
          (with_connecting s' ({[ a ]} ∪ r_connecting s'), [NAttempted a])
      | DialExists => (s, [])
      | DialError => (s, [NDisconnected a WhyDial])
      end
  | ODisconnect a r =>
      match r_peers s !! a with
      | Some _ => unregister_peer a (WhyService r) s
      | None => (s, [])
      end
  | OTimer t => (with_timers s (tm_register sort 1000 tt (now + t) (r_timers s)).1, [])
  | OEvent => (s, [NPublished])
  end.

(** What the system answers to the calls made for one readiness event: whether
    the local address is known ([local_address], socket.rs:22-24), the writes,
    the flush, and the read. *)
Inductive rres := ROk (b : list N) | RErr (e : N).
Record answers := Answers { an_local : bool; an_write : nat -> list N -> wres; an_flush : option N; an_read : rres }.

(** reactor.rs:406-453 [handle_writable]; [None] when it returns an error, which
    ends the reactor (reactor.rs:207). *)
Definition handle_writable (a : sockaddr) (an : answers) (s : reactor) : M (option reactor * list note) :=
  if negb (src_has a (r_sources s)) then Panic (PAssert 415)
  else match r_peers s !! a with
  | None => Panic (PAssert 416)
  | Some so =>
      let c := bool_decide (a ∈ r_connecting s) in
      let s1 := with_connecting s (r_connecting s ∖ {[ a ]}) in
      if c && negb (an_local an) then Val (None, [])
      else
        let n1 := if c then [NConnected a (so_link so)] else [] in
        '(buf, sent, e) <-- sk_flush (an_write an) (an_flush an) (so_buffer so) ;;
        let s2 := with_socks s1 (<[a := Sock buf (so_link so)]> (r_peers s1)) in
        let n2 := n1 ++ [NSent a sent] in
        match e with
        | None => Val (Some (with_sources s2 (src_set a false (r_sources s2))), n2)
        | Some e =>
            if (e =? would_block) || (e =? write_zero) then
              Val (Some (with_sources s2 (src_set a true (r_sources s2))), n2)
            else let '(s3, n3) := unregister_peer a WhyConnection s2 in Val (Some s3, n2 ++ n3)
        end
  end.

(** reactor.rs:354-403 [handle_readable]. *)
Definition handle_readable (a : sockaddr) (an : answers) (s : reactor) : reactor * list note :=
  match r_peers s !! a with
  | None => (s, [])
  | Some _ =>
      match an_read an with
      | ROk [] => unregister_peer a WhyConnection s
      | ROk b => (s, [NBytes a b])
      | RErr e => if e =? would_block then (s, []) else unregister_peer a WhyConnection s
      end
  end.

(** What can happen. [RPoll] is a return of [wait_timeout] with events for peers
    (each source at most once), [RReady] the handling of the next of them,
    [RAccept] an accepted connection, with whether it could be set up
    (reactor.rs:214-238), [RIdle] a timeout of the poll, [ROut] one output of the
    service, [RStop] an error of the poll or a shutdown. *)
Inductive rop :=
| RPoll (now : N) (ready : list sockaddr)
| RReady (a : sockaddr) (invalid writable readable : bool) (an : answers)
| RAccept (a : sockaddr) (ok : bool)
| RIdle (now : N)
| ROut (now : N) (d : dialed) (o : rout)
| RStop.

(** The result of an operation: it cannot happen now, the reactor ends, or it
    goes on. *)
Inductive outcome := Skipped | Ended (n : list note) | Goes (s : reactor) (n : list note).

(** reactor.rs:165-273, 158. The loop handles all events before it polls again
    or takes outputs of the service. *)
Definition rstep (o : rop) (s : reactor) : M outcome :=
  match o with
  | RPoll now ready =>
      match r_ready s with
      | [] => if decide (ready ⊆+ (r_sources s).*1) then Val (Goes (with_ready s ready) [NTick now]) else Val Skipped
      | _ => Val Skipped
      end
  | RReady a invalid writable readable an =>
      match r_ready s with
      | [] => Val Skipped
      | a' :: rest =>
          if negb (bool_decide (a' = a)) then Val Skipped
          else
            let s0 := with_ready s rest in
            if invalid then Val (Goes (with_sources s0 (src_remove a (r_sources s0))) [])
            else
              '(s1, n1) <-- (if writable then handle_writable a an s0 else Val (Some s0, [])) ;;
              match s1 with
              | None => Val (Ended n1)
              | Some s1 =>
                  if readable then let '(s2, n2) := handle_readable a an s1 in Val (Goes s2 (n1 ++ n2))
                  else Val (Goes s1 n1)
              end
      end
  | RAccept a ok =>
      if ok then Val (Goes (register_peer a Inbound s) [NConnected a Inbound])
      else Val (Ended [])
  | RIdle now =>
      match r_ready s with
      | [] =>
          let '(ts, woken) := tm_wake now (r_timers s) in
          Val (Goes (with_timers s ts) (NTick now :: match woken with [] => [] | _ :: _ => [NTimer] end))
      | _ => Val Skipped
      end
  | ROut now d o =>
      match r_ready s with
      | [] => let '(s', n) := process now d o s in Val (Goes s' n)
      | _ => Val Skipped
      end
  | RStop => Val (Ended [])
  end.

(** A run, with what was told at each operation; [None] when it has ended. *)
Fixpoint rrun (os : list rop) (s : reactor) : M (option reactor * list (rop * list note)) :=
  match os with
  | [] => Val (Some s, [])
  | o :: os' =>
      r <-- rstep o s ;;
      match r with
      | Skipped => rrun os' s
      | Ended n => Val (None, [(o, n)])
      | Goes s1 n => '(s2, t) <-- rrun os' s1 ;; Val (s2, (o, n) :: t)
      end
  end.
End Model.
