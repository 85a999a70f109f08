(** Property theorems about sockets (C56) and event channels (C59), each
    followed by a concrete case. *)
From Verif Require Import Base NetModel NetSpec NetProofs.
Open Scope N_scope.

(** ** C56 *)

(** Whatever the stream answers, what it accepted so far followed by what is
    still buffered is exactly what was pushed. *)
Theorem C56_in_order os s w : sk_run sk_new os = Val (s, w) -> w ++ s = pushed os.
Proof. intros R. exact (sk_run_any os sk_new s w R). Qed.
Print Assumptions C56_in_order.

(** One flush: what it writes is a prefix of the buffer and the rest stays
    buffered; it can only succeed by emptying the buffer, and when the buffer
    is emptied its result is that of flushing the stream. *)
Theorem C56_flush env fin s s' w e : sk_flush env fin s = Val (s', w, e) ->
  w ++ s' = s /\ (s' = [] -> e = fin) /\ (s' <> [] -> e <> None).
Proof. exact (sk_flush_any env fin s s' w e). Qed.
Print Assumptions C56_flush.

(** With a stream that never claims more than it was given, nothing panics or
    loops. *)
Theorem C56_no_panic os s : Forall lawful_op os -> exists s' w, sk_run s os = Val (s', w).
Proof. intros L. exact (sk_run_ok os L s). Qed.
Print Assumptions C56_no_panic.

(** Three flushes: one byte and then an error, zero bytes, everything in two
    writes. *)
Example C56_case :
  let e1 := fun k (b : list N) => match k with O => WOk 1 | _ => WErr 11 end in
  let e2 := fun (k : nat) (b : list N) => WOk 0 in
  let e3 := fun k b => match k with O => WOk 2 | _ => WOk (lenN b) end in
  sk_run sk_new [KPush [7; 8]; KFlush e1 None; KPush [9; 10; 11]; KFlush e2 None] = Val ([8; 9; 10; 11], [7]) /\
  sk_run sk_new [KPush [7; 8]; KFlush e1 None; KPush [9; 10; 11]; KFlush e2 None; KFlush e3 None; KPush [3]]
  = Val ([3], [7; 8; 9; 10; 11]) /\
  sk_flush e1 None [7; 8] = Val ([8], [7], Some 11) /\
  sk_flush e2 None [7; 8] = Val ([7; 8], [], Some write_zero) /\
  sk_flush e3 (Some 5) [7; 8; 9] = Val ([], [7; 8; 9], Some 5) /\
  lawful_op (KFlush (fun k b => WOk (lenN b / 2)) None).
Proof.
  repeat split. intros k b n [= <-]. apply N.div_le_upper_bound; lia.
Qed.

(** A stream that lies about how much it wrote makes [Vec::drain] panic. *)
Example C56_lying_stream : sk_flush (fun _ _ => WOk 3) None [7; 8] = Panic (PIndex 59).
Proof. reflexivity. Qed.

(** ** C59 *)

(** Every receiver takes the events emitted after it subscribed, in order:
    what it took is a prefix of them, and unless it is dropped the rest is
    waiting for it. Nothing other subscribers do matters. *)
Theorem C59_delivered {T} i (os : list (em_op T)) s rs : em_run em_new os = (s, rs) ->
  exists rest, taken i rs ++ rest = sent i Unborn os rs /\ (EDrop i ∉ os -> rest = waiting i s).
Proof. exact (em_delivered i os s rs). Qed.
Print Assumptions C59_delivered.

(** Every subscription gets a channel of its own. *)
Theorem C59_fresh {T} (os : list (em_op T)) s rs : em_run em_new os = (s, rs) -> NoDup (subscribed rs).
Proof. intros R. rewrite (subscribed_seq os _ _ _ R). apply NoDup_seq. Qed.
Print Assumptions C59_fresh.

(** Waiting for an event returns the first one accepted. *)
Theorem C59_wait {E T} (f : E -> option T) rs t : ev_wait rs f = Ok t <->
  exists a e b, rs = a ++ RGot e :: b /\ f e = Some t /\
    Forall (fun r => match r with RGot x => f x = None | RTimeout => True | RDisconnected => False end) a.
Proof. exact (ev_wait_first f rs t). Qed.
Print Assumptions C59_wait.
(** Without one, it tells whether the emitter has gone or time is up. *)
Theorem C59_wait_error {E T} (f : E -> option T) rs :
  (ev_wait rs f = Err EDisconnected <-> exists a b, rs = a ++ RDisconnected :: b /\ Forall (fun r => match r with RGot x => f x = None | RTimeout => True | RDisconnected => False end) a) /\
  (ev_wait rs f = Err ETimeout <-> Forall (fun r => match r with RGot x => f x = None | RTimeout => True | RDisconnected => False end) rs).
Proof. exact (ev_wait_error f rs). Qed.
Print Assumptions C59_wait_error.

Example C59_case :
  let os := [EEmit 1; ESubscribe; EEmit 2; ESubscribe; EEmit 3; ERecv 0; EDrop 1; EEmit 4; ERecv 0; ESubscribe;
             EEmit 5; ERecv 2; ERecv 2] in
  let '(s, rs) := em_run em_new os in
  taken 0 rs = [2; 3] /\ waiting 0 s = [4; 5] /\ sent 0 Unborn os rs = [2; 3; 4; 5] /\
  sent 1 Unborn os rs = [3] /\ taken 2 rs = [5] /\ waiting 2 s = [] /\ em_subs s = [0; 2]%nat /\
  subscribed rs = [0; 1; 2]%nat.
Proof. vm_compute. repeat split. Qed.

Example C59_wait_case :
  ev_wait [RGot 1; RTimeout; RGot 8; RGot 9] (fun x => if 5 <? x then Some (x + 1) else None) = Ok 9 /\
  ev_wait [RGot 1; RDisconnected; RGot 8] (fun x => if 5 <? x then Some (x + 1) else None) = Err EDisconnected.
Proof. by split. Qed.
