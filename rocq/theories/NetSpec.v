(** Vocabulary for the theorems about sockets and event channels. *)
From Verif Require Import Base NetModel.
Open Scope N_scope.

(** All the bytes pushed. *)
Fixpoint pushed (os : list sk_op) : list N :=
  match os with
  | [] => []
  | KPush b :: os' => b ++ pushed os'
  | KFlush _ _ :: os' => pushed os'
  end.

(** The contract of [io::Write::write]: at most the whole buffer is written. *)
Definition lawful_write (env : nat -> list N -> wres) : Prop :=
  forall k b n, env k b = WOk n -> n <= lenN b.
Definition lawful_op (o : sk_op) : Prop :=
  match o with KPush _ => True | KFlush env _ => lawful_write env end.

Section Events.
Context {T : Type}.

(** The events channel [i] was sent, read off the calls and their results:
    those emitted after the call that returned [i], up to the receiver being
    dropped or the emitter closed. *)
Inductive phase := Unborn | Open | Closed.
Fixpoint sent (i : nat) (p : phase) (os : list (em_op T)) (rs : list (em_out T)) : list T :=
  match os, rs with
  | o :: os', r :: rs' =>
      match p, o, r with
      | Unborn, _, OSubscribed j => sent i (if decide (i = j) then Open else Unborn) os' rs'
      | Open, EEmit e, _ => e :: sent i Open os' rs'
      | Open, EClose, _ => sent i Closed os' rs'
      | Open, EDrop j, _ => sent i (if decide (i = j) then Closed else Open) os' rs'
      | _, _, _ => sent i p os' rs'
      end
  | _, _ => []
  end.
(** What receiver [i] took. *)
Fixpoint taken (i : nat) (rs : list (em_out T)) : list T :=
  match rs with
  | [] => []
  | OReceived j (Some e) :: rs' => if decide (i = j) then e :: taken i rs' else taken i rs'
  | _ :: rs' => taken i rs'
  end.
(** What is waiting in channel [i]. *)
Definition waiting (i : nat) (s : emitter T) : list T :=
  match em_chans s !! i with Some c => ch_queue c | None => [] end.
(** The receivers handed out. *)
Fixpoint subscribed (rs : list (em_out T)) : list nat :=
  match rs with
  | [] => []
  | OSubscribed i :: rs' => i :: subscribed rs'
  | _ :: rs' => subscribed rs'
  end.
End Events.
