(** Vocabulary for the ping properties. *)
From Verif Require Import Base PingModel.
Open Scope N_scope.

Fixpoint ping_run (timeout : N) (os : list ping_op) (s : pings) : pings * list (list pout) :=
  match os with
  | [] => (s, [])
  | o :: os' => let '(s, x) := ping_step timeout o s in let '(s, xs) := ping_run timeout os' s in (s, x :: xs)
  end.
(** The order in which the peers are visited is a permutation. *)
Definition fair_order (o : ping_op) : Prop :=
  match o with PTimer _ order _ => forall l, order l ≡ₚ l | _ => True end.

(** What an observer of the messages knows about a peer: not connected, a
    ping is unanswered, or the last ping was answered. *)
Inductive view := Gone | Unanswered (nonce since : N) | Answered (since : N).
Definition op_time (o : ping_op) : N :=
  match o with PNegotiated now _ _ | PPong now _ _ | PTimer now _ _ => now | _ => 0 end.
Definition pinged (a : N) (x : list pout) : list N :=
  omap (fun o => match o with PoPing a' n => if a' =? a then Some n else None | _ => None end) x.
Definition view_step (a : N) (o : ping_op) (x : list pout) (v : view) : view :=
  match last (pinged a x) with
  | Some n => Unanswered n (op_time o)
  | None =>
      match o with
      | PDisconnected a' => if a' =? a then Gone else v
      | PPong now a' n =>
          if a' =? a then match v with Unanswered n' _ => if n =? n' then Answered now else v | _ => v end else v
      | _ => v
      end
  end.
Fixpoint views (a : N) (os : list ping_op) (xs : list (list pout)) (v : view) : view :=
  match os, xs with
  | o :: os', x :: xs' => views a os' xs' (view_step a o x v)
  | _, _ => v
  end.
Definition counts {A} (f : A -> bool) (l : list A) : nat := length (List.filter f l).
Definition is_disconnect (a : N) (o : pout) : bool := match o with PoDisconnect a' => a' =? a | _ => false end.
Definition is_ping (a : N) (o : pout) : bool := match o with PoPing a' _ => a' =? a | _ => false end.

(** The round trip times of a connection, the latest first. *)
Definition trip_step (a : N) (o : ping_op) (v : view) (l : list N) : list N :=
  match o with
  | PNegotiated _ a' _ | PDisconnected a' => if a' =? a then [] else l
  | PPong now a' n =>
      if a' =? a then match v with Unanswered n' since => if n =? n' then (now - since) :: l else l | _ => l end else l
  | _ => l
  end.
Fixpoint trips (a : N) (os : list ping_op) (xs : list (list pout)) (v : view) (l : list N) : list N :=
  match os, xs with
  | o :: os', x :: xs' => trips a os' xs' (view_step a o x v) (trip_step a o v l)
  | _, _ => l
  end.
