(** Vocabulary for the theorems about the small components. *)
From Verif Require Import Base UtilModel.
From Coq Require Import Sorted.
Open Scope N_scope.

(** ** Iterator *)

(** The items of a chain with their heights. *)
Definition numbered {T} (chain : list T) : list (N * T) :=
  imap (fun i x => (N.of_nat i, x)) chain.

(** Results of the calls made on one side. *)
Fixpoint results_of {A} (d : side) (calls : list side) (rs : list (option A)) : list A :=
  match calls, rs with
  | c :: calls', r :: rs' =>
      match c, d, r with
      | Front, Front, Some x | Back, Back, Some x => x :: results_of d calls' rs'
      | _, _, _ => results_of d calls' rs'
      end
  | _, _ => []
  end.

(** ** Adjusted time *)

(** [m] is an element of [l] with at least half of [l] on either side. *)
Definition is_median (m : Z) (l : list Z) : Prop :=
  m ∈ l /\
  (length (List.filter (fun x => (x <? m)%Z) l) <= length l / 2)%nat /\
  (length (List.filter (fun x => (m <? x)%Z) l) <= length l / 2)%nat.

(** The samples reported fit in an [i64] and none is its minimum. *)
Definition at_op_ok (o : at_op) : Prop :=
  match o with ARecord _ z => (i64_min < z < 2 ^ 63)%Z | ALocal _ => True end.

(** ** Timers *)

(** What is known of [sort_unstable_by(|(_, a), (_, b)| b.cmp(a))]. *)
Definition sorts {K} (sort : timers K -> timers K) : Prop :=
  forall l, sort l ≡ₚ l /\ StronglySorted (fun a b => b.2 <= a.2) (sort l).

(** The registrations accepted in a run and the keys woken. *)
Fixpoint accepted {K} (os : list (tm_op K)) (rs : list (tm_out K)) : list (K * N) :=
  match os, rs with
  | TRegister k t :: os', TRegistered true :: rs' => (k, t) :: accepted os' rs'
  | _ :: os', _ :: rs' => accepted os' rs'
  | _, _ => []
  end.
Fixpoint woken {K} (rs : list (tm_out K)) : list K :=
  match rs with
  | TWoken ks :: rs' => ks ++ woken rs'
  | _ :: rs' => woken rs'
  | [] => []
  end.

(** ** Stream decoding *)

(** A decoder whose verdict depends only on the bytes it consumed. *)
Definition streaming {Msg} (parse : list N -> parsed Msg) : Prop :=
  (forall b m n, parse b = Done m n -> (0 < n <= length b)%nat) /\
  (forall b x m n, parse b = Done m n -> parse (b ++ x) = Done m n) /\
  (forall b x, parse b = Malformed -> parse (b ++ x) = Malformed).

(** ** Filter cache *)

Definition held {T} (flen : T -> N) (l : list (N * T)) : N :=
  foldr (fun e n => flen e.2 + n) 0 l.

(** Along the run no filter is pushed at a height already cached. *)
Fixpoint fresh_pushes {T} (flen : T -> N) (c : fcache T) (os : list (fc_op T)) : Prop :=
  match os with
  | [] => True
  | o :: os' =>
      match o with FPush h _ => fc_get c h = None | FRollback _ => True end /\
      forall c', fc_step flen c o = Val c' -> fresh_pushes flen c' os'
  end.
