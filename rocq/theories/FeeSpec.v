(** Vocabulary for the fee estimator properties. *)
From Verif Require Import Base FeeModel.
Open Scope N_scope.

(** [low] is the least and [high] the greatest element of [l]. *)
Definition is_least (x : N) (l : list N) : Prop := x ∈ l /\ Forall (fun y => x <= y) l.
Definition is_greatest (x : N) (l : list N) : Prop := x ∈ l /\ Forall (fun y => y <= x) l.

(** At most half of the list is below [m], at most half above it. *)
Definition splits (m : N) (l : list N) : Prop :=
  (length (List.filter (fun x => (x <? m)%N) l) <= length l / 2)%nat /\
  (length (List.filter (fun x => (m <? x)%N) l) <= length l / 2)%nat.

(** Blocks processed at heights increasing from above [h]. *)
Fixpoint above (h : N) (bs : list (N * list tx)) : Prop :=
  match bs with [] => True | (h', _) :: bs' => h < h' /\ above h' bs' end.
Definition processing (bs : list (N * list tx)) : list fee_op :=
  map (fun b => FProcess b.2 b.1) bs.

(** What a run reports: its outputs, or its panic. *)
Definition reports {A B} (m : M (A * B)) : M B :=
  match m with Val (_, r) => Val r | Panic p => Panic p end.

(** ** Fee rates of a block *)

Definition sumN (l : list N) : N := foldr N.add 0 l.

(** The output [op] as created by one of the transactions [ts]. *)
Definition created (ts : list tx) (op : outpoint) : option (N * N) :=
  match List.find (fun t => t_id t =? op.1) ts with
  | Some t => t_outs t !! N.to_nat op.2
  | None => None
  end.

(** Total value of the inputs of [t], if all were created by [ts]. *)
Definition input_value (ts : list tx) (t : tx) : option N :=
  (fun os => sumN (map fst os)) <$> mapM (created ts) (t_ins t).
Definition output_value (t : tx) : N := sumN (map fst (t_outs t)).

(** [a / b] rounded to the nearest integer, halves up. *)
Definition nearest (a b : N) : N := (2 * a + b) / (2 * b).

(** Fee rate of [t] in satoshis per virtual byte (four weight units), if it is
    not a coinbase and all its inputs were created by [ts]. *)
Definition fee_rate (ts : list tx) (t : tx) : option N :=
  if is_coin_base t then None
  else (fun v => nearest (4 * (v - output_value t)) (t_weight t)) <$> input_value ts t.

(** Rates of the transactions [ts] of a block, [before] having been seen
    earlier. *)
Fixpoint fee_rates (before ts : list tx) : list N :=
  match ts with
  | [] => []
  | t :: ts' => option_list (fee_rate before t) ++ fee_rates (before ++ [t]) ts'
  end.

(** What processing the blocks [bs] (height and transactions) reports. *)
Fixpoint block_reports (before : list tx) (bs : list (N * list tx)) : list (option (option estimate)) :=
  match bs with
  | [] => []
  | (_, ts) :: bs' => Some (estimate_from (fee_rates before ts)) :: block_reports (before ++ ts) bs'
  end.

(** A sensible history of transactions: distinct ids, no output spent twice or
    by its own transaction, at most 2^32 outputs, positive weight, and amounts
    (in particular below 2^50 satoshis for known inputs). *)
Definition spends (t : tx) : list outpoint := if is_coin_base t then [] else t_ins t.
Record sane (ts : list tx) : Prop := {
  sane_ids : NoDup (map t_id ts);
  sane_spent : NoDup (concat (map spends ts));
  sane_own : Forall (fun t => Forall (fun op => op.1 <> t_id t) (t_ins t)) ts;
  sane_outs : Forall (fun t => N.of_nat (length (t_outs t)) <= 2 ^ 32 /\ output_value t < 2 ^ 64) ts;
  sane_weight : Forall (fun t => 0 < t_weight t < 2 ^ 53) ts;
  sane_ins : Forall (fun t => forall l v, l `prefix_of` ts -> input_value l t = Some v -> v < 2 ^ 50) ts;
}.
