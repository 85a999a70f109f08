(** Model of the transaction fee estimator, p2p/src/fsm/fees.rs. *)
From Verif Require Import Base.
Open Scope N_scope.

(** ** Floating point

    The code converts [u64] values to [f64].  All doubles occurring here are
    non-negative; those that are integers are modelled by that integer. *)

(** Rounding a quotient to the nearest integer, ties to even. *)
Definition div_even (p q : N) : N :=
  let m := p / q in
  let r := p mod q in
  if 2 * r <? q then m
  else if q <? 2 * r then m + 1
  else if N.even m then m else m + 1.

(** [n as f64] for an integer [n]: rounding to 53 significant bits. *)
Definition f64 (n : N) : N :=
  if n <=? 2 ^ 53 then n
  else let u := 2 ^ (N.log2 n - 52) in div_even n u * u.

(** [x as u64] saturates. *)
Definition u64_max : N := 2 ^ 64 - 1.
Definition as_u64 (n : N) : N := N.min n u64_max.
Definition wrap64 (n : N) : N := n mod 2 ^ 64.

(** [(p / q).round() as u64] for doubles [p] and [q]: the quotient is rounded
    to 53 significant bits, [m * 2 ^ (k - 52)] with [2^52 <= m <= 2^53], and
    then to the nearest integer, halves up. *)
Definition f64_ratio_round (p q : N) : N :=
  if p =? 0 then 0 else
  let k0 := (Z.of_N (N.log2 p) - Z.of_N (N.log2 q))%Z in
  (* p/q is in [2^k, 2^(k+1)) *)
  let k := if (if (0 <=? k0)%Z then q * 2 ^ Z.to_N k0 <=? p else q <=? p * 2 ^ Z.to_N (- k0))
           then k0 else (k0 - 1)%Z in
  let s := (52 - k)%Z in
  if (0 <=? s)%Z
  then let m := div_even (p * 2 ^ Z.to_N s) q in as_u64 ((2 * m + 2 ^ Z.to_N s) / (2 * 2 ^ Z.to_N s))
  else as_u64 (div_even p (q * 2 ^ Z.to_N (- s)) * 2 ^ Z.to_N (- s)).

(** ** Estimates *)

(** fees.rs:23-30 [FeeEstimate]. *)
Record estimate := Estimate { es_low : N; es_median : N; es_high : N }.

(** fees.rs:61-81 [FeeEstimate::from].  [((left + right) / 2.).round()]: the
    sum is rounded to a double, halving is exact, and [round] takes halves
    up. *)
Definition median_of (s : list N) : N :=
  let count := length s in
  if (count mod 2 =? 1)%nat then nth (count / 2) s 0
  else
    let left := f64 (nth (count / 2 - 1) s 0) in
    let right := f64 (nth (count / 2) s 0) in
    as_u64 ((f64 (left + right) + 1) / 2).
Definition estimate_from (fees : list N) : option estimate :=
  let s := sortN fees in
  match s with
  | [] => None
  | x :: l => Some (Estimate x (median_of s) (ne_last x l))
  end.

(** ** Transactions *)

(** An output reference ([OutPoint]): transaction id and output index. *)
Definition outpoint := (N * N)%type.
(** bitcoin crate [OutPoint::is_null]: id zero and index [u32::MAX]. *)
Definition null_outpoint : outpoint := (0, two32 - 1).

(** The parts of a [Transaction] used by the estimator and the inventory
    manager.  Outputs carry their value and an identification of the script. *)
Record tx := Tx {
  t_id : N;
  t_wid : N;
  t_ins : list outpoint;
  t_outs : list (N * N);
  t_weight : N
}.
(** bitcoin crate [Transaction::is_coin_base]. *)
Definition is_coin_base (t : tx) : bool :=
  match t_ins t with [op] => bool_decide (op = null_outpoint) | _ => false end.

Definition utxo_set := gmap outpoint (N * N).

(** fees.rs:12-13. *)
Definition max_utxo_snapshots : nat := 12.

(** fees.rs:88-97 [FeeEstimator].  Front of the deque first. *)
Record estimator := Estimator {
  e_utxos : utxo_set;
  e_height : N;
  e_snaps : list (N * utxo_set)
}.
Definition est0 : estimator := Estimator ∅ 0 [].

(** fees.rs:145-152: insert the outputs, summing their values ([u64],
    wrapping in release builds). *)
Definition add_outputs (t : tx) (u : utxo_set) : utxo_set * N :=
  fold_left (fun '(u, sent) '(i, o) => (<[(t_id t, wrap32 (N.of_nat i)) := o]> u, wrap64 (sent + o.1)))
    (imap (fun i o => (i, o)) (t_outs t)) (u, 0).

(** fees.rs:162-168: remove the inputs, [None] at the first unknown one. *)
Fixpoint take_inputs (ins : list outpoint) (u : utxo_set) (received : N) : utxo_set * option N :=
  match ins with
  | [] => (u, Some received)
  | op :: ins' =>
      match u !! op with
      | Some o => take_inputs ins' (delete op u) (wrap64 (received + o.1))
      | None => (u, None)
      end
  end.

(** fees.rs:139-176 [FeeEstimator::apply]. *)
Definition apply_tx (t : tx) (u : utxo_set) : M (utxo_set * option N) :=
  let '(u, sent) := add_outputs t u in
  if is_coin_base t then Val (u, None)
  else
    match take_inputs (t_ins t) u 0 with
    | (u, None) => Val (u, None)
    | (u, Some received) =>
        assertM (sent <=? received) 169
          (Val (u, Some (f64_ratio_round (4 * f64 (received - sent)) (f64 (t_weight t)))))
    end.

Fixpoint apply_txs (ts : list tx) (u : utxo_set) (fees : list N) : M (utxo_set * list N) :=
  match ts with
  | [] => Val (u, fees)
  | t :: ts' =>
      '(u, r) <-- apply_tx t u ;;
      apply_txs ts' u (match r with Some f => fees ++ [f] | None => fees end)
  end.

(** fees.rs:103-124 [FeeEstimator::process]. *)
Definition fee_process (txs : list tx) (height : N) (e : estimator) : M (estimator * option estimate) :=
  if height <=? e_height e then Val (e, None)
  else
    '(u, fees) <-- apply_txs txs (e_utxos e) [] ;;
    let snaps := e_snaps e ++ [(e_height e, e_utxos e)] in
    let snaps := if (max_utxo_snapshots <? length snaps)%nat then tail snaps else snaps in
    Val (Estimator u height snaps, estimate_from fees).

(** fees.rs:127-136 [FeeEstimator::rollback]. *)
Definition fee_rollback (height : N) (e : estimator) : M estimator :=
  let snaps := List.filter (fun p => p.1 <=? height) (e_snaps e) in
  match reverse snaps with
  | [] => Val (Estimator (e_utxos e) (e_height e) snaps)
  | (h, u) :: rest => assertM (h <=? height) 131 (Val (Estimator u h (reverse rest)))
  end.

(** Operations of the estimator. *)
Inductive fee_op := FProcess (txs : list tx) (height : N) | FRollback (height : N).
Definition fee_step (o : fee_op) (e : estimator) : M (estimator * option (option estimate)) :=
  match o with
  | FProcess txs h => '(e, r) <-- fee_process txs h e ;; Val (e, Some r)
  | FRollback h => e <-- fee_rollback h e ;; Val (e, None)
  end.
Fixpoint fee_run (os : list fee_op) (e : estimator) : M (estimator * list (option (option estimate))) :=
  match os with
  | [] => Val (e, [])
  | o :: os' => '(e, r) <-- fee_step o e ;; '(e, rs) <-- fee_run os' e ;; Val (e, r :: rs)
  end.
