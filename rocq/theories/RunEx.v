(** Helpers to exhibit concrete runs: the value of a computation is named
    without being printed, and a predicate of it is computed. *)
From Verif Require Import Base.

Lemma run_ex {A B} (m : M (A * B)) (P : A -> B -> Prop) :
  match m with Val (a, b) => P a b | Panic _ => False end -> exists a b, m = Val (a, b) /\ P a b.
Proof. destruct m as [[a b]|]; [|done]. intros p. by exists a, b. Qed.
Lemma val_ex {A} (m : M A) (P : A -> Prop) :
  match m with Val a => P a | Panic _ => False end -> exists a, m = Val a /\ P a.
Proof. destruct m as [a|]; [|done]. intros p. by exists a. Qed.
