(** Shared basics: the panic monad and machine arithmetic. *)
From Coq Require Export NArith ZArith Bool Lia ZifyBool ZifyNat ZifyN.
From stdpp Require Export base list gmap numbers.
From Coq Require List.
From stdpp Require Export list.


#[export] Unset Default Proof Using.

(** Panics of the modelled code: failed assertions, [unwrap]/[expect] on
    [None], out-of-range slices, divisions by zero and loops that do not
    terminate ([PDiverge]). *)
Inductive panic :=
| PAssert (line : N)      (* failed assert!/expect!/unwrap at this source line *)
| PIndex (line : N)       (* slice or vector index out of range *)
| PDivZero (line : N)     (* integer division or remainder by zero *)
| POverflow (line : N)    (* arithmetic overflow *)
| PDiverge (line : N).    (* loop that never terminates *)

(** Result of running modelled code: a value or a panic. *)
Inductive M (A : Type) :=
| Val (a : A)
| Panic (p : panic).
Arguments Val {A} a.
Arguments Panic {A} p.

Definition mbind_M {A B} (m : M A) (f : A -> M B) : M B :=
  match m with Val a => f a | Panic p => Panic p end.
Notation "x <-- m ;; k" := (mbind_M m (fun x => k))
  (at level 100, m at next level, right associativity).
Notation "' pat <-- m ;; k" := (mbind_M m (fun x => match x with pat => k end))
  (at level 100, pat pattern, m at next level, right associativity).

Definition assertM {A} (b : bool) (line : N) (k : M A) : M A :=
  if b then k else Panic (PAssert line).

(** [Result<A, E>]. *)
Inductive result (A E : Type) :=
| Ok (a : A)
| Err (e : E).
Arguments Ok {A E} a.
Arguments Err {A E} e.

(** Wrapping 32-bit arithmetic (release builds; debug builds panic instead). *)
Definition two32 : N := 4294967296.
Definition wrap32 (x : N) : N := x mod two32.
Definition wadd32 (x y : N) : N := wrap32 (x + y).
Definition wsub32 (x y : N) : N := wrap32 (x + two32 - y).
Definition wmul32 (x y : N) : N := wrap32 (x * y).

(** [Vec::sort_unstable] on integers: insertion sort (the sorted
    permutation of a list of integers is unique, so the algorithm is
    irrelevant). *)
Fixpoint insertN (x : N) (l : list N) : list N :=
  match l with
  | [] => [x]
  | y :: l' => if (x <=? y)%N then x :: l else y :: insertN x l'
  end.
Definition sortN (l : list N) : list N := foldr insertN [] l.

Fixpoint insertZ (x : Z) (l : list Z) : list Z :=
  match l with
  | [] => [x]
  | y :: l' => if (x <=? y)%Z then x :: l else y :: insertZ x l'
  end.
Definition sortZ (l : list Z) : list Z := foldr insertZ [] l.

(** Last element of [head :: tail] ([NonEmpty::last]). *)
Definition ne_last {A} (x : A) (l : list A) : A := List.last l x.

(** Length of a list as an [N]. *)
Definition lenN {A} (l : list A) : N := N.of_nat (length l).

(** [BTreeMap::insert] on a key-sorted association list. *)
Fixpoint bt_insert {K V} (cmp : K -> K -> comparison) (k : K) (v : V)
    (l : list (K * V)) : list (K * V) :=
  match l with
  | [] => [(k, v)]
  | (k', v') :: l' =>
      match cmp k k' with
      | Lt => (k, v) :: l
      | Eq => (k, v) :: l'
      | Gt => (k', v') :: bt_insert cmp k v l'
      end
  end.
