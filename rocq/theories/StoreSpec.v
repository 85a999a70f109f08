(** Vocabulary for the theorems about the header stores. *)
From Verif Require Import Base StoreModel.
Open Scope N_scope.

(** Records take [size] bytes and decode to what was encoded. *)
Definition codec {A} (size : nat) (enc : A -> list N) (dec : list N -> option A) : Prop :=
  (0 < size)%nat /\ forall x, length (enc x) = size /\ dec (enc x) = Some x.

(** A failing [read_exact] leaves the bytes it did read at the front of the
    buffer (what the Rust standard library does, though its documentation
    does not promise it). *)
Definition keeps_partial (leaves : list N -> nat -> list N) : Prop :=
  forall avail n, (length avail < n)%nat -> take (length avail) (leaves avail n) = avail.

(** Bytes of a file holding the headers [l]. *)
Definition encoded {A} (enc : A -> list N) (l : list A) : list N := concat (map enc l).

(** Every rollback in the run is to a height the in-memory store has. *)
Fixpoint rollbacks_exist {A} (m : memory A) (os : list (store_op A)) : Prop :=
  match os with
  | [] => True
  | o :: os' =>
      match o with SRollback h => (h <= length (m_tail m))%nat | _ => True end /\
      rollbacks_exist (m_step m o).1 os'
  end.
