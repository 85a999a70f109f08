(** Vocabulary for the theorems about starting the client. *)
From Verif Require Import Base StoreModel StoreSpec.
Open Scope N_scope.

(** The file holds the records [l]: it does not exist and there are none, or
    it has all of them, possibly followed by part of one more. *)
Definition file_of {A} (size : nat) (enc : A -> list N) (l : list A) (o : option (list N)) : Prop :=
  (o = None /\ l = []) \/ exists torn, (length torn < size)%nat /\ o = Some (encoded enc l ++ torn).
