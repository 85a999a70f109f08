(** Facts about the sorting functions of Base.v. *)
From Verif Require Import Base.
From Coq Require Import Sorting.Sorted.

Lemma insertN_perm x l : insertN x l ≡ₚ x :: l.
Proof.
  induction l as [|y l IH]; cbn; [done|]. destruct (x <=? y)%N; [done|].
  rewrite IH. apply Permutation_swap.
Qed.

Lemma sortN_perm l : sortN l ≡ₚ l.
Proof.
  induction l as [|x l IH]; [done|]. change (sortN (x :: l)) with (insertN x (sortN l)).
  by rewrite insertN_perm, IH.
Qed.

Lemma sortN_length l : length (sortN l) = length l.
Proof. by rewrite sortN_perm. Qed.

Lemma insertN_sorted x l : Sorted N.le l -> Sorted N.le (insertN x l).
Proof.
  induction 1 as [|y l Hs IH Hh]; cbn; [repeat constructor|].
  destruct (x <=? y)%N eqn:E.
  - constructor; [by constructor|]. constructor. lia.
  - constructor; [done|]. destruct l as [|z l]; cbn in *; [constructor; lia|].
    destruct (x <=? z)%N; constructor; [lia|]. by inversion Hh.
Qed.

Lemma sortN_sorted l : Sorted N.le (sortN l).
Proof.
  induction l as [|x l IH]; [constructor|]. change (sortN (x :: l)) with (insertN x (sortN l)).
  by apply insertN_sorted.
Qed.

Lemma sortN_strongly l : StronglySorted N.le (sortN l).
Proof. apply Sorted_StronglySorted; [intros a b c; lia|]. apply sortN_sorted. Qed.

Lemma insertZ_perm x l : insertZ x l ≡ₚ x :: l.
Proof.
  induction l as [|y l IH]; cbn; [done|]. destruct (x <=? y)%Z; [done|].
  rewrite IH. apply Permutation_swap.
Qed.

Lemma sortZ_perm l : sortZ l ≡ₚ l.
Proof.
  induction l as [|x l IH]; [done|]. change (sortZ (x :: l)) with (insertZ x (sortZ l)).
  by rewrite insertZ_perm, IH.
Qed.

Lemma sortZ_length l : length (sortZ l) = length l.
Proof. by rewrite sortZ_perm. Qed.

Lemma insertZ_sorted x l : Sorted Z.le l -> Sorted Z.le (insertZ x l).
Proof.
  induction 1 as [|y l Hs IH Hh]; cbn; [repeat constructor|].
  destruct (x <=? y)%Z eqn:E.
  - constructor; [by constructor|]. constructor. lia.
  - constructor; [done|]. destruct l as [|z l]; cbn in *; [constructor; lia|].
    destruct (x <=? z)%Z; constructor; [lia|]. by inversion Hh.
Qed.

Lemma sortZ_sorted l : Sorted Z.le (sortZ l).
Proof.
  induction l as [|x l IH]; [constructor|]. change (sortZ (x :: l)) with (insertZ x (sortZ l)).
  by apply insertZ_sorted.
Qed.

Lemma sortZ_strongly l : StronglySorted Z.le (sortZ l).
Proof. apply Sorted_StronglySorted; [intros a b c; lia|]. apply sortZ_sorted. Qed.

Lemma strongly_lookup {A} (R : A -> A -> Prop) l i j x y : StronglySorted R l -> (i < j)%nat ->
  l !! i = Some x -> l !! j = Some y -> R x y.
Proof.
  intros Hs. revert i j. induction Hs as [|a l Hs IH Hf]; intros i j Hij Hi Hj; [done|].
  destruct j as [|j]; [lia|]. cbn in Hj. destruct i as [|i]; cbn in Hi.
  - injection Hi as ->. rewrite Forall_forall in Hf. apply Hf. by eapply elem_of_list_lookup_2.
  - eapply IH; [|done..]. lia.
Qed.
