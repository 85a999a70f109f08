(** Proofs about the fee estimator. *)
From Coq Require Import Sorting.Sorted.
From Verif Require Import Base SortProofs UtilProofs FeeModel FeeSpec.
Open Scope N_scope.

(** ** Floating point facts *)
Lemma f64_small n : n <= 2 ^ 53 -> f64 n = n.
Proof. intros L. unfold f64. destruct (N.leb_spec n (2 ^ 53)); [done|lia]. Qed.

Lemma div_even_2 n : n <= div_even n 2 * 2 + 1 /\ div_even n 2 * 2 <= n + 1.
Proof.
  unfold div_even. pose proof (N.div_mod n 2 ltac:(lia)) as E. pose proof (N.mod_lt n 2 ltac:(lia)) as B.
  set (q := n / 2) in *. set (m := n mod 2) in *. clearbody q m.
  destruct (2 * m <? 2) eqn:E1; [lia|]. destruct (2 <? 2 * m) eqn:E2; [lia|].
  destruct (N.even q); lia.
Qed.

Lemma f64_even_bounds l r n : 2 * l <= n -> n <= 2 * r -> r <= 2 ^ 53 ->
  2 * l <= f64 n /\ f64 n <= 2 * r.
Proof.
  intros A B C. unfold f64. destruct (N.leb_spec n (2 ^ 53)) as [|G]; [lia|].
  change (2 ^ 53) with 9007199254740992 in *.
  destruct (decide (n = 18014398509481984)) as [->|NE].
  { replace (div_even _ _ * _) with 18014398509481984 by (vm_compute; reflexivity). lia. }
  assert (Lg : N.log2 n = 53).
  { apply N.log2_unique; [lia|]. change (2 ^ 53) with 9007199254740992.
    change (2 ^ N.succ 53) with 18014398509481984. lia. }
  rewrite Lg. change (2 ^ (53 - 52)) with 2. pose proof (div_even_2 n) as [D1 D2].
  set (q := div_even n 2) in *. clearbody q. lia.
Qed.

(** ** Sorted lists *)
Lemma sorted_unique (l l' : list N) : StronglySorted N.le l -> StronglySorted N.le l' -> l ≡ₚ l' -> l = l'.
Proof.
  intros S. revert l'. induction S as [|x l S IH F]; intros l' S' P.
  - by apply Permutation_nil in P.
  - destruct S' as [|y l' S' F']; [by apply Permutation_sym, Permutation_nil in P|].
    rewrite Forall_forall in F. rewrite Forall_forall in F'.
    assert (x = y) as ->.
    { assert (X : x ∈ y :: l') by (rewrite <-P; by left). assert (Y : y ∈ x :: l) by (rewrite P; by left).
      apply elem_of_cons in X as [->|X]; [done|]. apply elem_of_cons in Y as [->|Y]; [done|].
      apply N.le_antisymm; auto. }
    f_equal. apply IH; [done|]. by apply Permutation_cons_inv in P.
Qed.

Lemma sortN_unique l l' : l ≡ₚ l' -> sortN l = sortN l'.
Proof.
  intros P. apply (sorted_unique (sortN l) (sortN l')); [apply sortN_strongly|apply sortN_strongly|].
  by rewrite !sortN_perm.
Qed.

Lemma nth_lookup_N (l : list N) i : (i < length l)%nat -> l !! i = Some (nth i l 0).
Proof. intros L. destruct (lookup_lt_is_Some_2 l i L) as [x E]. by rewrite (nth_lookup_Some l i 0 x E). Qed.

Lemma sorted_nth_le (l : list N) i j : StronglySorted N.le l -> (i <= j)%nat -> (j < length l)%nat ->
  nth i l 0 <= nth j l 0.
Proof.
  intros S Hij Hj. destruct (decide (i = j)) as [->|]; [lia|].
  apply (strongly_lookup N.le l i j _ _ S); [lia| |]; apply nth_lookup_N; lia.
Qed.

Lemma sorted_least x (l : list N) : StronglySorted N.le (x :: l) -> Forall (fun y => x <= y) (x :: l).
Proof. intros S. inversion_clear S. constructor; [lia|done]. Qed.

Lemma ne_last_nth x (l : list N) : ne_last x l = nth (length l) (x :: l) 0.
Proof.
  unfold ne_last. destruct (exists_last (l := x :: l)) as (k & z & E); [done|].
  change (List.last l x) with (List.last l x). assert (List.last l x = List.last (x :: l) 0) as ->.
  { clear. revert x. induction l as [|y l IH]; intros x; [done|]. destruct l as [|z l]; [done|].
    change (List.last (z :: l) x = List.last (y :: z :: l) 0). rewrite <-(IH y). clear.
    revert z. induction l as [|a l IH]; intros z; [done|]. apply IH. }
  assert (length l = length k) as ->.
  { apply (f_equal length) in E. rewrite app_length in E. cbn in E. lia. }
  rewrite E, List.last_last, app_nth2, Nat.sub_diag by lia. done.
Qed.

Lemma sorted_greatest x (l : list N) : StronglySorted N.le (x :: l) ->
  Forall (fun y => y <= ne_last x l) (x :: l) /\ ne_last x l ∈ x :: l.
Proof.
  intros S. rewrite ne_last_nth. split.
  - apply Forall_lookup. intros i y E. pose proof (lookup_lt_Some _ _ _ E) as B. cbn in B.
    rewrite <-(nth_lookup_Some _ i 0 y E). apply sorted_nth_le; [done|lia|cbn; lia].
  - apply elem_of_list_lookup. exists (length l). apply nth_lookup_N. cbn. lia.
Qed.

Lemma lfilter_none {A} (p : A -> bool) l : (forall x, x ∈ l -> p x = false) -> List.filter p l = [].
Proof.
  induction l as [|x l IH]; intros F; [done|]. cbn. rewrite (F x); [|by left].
  apply IH. intros y Hy. apply F. by right.
Qed.

Lemma count_below (l : list N) (i : nat) m : StronglySorted N.le l -> (i <= length l)%nat ->
  ((i < length l)%nat -> m <= nth i l 0) ->
  (length (List.filter (fun x => (x <? m)%N) l) <= i)%nat.
Proof.
  intros S Hi Hm. rewrite <-(take_drop i l) at 1. rewrite List.filter_app, app_length.
  rewrite (lfilter_none _ (drop i l)).
  { cbn. pose proof (lfilter_length (fun x => (x <? m)%N) (take i l)) as G. rewrite take_length in G. lia. }
  intros x Hx. apply elem_of_list_lookup in Hx as [j Hj]. rewrite lookup_drop in Hj.
  pose proof (lookup_lt_Some _ _ _ Hj) as B. apply (nth_lookup_Some _ _ 0) in Hj.
  pose proof (sorted_nth_le l i (i + j) S ltac:(lia) B) as G. specialize (Hm ltac:(lia)). lia.
Qed.

Lemma count_above (l : list N) (i : nat) m : StronglySorted N.le l -> (i <= length l)%nat ->
  ((0 < i)%nat -> nth (i - 1) l 0 <= m) ->
  (length (List.filter (fun x => (m <? x)%N) l) <= length l - i)%nat.
Proof.
  intros S Hi Hm. rewrite <-(take_drop i l) at 1. rewrite List.filter_app, app_length.
  rewrite (lfilter_none _ (take i l)).
  { cbn. pose proof (lfilter_length (fun x => (m <? x)%N) (drop i l)) as G. rewrite drop_length in G. lia. }
  intros x Hx. apply elem_of_list_lookup in Hx as [j Hj].
  pose proof (lookup_lt_Some _ _ _ Hj) as B. rewrite take_length in B. rewrite lookup_take in Hj by lia.
  apply (nth_lookup_Some _ _ 0) in Hj.
  pose proof (sorted_nth_le l j (i - 1) S ltac:(lia) ltac:(lia)) as G. specialize (Hm ltac:(lia)). lia.
Qed.

Lemma filter_perm_lenN (p : N -> bool) l l' : l ≡ₚ l' -> length (List.filter p l) = length (List.filter p l').
Proof. induction 1; cbn; repeat case_match; cbn; lia. Qed.

(** The median of a sorted list lies between the two middle elements. *)
Lemma median_between s : StronglySorted N.le s -> (0 < length s)%nat -> Forall (fun x => x <= 2 ^ 53) s ->
  nth ((length s - 1) / 2) s 0 <= median_of s /\ median_of s <= nth (length s / 2) s 0.
Proof.
  intros S L F. unfold median_of. set (c := length s) in *.
  pose proof (Nat.div_mod_eq c 2) as E. pose proof (Nat.mod_upper_bound c 2 ltac:(lia)) as B.
  assert (BH : (c / 2 < c)%nat) by (apply Nat.div_lt; lia).
  destruct (Nat.eqb_spec (c mod 2) 1) as [O|O].
  - replace ((c - 1) / 2)%nat with (c / 2)%nat; [lia|].
    rewrite E, O. rewrite Nat.add_sub. rewrite (Nat.mul_comm 2), Nat.div_mul by lia.
    rewrite Nat.div_add_l by lia. cbn. lia.
  - assert (E' : c = (2 * (c / 2))%nat) by lia.
    assert (Hh : ((c - 1) / 2 = c / 2 - 1)%nat).
    { replace (c - 1)%nat with ((c / 2 - 1) * 2 + 1)%nat by lia. rewrite Nat.div_add_l by lia. cbn. lia. }
    rewrite Hh. set (l := nth (c / 2 - 1) s 0). set (r := nth (c / 2) s 0).
    assert (Hlr : l <= r) by (apply sorted_nth_le; [done|lia|lia]).
    rewrite Forall_lookup in F.
    assert (Hl : l <= 2 ^ 53) by (apply (F (c / 2 - 1)%nat); apply nth_lookup_N; lia).
    assert (Hr : r <= 2 ^ 53) by (apply (F (c / 2)%nat); apply nth_lookup_N; lia).
    rewrite (f64_small l), (f64_small r) by done.
    destruct (f64_even_bounds l r (l + r)) as [X Y]; [lia|lia|done|].
    set (w := f64 (l + r)) in *. clearbody w. clearbody l r.
    assert (Z1 : l <= (w + 1) / 2) by (apply N.div_le_lower_bound; lia).
    assert (Z2 : (w + 1) / 2 <= r).
    { apply N.lt_succ_r. apply N.div_lt_upper_bound; lia. }
    unfold as_u64, u64_max. change (2 ^ 53) with 9007199254740992 in *. change (2 ^ 64 - 1) with 18446744073709551615.
    set (v := (w + 1) / 2) in *. clearbody v. lia.
Qed.

(** Halves are rounded up for sums that fit a double exactly. *)
Lemma median_even s : (length s mod 2 = 0)%nat -> Forall (fun x => x <= 2 ^ 52) s ->
  median_of s = (nth (length s / 2 - 1) s 0 + nth (length s / 2) s 0 + 1) / 2.
Proof.
  intros E F. unfold median_of. rewrite E. cbn [Nat.eqb].
  assert (B : forall i, nth i s 0 <= 2 ^ 52).
  { intros i. destruct (decide (i < length s)%nat) as [L|L].
    - rewrite Forall_lookup in F. apply (F i). by apply nth_lookup_N.
    - rewrite nth_overflow by lia. lia. }
  pose proof (B (length s / 2 - 1)%nat) as B1. pose proof (B (length s / 2)%nat) as B2.
  set (l := nth (length s / 2 - 1) s 0) in *. set (r := nth (length s / 2) s 0) in *. clearbody l r.
  change (2 ^ 52) with 4503599627370496 in *.
  rewrite (f64_small l), (f64_small r), f64_small by (change (2 ^ 53) with 9007199254740992; lia).
  unfold as_u64, u64_max. change (2 ^ 64 - 1) with 18446744073709551615.
  assert ((l + r + 1) / 2 <= 4503599627370497) by (apply N.lt_succ_r, N.div_lt_upper_bound; lia). lia.
Qed.

Theorem estimate_facts fees :
  (estimate_from fees = None <-> fees = []) /\
  (forall fees', fees ≡ₚ fees' -> estimate_from fees' = estimate_from fees) /\
  forall e, estimate_from fees = Some e ->
    is_least (es_low e) fees /\ is_greatest (es_high e) fees /\
    (Forall (fun x => x <= 2 ^ 53) fees ->
      es_low e <= es_median e <= es_high e /\ splits (es_median e) fees) /\
    ((length fees mod 2 = 1)%nat -> es_median e ∈ fees).
Proof.
  pose proof (sortN_perm fees) as P. pose proof (sortN_strongly fees) as S. pose proof (sortN_length fees) as L.
  split; [|split].
  - unfold estimate_from. destruct (sortN fees) as [|x l] eqn:E; [|split; [done|intros ->; done]].
    apply Permutation_nil in P. by split.
  - intros fees' P'. unfold estimate_from. by rewrite (sortN_unique _ _ P').
  - intros e. unfold estimate_from. destruct (sortN fees) as [|x l] eqn:E; [done|]. intros [= <-]. cbn [es_low es_median es_high].
    destruct (sorted_greatest x l S) as [G1 G2].
    split; [|split; [|split]].
    + split; [rewrite <-P; by left|]. rewrite <-P. by apply sorted_least.
    + split; rewrite <-P; done.
    + intros F. rewrite <-P in F.
      assert (Len : (0 < length (x :: l))%nat) by (cbn; lia).
      destruct (median_between (x :: l) S Len F) as [M1 M2].
      set (s := x :: l) in *. set (c := length s) in *.
      assert (BH : (c / 2 < c)%nat) by (apply Nat.div_lt; lia).
      assert (BH' : ((c - 1) / 2 <= c / 2)%nat) by (apply Nat.div_le_mono; lia).
      split; [split|].
      * etrans; [|exact M1]. apply (sorted_nth_le s 0); [done|lia|lia].
      * etrans; [exact M2|]. rewrite (ne_last_nth x l). apply sorted_nth_le; [done| |].
        -- change (length l) with (c - 1 + 0)%nat || (unfold c, s in *; cbn [length] in *; lia).
        -- unfold c, s. cbn. lia.
      * split.
        -- rewrite <-(filter_perm_lenN _ _ _ P). rewrite <-L. fold c.
           apply count_below; [done|lia|]. intros _. exact M2.
        -- rewrite <-(filter_perm_lenN _ _ _ P). rewrite <-L. fold c.
           pose proof (Nat.div_mod_eq c 2) as Ec. pose proof (Nat.mod_upper_bound c 2 ltac:(lia)) as B.
           pose proof (Nat.div_mod_eq (c - 1) 2) as Ec'. pose proof (Nat.mod_upper_bound (c - 1) 2 ltac:(lia)) as B'.
           etrans; [apply (count_above s (Datatypes.S ((c - 1) / 2))%nat); [done|fold c; lia|]|fold c; lia].
           intros _. replace (Datatypes.S ((c - 1) / 2) - 1)%nat with ((c - 1) / 2)%nat by lia. exact M1.
    + intros O. rewrite <-P. rewrite <-L in O. unfold median_of. rewrite O. cbn [Nat.eqb].
      apply elem_of_list_lookup. exists (length (x :: l) / 2)%nat. apply nth_lookup_N.
      apply Nat.div_lt; cbn; lia.
Qed.

(** ** Rollback *)

(** Snapshots are taken at increasing heights below the current one. *)
Definition est_inv (e : estimator) : Prop :=
  StronglySorted N.lt (map fst (e_snaps e)) /\ Forall (fun p => p.1 < e_height e) (e_snaps e) /\
  (length (e_snaps e) <= max_utxo_snapshots)%nat.

Lemma map_fst_snoc {A B} (l : list (A * B)) x : map fst (l ++ [x]) = map fst l ++ [x.1].
Proof. by rewrite map_app. Qed.

Lemma ssorted_snoc (R : N -> N -> Prop) l x : StronglySorted R l -> Forall (fun y => R y x) l -> StronglySorted R (l ++ [x]).
Proof.
  induction 1 as [|y l S IH F]; intros G; cbn; [repeat constructor|]. inversion_clear G.
  constructor; [by apply IH|]. apply Forall_app. split; [done|]. by constructor.
Qed.

Lemma tail_sublist {A} (l : list A) : tail l `suffix_of` l.
Proof. destruct l as [|x l]; [done|]. by exists [x]. Qed.

Lemma ssorted_suffix {A} (R : A -> A -> Prop) l l' : StronglySorted R l -> l' `suffix_of` l -> StronglySorted R l'.
Proof.
  intros S [k ->]. induction k as [|x k IH]; [done|]. inversion S; subst. by apply IH.
Qed.
Lemma Forall_suffix {A} (P : A -> Prop) l l' : Forall P l -> l' `suffix_of` l -> Forall P l'.
Proof. intros F [k ->]. by apply Forall_app in F as [_ F]. Qed.
Lemma map_suffix {A B} (f : A -> B) l l' : l' `suffix_of` l -> map f l' `suffix_of` map f l.
Proof. intros [k ->]. rewrite map_app. by eexists. Qed.

(** The snapshots after processing a block. *)
Definition pushed (e : estimator) : list (N * utxo_set) :=
  let snaps := e_snaps e ++ [(e_height e, e_utxos e)] in
  if (max_utxo_snapshots <? length snaps)%nat then tail snaps else snaps.
Lemma pushed_suffix e : pushed e `suffix_of` e_snaps e ++ [(e_height e, e_utxos e)].
Proof. unfold pushed. case_match; [apply tail_sublist|done]. Qed.

Lemma fee_process_val txs h e e' r : fee_process txs h e = Val (e', r) ->
  (h <= e_height e /\ e' = e /\ r = None) \/
  (e_height e < h /\ exists u fees, apply_txs txs (e_utxos e) [] = Val (u, fees) /\
    e' = Estimator u h (pushed e) /\ r = estimate_from fees).
Proof.
  unfold fee_process. destruct (N.leb_spec h (e_height e)) as [L|L]; [intros [= <- <-]; by left|].
  destruct (apply_txs txs (e_utxos e) []) as [[u fees]|] eqn:E; [|done]. cbn [mbind_M].
  intros X. right. split; [done|]. exists u, fees. split; [done|]. unfold pushed. by inversion X.
Qed.

Lemma fee_process_inv txs h e e' r : est_inv e -> fee_process txs h e = Val (e', r) -> est_inv e'.
Proof.
  intros (S & F & L) X. apply fee_process_val in X as [(_ & -> & _)|(G & u & fees & _ & -> & _)]; [done|].
  unfold est_inv. cbn [e_snaps e_height]. pose proof (pushed_suffix e) as Sf. split; [|split].
  - eapply ssorted_suffix; [|apply map_suffix, Sf]. rewrite map_fst_snoc. apply ssorted_snoc; [done|].
    cbn. rewrite Forall_fmap. exact F.
  - eapply Forall_suffix; [|exact Sf]. apply Forall_app. split.
    + eapply Forall_impl; [exact F|]. cbn. intros; lia.
    + by constructor.
  - unfold pushed. destruct (Nat.ltb_spec max_utxo_snapshots (length (e_snaps e ++ [(e_height e, e_utxos e)]))) as [A|A]; [|done].
    destruct (e_snaps e) as [|x l]; cbn in *; rewrite ?app_length in *; cbn in *; lia.
Qed.

(** Filtering an increasing list by an upper bound keeps a prefix. *)
Lemma filter_below_split h (l : list (N * utxo_set)) : StronglySorted N.lt (map fst l) ->
  exists l1 l2, l = l1 ++ l2 /\ List.filter (fun p => p.1 <=? h) l = l1 /\
    Forall (fun p => p.1 <= h) l1 /\ Forall (fun p => h < p.1) l2.
Proof.
  induction l as [|[a u] l IH]; intros S; [by exists [], []|]. cbn in S. apply StronglySorted_inv in S as [S F].
  destruct (IH S) as (l1 & l2 & E & Ef & F1 & F2). cbn [List.filter fst]. destruct (N.leb_spec a h) as [L|L].
  - exists ((a, u) :: l1), l2. rewrite Ef. cbn. rewrite <-E. repeat split; [|done]. by constructor.
  - assert (G : Forall (fun p => h < p.1) l).
    { apply Forall_forall. intros [b v] Hb. rewrite Forall_forall in F.
      apply (elem_of_list_fmap_1 fst) in Hb. specialize (F _ Hb). cbn in *. lia. }
    exists [], ((a, u) :: l). split; [done|]. split; [|split; [done|by constructor]].
    apply lfilter_none. intros p Hp. rewrite Forall_forall in G. specialize (G _ Hp). lia.
Qed.

Lemma reverse_cons_inv {A} (l : list A) x r : reverse l = x :: r -> l = reverse r ++ [x].
Proof. intros E. rewrite <-(reverse_involutive l), E. apply reverse_cons. Qed.

Lemma fee_rollback_val h e : est_inv e ->
  exists e', fee_rollback h e = Val e' /\ est_inv e' /\
    ((Forall (fun p => h < p.1) (e_snaps e) /\ e' = Estimator (e_utxos e) (e_height e) []) \/
     exists l p l', e_snaps e = l ++ p :: l' /\ p.1 <= h /\ Forall (fun q => h < q.1) l' /\
       e' = Estimator p.2 p.1 l).
Proof.
  intros (S & F & L). destruct (filter_below_split h _ S) as (l1 & l2 & E & Ef & F1 & F2).
  unfold fee_rollback. rewrite Ef. clear Ef. destruct (reverse l1) as [|[h' u] rest] eqn:R.
  - assert (T : l1 = []) by (rewrite <-(reverse_involutive l1), R; done). subst l1.
    eexists. split; [reflexivity|]. split; [split; [constructor|split; [constructor|cbn; lia]]|].
    left. rewrite E. done.
  - apply reverse_cons_inv in R. rewrite R in *. clear R l1.
    apply Forall_app in F1 as [F1 F1']. inversion_clear F1' as [|? ? Hh _]. cbn in Hh.
    unfold assertM. replace (h' <=? h) with true by lia. eexists. split; [reflexivity|].
    rewrite <-app_assoc in E. cbn in E. rewrite E in *. split.
    + rewrite map_app in S. cbn [map fst] in S. apply ssorted_app in S as (S1 & S2 & S3).
      split; [done|]. split; cbn [e_snaps e_height].
      * apply Forall_forall. intros p Hp. apply (S3 p.1 h'); [by apply elem_of_list_fmap_1|by left].
      * rewrite app_length in L. lia.
    + right. by exists (reverse rest), (h', u), l2.
Qed.

Lemma fee_step_inv o e e' r : est_inv e -> fee_step o e = Val (e', r) -> est_inv e'.
Proof.
  intros I. destruct o as [txs h|h]; cbn [fee_step].
  - destruct (fee_process txs h e) as [[e1 r1]|] eqn:E; [|done]. cbn [mbind_M]. intros [= <- <-]. by eapply fee_process_inv.
  - destruct (fee_rollback_val h e I) as (e1 & -> & I1 & _). cbn [mbind_M]. by intros [= <- <-].
Qed.
Lemma fee_run_inv os e e' rs : est_inv e -> fee_run os e = Val (e', rs) -> est_inv e'.
Proof.
  revert e rs. induction os as [|o os IH]; intros e rs I; cbn [fee_run]; [by intros [= <- _]|].
  destruct (fee_step o e) as [[e1 r1]|] eqn:E; [|done]. cbn [mbind_M].
  destruct (fee_run os e1) as [[e2 r2]|] eqn:E2; [|done]. cbn [mbind_M]. intros [= <- _].
  eapply IH; [|exact E2]. by eapply fee_step_inv.
Qed.
Lemma est0_inv : est_inv est0.
Proof. split; [constructor|split; [constructor|cbn; lia]]. Qed.

(** What is reported depends only on the unspent outputs and the height. *)
Lemma reports_same bs e1 e2 : e_utxos e1 = e_utxos e2 -> e_height e1 = e_height e2 ->
  reports (fee_run (processing bs) e1) = reports (fee_run (processing bs) e2).
Proof.
  revert e1 e2. induction bs as [|[h txs] bs IH]; intros e1 e2 U Hh; [done|]. cbn [processing map fee_run fee_step fst snd].
  unfold fee_process. rewrite <-U, <-Hh. destruct (h <=? e_height e1).
  - cbn [mbind_M]. fold (processing bs). specialize (IH e1 e2 U Hh).
    destruct (fee_run (processing bs) e1) as [[]|], (fee_run (processing bs) e2) as [[]|]; cbn in *; congruence.
  - destruct (apply_txs txs (e_utxos e1) []) as [[u fees]|]; [|done]. cbn [mbind_M]. fold (processing bs).
    match goal with |- reports (mbind_M (fee_run _ ?a) _) = reports (mbind_M (fee_run _ ?b) _) => specialize (IH a b eq_refl eq_refl);
      destruct (fee_run (processing bs) a) as [[]|], (fee_run (processing bs) b) as [[]|]; cbn in *; congruence end.
Qed.

(** Processing at increasing heights appends the passed states to the
    snapshots and drops from the front. *)
Lemma processing_snaps bs e e' rs : above (e_height e) bs ->
  fee_run (processing bs) e = Val (e', rs) -> bs <> [] -> (length bs <= max_utxo_snapshots)%nat ->
  exists pre mid, e_snaps e' = pre ++ (e_height e, e_utxos e) :: mid /\ pre `suffix_of` e_snaps e /\
    length mid = (length bs - 1)%nat /\
    match bs with (h, _) :: _ => Forall (fun p => h <= p.1) mid | [] => True end.
Proof.
  intros A R NE L.
  assert (G : forall bs2 pre mid e1 h0, (length mid + length bs2 <= 11)%nat -> above (e_height e1) bs2 ->
    h0 <= e_height e1 -> Forall (fun p => h0 <= p.1) mid ->
    e_snaps e1 = pre ++ (e_height e, e_utxos e) :: mid -> pre `suffix_of` e_snaps e ->
    forall e' rs, fee_run (processing bs2) e1 = Val (e', rs) ->
    exists pre mid', e_snaps e' = pre ++ (e_height e, e_utxos e) :: mid' /\ pre `suffix_of` e_snaps e /\
    length mid' = (length mid + length bs2)%nat /\ Forall (fun p => h0 <= p.1) mid').
  { clear. induction bs2 as [|[h txs] bs2 IH]; intros pre mid e1 h0 L A H0 Fm Es Sf e' rs; cbn [processing map fee_run].
    - intros [= <- _]. exists pre, mid. cbn. rewrite Nat.add_0_r. done.
    - cbn [fee_step fst snd]. destruct (fee_process txs h e1) as [[e2 r2]|] eqn:E; [|done]. cbn [mbind_M]. fold (processing bs2).
      destruct (fee_run (processing bs2) e2) as [[e3 r3]|] eqn:E3; [|done]. cbn [mbind_M]. intros [= <- _].
      destruct A as [Hlt A]. cbn [length] in L.
      apply fee_process_val in E as [(X & _)|(_ & u & fees & _ & Ee & _)]; [lia|].
      assert (P : exists pre', e_snaps e2 = pre' ++ (e_height e, e_utxos e) :: (mid ++ [(e_height e1, e_utxos e1)]) /\ pre' `suffix_of` e_snaps e).
      { rewrite Ee. cbn [e_snaps]. unfold pushed. rewrite Es, <-app_assoc. cbn [app].
        destruct (Nat.ltb_spec max_utxo_snapshots (length (pre ++ (e_height e, e_utxos e) :: mid ++ [(e_height e1, e_utxos e1)]))) as [G|G].
        - destruct pre as [|x pre].
          + unfold max_utxo_snapshots in G. cbn in G. rewrite app_length in G. cbn in G. lia.
          + exists pre. split; [done|]. etrans; [|exact Sf]. by exists [x].
        - by exists pre. }
      destruct P as (pre' & P1 & P2).
      destruct (IH pre' (mid ++ [(e_height e1, e_utxos e1)]) e2 h0) with (e' := e3) (rs := r3) as (p & m & Q1 & Q2 & Q3 & Q4); try done.
      + rewrite app_length. cbn. lia.
      + rewrite Ee. cbn. done.
      + rewrite Ee. cbn. lia.
      + apply Forall_app. split; [done|]. by constructor.
      + exists p, m. split; [done|]. split; [done|]. split; [|done]. rewrite Q3, app_length. cbn. lia. }
  destruct bs as [|[h txs] bs]; [done|]. cbn [processing map fee_run fee_step fst snd] in R.
  destruct (fee_process txs h e) as [[e1 r1]|] eqn:E; [|done]. cbn [mbind_M] in R. fold (processing bs) in R.
  destruct (fee_run (processing bs) e1) as [[e2 r2]|] eqn:E2; [|done]. cbn [mbind_M] in R. injection R as <- _.
  destruct A as [Hlt A]. apply fee_process_val in E as [(X & _)|(_ & u & fees & _ & Ee & _)]; [lia|].
  assert (P : exists pre', e_snaps e1 = pre' ++ (e_height e, e_utxos e) :: [] /\ pre' `suffix_of` e_snaps e).
  { rewrite Ee. cbn [e_snaps]. unfold pushed. case_match; [|by exists (e_snaps e)].
    destruct (e_snaps e) as [|x l]; [done|]. exists l. split; [done|by exists [x]]. }
  destruct P as (pre' & P1 & P2).
  destruct (G bs pre' [] e1 h) with (e' := e2) (rs := r2) as (p & m & Q1 & Q2 & Q3 & Q4); try done.
  - cbn in *. unfold max_utxo_snapshots in L. lia.
  - rewrite Ee. done.
  - rewrite Ee. cbn. lia.
  - exists p, m. split; [done|]. split; [done|]. split; [cbn in *; lia|done].
Qed.

Lemma pivot_unique {A} (P : A -> Prop) (l1 l2 m1 m2 : list A) x y :
  l1 ++ x :: l2 = m1 ++ y :: m2 -> ~ P x -> ~ P y -> Forall P l2 -> Forall P m2 -> l1 = m1 /\ x = y /\ l2 = m2.
Proof.
  revert m1. induction l1 as [|a l1 IH]; intros [|b m1] E Nx Ny F1 F2; cbn in E.
  - by injection E as -> ->.
  - injection E as -> ->. rewrite Forall_app, Forall_cons in F1. destruct F1 as (_ & ? & _). done.
  - injection E as -> <-. rewrite Forall_app, Forall_cons in F2. destruct F2 as (_ & ? & _). done.
  - injection E as -> E. destruct (IH m1 E Nx Ny F1 F2) as (-> & -> & ->). done.
Qed.

Theorem rollback_restores os e rs bs e' rs' h :
  fee_run os est0 = Val (e, rs) -> above (e_height e) bs -> bs <> [] -> (length bs <= max_utxo_snapshots)%nat ->
  fee_run (processing bs) e = Val (e', rs') ->
  e_height e <= h -> match bs with (h1, _) :: _ => h < h1 | [] => True end ->
  exists e1, fee_rollback h e' = Val e1 /\ e_utxos e1 = e_utxos e /\ e_height e1 = e_height e /\
    e_snaps e1 `suffix_of` e_snaps e /\
    forall bs3, reports (fee_run (processing bs3) e1) = reports (fee_run (processing bs3) e).
Proof.
  intros R A NE L R' Hh Hb. pose proof (fee_run_inv _ _ _ _ est0_inv R) as I.
  pose proof (fee_run_inv _ _ _ _ I R') as I'.
  destruct (processing_snaps _ _ _ _ A R' NE L) as (pre & mid & Es & Sf & Lm & Fm).
  assert (Fm' : Forall (fun p => h < p.1) mid).
  { destruct bs as [|[h1 ?] bs]; [done|]. eapply Forall_impl; [exact Fm|]. cbn. intros; lia. }
  destruct (fee_rollback_val h e' I') as (e1 & E1 & _ & [[F _]|(l & p & l' & Es' & Hp & Fl & ->)]).
  - rewrite Es, Forall_app, Forall_cons in F. destruct F as (_ & F & _). cbn in F. lia.
  - rewrite Es in Es'. apply (pivot_unique (fun q => h < q.1)) in Es' as (-> & <- & ->); [|cbn; lia|lia|done|done].
    eexists. split; [exact E1|]. cbn [e_utxos e_height e_snaps fst snd].
    split; [done|]. split; [done|]. split; [done|]. intros bs3. by apply reports_same.
Qed.

Lemma rollback_too_deep h e : Forall (fun p => h < p.1) (e_snaps e) ->
  fee_rollback h e = Val (Estimator (e_utxos e) (e_height e) []).
Proof.
  intros F. unfold fee_rollback. rewrite (lfilter_none _ (e_snaps e)); [done|].
  intros x Hx. rewrite Forall_forall in F. specialize (F x Hx). lia.
Qed.

(** Rolling back to heights not below the current one undoes one processed
    block each. *)
Fixpoint rollbacks (hs : list N) (e : estimator) : M estimator :=
  match hs with [] => Val e | h :: hs' => e' <-- fee_rollback h e ;; rollbacks hs' e' end.
Lemma lfilter_all {A} (p : A -> bool) l : (forall x, x ∈ l -> p x = true) -> List.filter p l = l.
Proof. induction l as [|a l IH]; intros F; cbn; [done|]. rewrite (F a) by (by left). f_equal. apply IH. intros x Hx. apply F. by right. Qed.
Lemma rollback_pops h e pre y : est_inv e -> e_height e <= h -> e_snaps e = pre ++ [y] -> fee_rollback h e = Val (Estimator y.2 y.1 pre) /\ y.1 <= e_height e.
Proof.
  intros (S & L & _) H E. assert (B : forall q, q ∈ e_snaps e -> q.1 < e_height e).
  { intros q Hq. rewrite Forall_forall in L. apply L. done. }
  assert (Y : y.1 < e_height e) by (apply B; rewrite E; set_solver).
  unfold fee_rollback. rewrite lfilter_all by (intros q Hq%B; lia). rewrite E, reverse_snoc. destruct y as [hy u]. cbn [fst snd] in *. rewrite reverse_involutive.
  unfold assertM. destruct (N.leb_spec hy h); [|lia]. split; [done|lia].
Qed.
Lemma rollbacks_pop hs : forall e pre x m, est_inv e -> Forall (fun h => e_height e <= h) hs -> e_snaps e = pre ++ x :: m -> length hs = S (length m) ->
  rollbacks hs e = Val (Estimator x.2 x.1 pre).
Proof.
  induction hs as [|h hs IH]; intros e pre x m I F E L; [done|]. cbn in L. injection L as L. apply Forall_cons in F as [F Fs].
  cbn [rollbacks]. destruct m as [|z m] using rev_ind.
  - destruct hs; [|done]. destruct (rollback_pops h e pre x I F E) as [-> _]. done.
  - clear IHm. rewrite app_comm_cons, app_assoc in E. destruct (rollback_pops h e _ z I F E) as [R Z]. rewrite R. cbn [mbind_M].
    rewrite app_length in L. cbn in L. apply (IH _ pre x m).
    + apply (fee_step_inv (FRollback h) e _ None I). cbn [fee_step]. by rewrite R.
    + cbn. eapply Forall_impl; [exact Fs|]. cbn. intros; lia.
    + done.
    + lia.
Qed.
Lemma rollbacks_undo os e rs bs e' rs' hs : fee_run os est0 = Val (e, rs) -> above (e_height e) bs -> (length bs <= 12)%nat ->
  fee_run (processing bs) e = Val (e', rs') -> Forall (fun h => e_height e' <= h) hs -> length hs = length bs ->
  exists e1, rollbacks hs e' = Val e1 /\ e_utxos e1 = e_utxos e /\ e_height e1 = e_height e.
Proof.
  intros R A L R' F Lh. destruct (decide (bs = [])) as [->|NE].
  { destruct hs; [|done]. cbn in R'. injection R' as <- _. by exists e. }
  pose proof (fee_run_inv _ _ _ _ est0_inv R) as I. pose proof (fee_run_inv _ _ _ _ I R') as I'.
  destruct (processing_snaps bs e e' rs') as (pre & m & Q1 & Q2 & Q3 & _); try done.
  eexists. split; [apply (rollbacks_pop hs e' pre (e_height e, e_utxos e) m I' F Q1)|done].
  destruct bs; [done|]. cbn in *. lia.
Qed.
