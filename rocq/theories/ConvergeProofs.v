(** Headers that validate in any context, and a concrete case. *)
From Verif Require Import Base PowModel BlockModel BlockSpec BlockProofs BlockRun ConvergeSpec BlockConverge.
Open Scope N_scope.

Lemma filter_all {A} (f : A -> bool) l : (forall x, x ∈ l -> f x = true) -> List.filter f l = l.
Proof.
  induction l as [|x l IH]; intros E; [done|]. cbn [List.filter]. rewrite (E x) by by left.
  f_equal. apply IH. intros y Hy. apply E. by right.
Qed.

Section Steady.
Context (H : header -> N) (ps : params) (g : header) (hs : list header) (height : header -> nat) (now : N).
Hypothesis Hp : params_ok ps.
Hypothesis St : steady H ps g hs height now.

Lemma chain_elem l i x : chain_of H g hs l -> (g :: l) !! i = Some x -> x ∈ g :: hs.
Proof.
  intros [_ K] E. apply elem_of_list_lookup_2 in E. apply elem_of_cons in E as [->|E]; [by left|].
  right. auto.
Qed.

Lemma chain_height l i x : chain_of H g hs l -> (g :: l) !! i = Some x -> height x = i.
Proof.
  intros C. revert x. induction i as [|i IH]; intros x E.
  { cbn in E. injection E as <-. apply St. }
  destruct (linked_lookup_gprev H g _ _ _ (proj1 C) E) as (y & Ey & Hy).
  rewrite <- (IH y Ey). apply St; [|by eapply chain_elem|done].
  apply (proj2 C). cbn in E. by eapply elem_of_list_lookup_2.
Qed.

Lemma chain_bits l i x : chain_of H g hs l -> (g :: l) !! i = Some x -> h_bits x = h_bits g.
Proof.
  intros C E. apply (chain_elem _ _ _ C), elem_of_cons in E as [->|E]; [done|]. by apply St.
Qed.

Lemma last_lookup l : (g :: l) !! length l = Some (List.last l g).
Proof.
  destruct l as [|y l] using rev_ind; [done|]. rewrite List.last_last, app_length, Nat.add_comm.
  cbn. by apply list_lookup_middle.
Qed.

Lemma last_index (P : nat -> bool) n : P 0%nat = true ->
  exists i, (i <= n)%nat /\ P i = true /\ forall j, (i < j <= n)%nat -> P j = false.
Proof.
  intros H0. induction n as [|n (i & Hi & Pi & Hj)].
  { exists 0%nat. split; [lia|]. split; [done|]. intros; lia. }
  destruct (P (S n)) eqn:E.
  - exists (S n). split; [lia|]. split; [done|]. intros; lia.
  - exists i. split; [lia|]. split; [done|]. intros j Hx. destruct (decide (j = S n)) as [->|]; [done|]. apply Hj. lia.
Qed.

Theorem steady_valid : valid_in_any_context H ps g hs now.
Proof.
  intros c l Ep Ec Eg Ea Cl l' x Cx.
  assert (x ∈ hs) as Hx by (apply (proj2 Cx), elem_of_app; right; by left).
  assert (chain_of H g hs l') as Cl'.
  { destruct Cx as [L K]. apply linked_app in L as [L _]. split; [done|]. intros y Hy. apply K, elem_of_app. by left. }
  pose proof (last_lookup l') as Hlast. set (par := List.last l' g) in *.
  assert (h_bits par = h_bits g) as Bp by exact (chain_bits _ _ _ Cl' Hlast).
  assert (h_bits x = h_bits g) as Bx by by apply St.
  assert (0 < adj_interval ps) as Hadj.
  { destruct (adj_interval_pos (fun _ => 0) (fun _ => 0%nat) g ps Hp). done. }
  assert (height x = S (length l')) as Hh.
  { eapply (chain_height (l' ++ [x])); [done|]. cbn. by apply list_lookup_middle. }
  unfold valid_at. rewrite Ep, Ea, Eg. split; [|split; [|split; [|split; [|split]]]].
  - destruct Cx as [L _]. apply linked_app in L as [_ [L _]]. rewrite L.
    unfold par. rewrite last_ne_last. by rewrite last_hash_ne_last.
  - assert (exists bits, rule_bits ps (g :: l) g (lenN l') par x bits /\ target_of_bits bits = h_target g) as (b & Hb & Et).
    2:{ exists b. split; [done|]. rewrite Et. unfold h_target. by rewrite Bx. }
    unfold rule_bits. fold (adj_interval ps).
    destruct (decide (p_allow_min ps = true /\ (lenN l' + 1) mod adj_interval ps <> 0)) as [[Am Hm]|Hn].
    + exists (h_bits g). split; [|reflexivity]. split.
      * intros _ _. pose proof (proj2 (st_net _ _ _ _ _ _ St) Am) as Eg'. split; [done|]. intros _.
        destruct (last_index (fun i => (N.of_nat i mod adj_interval ps =? 0)%N) (length l)) as (i & Hi & Pi & Hj).
        { apply N.eqb_eq. change (N.of_nat 0) with 0. apply N.mod_0_l. lia. }
        destruct (lookup_lt_is_Some_2 (g :: l) i) as [y Ey]; [cbn; lia|].
        exists i, y. split; [done|]. split; [symmetry; exact (chain_bits _ _ _ Cl Ey)|].
        split; [right; by apply N.eqb_eq|]. intros j z Hlt Ez. split.
        -- rewrite <- Eg'. exact (chain_bits _ _ _ Cl Ez).
        -- apply N.eqb_neq. apply Hj. apply lookup_lt_Some in Ez. cbn in Ez. lia.
      * intros [Hf|Hf]; [congruence|done].
    + unfold next_difficulty_target.
      destruct (p_spacing ps =? 0) eqn:E1; [destruct Hp; lia|].
      destruct (adj_interval ps =? 0) eqn:E2; [lia|].
      destruct ((lenN l' + 1) mod adj_interval ps =? 0) eqn:E3; cbn [negb].
      * exists (h_bits g). split; [|reflexivity]. split; [intros; lia|]. intros _.
        rewrite (proj1 (st_net _ _ _ _ _ _ St)). f_equal.
        match goal with |- context [match ?o with Some _ => _ | None => _ end] => destruct o as [y|] eqn:Ey end; [|done].
        exact (chain_bits _ _ _ Cl Ey).
      * exists (bits_of_target (h_target par)). split.
        -- split; [|done]. intros Am Hm. tauto.
        -- unfold h_target at 1. rewrite Bp. apply St.
  - by apply St.
  - intros k E. rewrite Ec, lookup_empty in E. done.
  - unfold after_median.
    assert (length (past_times (g :: l) (lenN l' + 1)) = Nat.min 11 (S (length l'))) as El.
    { unfold past_times. rewrite fmap_length, seq_length. unfold lenN. f_equal. lia. }
    assert (List.filter (fun y => (y <? h_time x)%N) (past_times (g :: l) (lenN l' + 1)) = past_times (g :: l) (lenN l' + 1)) as ->.
    { apply filter_all. intros t Ht.
      unfold past_times in Ht. apply elem_of_list_fmap in Ht as (i & -> & Hi). apply elem_of_seq in Hi.
      apply N.ltb_lt. destruct ((g :: l) !! (N.to_nat (lenN l' + 1) - i)%nat) as [y|] eqn:Ey; cbn.
      - apply St; [exact (chain_elem _ _ _ Cl Ey)|by right|]. rewrite (chain_height _ _ _ Cl Ey), Hh. unfold lenN in *. lia.
      - assert (h_time g < h_time x); [|lia]. apply St; [by left|by right|]. rewrite Hh.
        rewrite (proj1 (st_height _ _ _ _ _ _ St)). lia. }
    rewrite El. apply Nat.div_lt; lia.
  - by apply St.
Qed.

End Steady.
