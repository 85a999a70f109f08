(** The validation rules read off the active chain: required target and median
    time past. *)
From Verif Require Import Base PowModel BlockModel BlockSpec SortProofs BlockProofs.
Open Scope N_scope.

(** * The last element that satisfies a test *)

Lemma find_rev_iff {A} (f : A -> bool) (l : list A) (x : A) :
  List.find f (rev l) = Some x <->
  exists i, l !! i = Some x /\ f x = true /\ forall j y, (i < j)%nat -> l !! j = Some y -> f y = false.
Proof.
  induction l as [|a l IH] using rev_ind; [split; [done|]; by intros (i & E & _)|].
  rewrite rev_app_distr. cbn [rev app List.find]. destruct (f a) eqn:Ef.
  - split.
    + intros [= <-]. exists (length l). split; [by apply list_lookup_middle|]. split; [done|].
      intros j y Hj Ey. apply lookup_lt_Some in Ey. rewrite app_length in Ey. cbn [length] in Ey. lia.
    + intros (i & E & Hf & Hn). destruct (decide (i < length l)%nat) as [Hi|Hi].
      * specialize (Hn (length l) a Hi ltac:(by apply list_lookup_middle)). congruence.
      * rewrite lookup_app_r in E by lia. apply list_lookup_singleton_Some in E as [_ <-]. done.
  - rewrite IH. split; intros (i & E & Hf & Hn).
    + exists i. split; [by apply lookup_app_l_Some|]. split; [done|]. intros j y Hj Ey.
      destruct (decide (j < length l)%nat) as [Hl|Hl].
      * rewrite lookup_app_l in Ey by done. eauto.
      * rewrite lookup_app_r in Ey by lia. apply list_lookup_singleton_Some in Ey as [_ <-]. done.
    + assert (i < length l)%nat as Hi.
      { destruct (decide (i < length l)%nat) as [|Hl]; [done|].
        rewrite lookup_app_r in E by lia. apply list_lookup_singleton_Some in E as [_ <-]. congruence. }
      rewrite lookup_app_l in E by done. exists i. split; [done|]. split; [done|].
      intros j y Hj Ey. apply (Hn j); [done|]. by apply lookup_app_l_Some.
Qed.

Lemma iter_chain_lookup chain i :
  iter_chain chain !! i = (fun b => (N.of_nat i, cb_header b)) <$> chain !! i.
Proof. unfold iter_chain. apply list_lookup_imap. Qed.

Lemma active_lookup c i : active c !! i = cb_header <$> c_chain c !! i.
Proof.
  unfold active, c_iter. change (map snd ?l) with (snd <$> l). rewrite list_lookup_fmap, iter_chain_lookup.
  by destruct (c_chain c !! i).
Qed.

(** * The required target *)

Lemma pow_limit_easiest n : pow_limit_bits n = easiest n.
Proof. by destruct n. Qed.

Lemma next_min_iff c ps bits : 0 < adj_interval ps ->
  next_min_difficulty_target ps (c_chain c) = bits <->
  exists i x, active c !! i = Some x /\ bits = h_bits x /\
    (bits <> easiest (p_network ps) \/ N.of_nat i mod (p_timespan ps / p_spacing ps) = 0) /\
    forall j y, (i < j)%nat -> active c !! j = Some y ->
      h_bits y = easiest (p_network ps) /\ N.of_nat j mod (p_timespan ps / p_spacing ps) <> 0.
Proof.
  intros Hp. unfold next_min_difficulty_target. rewrite pow_limit_easiest.
  change (p_timespan ps / p_spacing ps) with (adj_interval ps).
  set (f := fun '(h, hd) => _).
  set (R := fun p : N * header => exists i, iter_chain (c_chain c) !! i = Some p /\ f p = true /\
     forall j y, (i < j)%nat -> iter_chain (c_chain c) !! j = Some y -> f y = false).
  assert (forall bits, (exists p, R p /\ bits = h_bits p.2) <->
    exists i x, active c !! i = Some x /\ bits = h_bits x /\
    (bits <> easiest (p_network ps) \/ N.of_nat i mod adj_interval ps = 0) /\
    forall j y, (i < j)%nat -> active c !! j = Some y ->
      h_bits y = easiest (p_network ps) /\ N.of_nat j mod adj_interval ps <> 0) as HR.
  { intros b. split.
    - intros ([n x] & (i & E & Hf & Hn) & ->). cbn [snd]. rewrite iter_chain_lookup in E.
      destruct (c_chain c !! i) as [cb|] eqn:Ec; [|done]. injection E as <- <-.
      exists i, (cb_header cb). rewrite active_lookup, Ec. split; [done|]. split; [done|].
      cbn [f] in Hf. apply orb_true_iff in Hf. split; [lia|].
      intros j y Hj Ey. rewrite active_lookup in Ey. destruct (c_chain c !! j) as [cb'|] eqn:Ej; [|done].
      injection Ey as <-. specialize (Hn j (N.of_nat j, cb_header cb') Hj).
      rewrite iter_chain_lookup, Ej in Hn. specialize (Hn eq_refl). cbn [f] in Hn.
      apply orb_false_iff in Hn. lia.
    - intros (i & x & E & -> & Hf & Hn). rewrite active_lookup in E.
      destruct (c_chain c !! i) as [cb|] eqn:Ec; [|done]. injection E as <-.
      exists (N.of_nat i, cb_header cb). split; [|done]. exists i. rewrite iter_chain_lookup, Ec.
      split; [done|]. cbn [f]. split; [apply orb_true_iff; lia|]. intros j y Hj Ey.
      rewrite iter_chain_lookup in Ey. destruct (c_chain c !! j) as [cb'|] eqn:Ej; [|done].
      injection Ey as <-. specialize (Hn j (cb_header cb') Hj). rewrite active_lookup, Ej in Hn.
      specialize (Hn eq_refl). cbn [f]. apply orb_false_iff. lia. }
  rewrite <- HR. destruct (List.find f (rev (iter_chain (c_chain c)))) as [[n x]|] eqn:Ef.
  - split.
    + intros <-. exists (n, x). split; [|done]. by apply find_rev_iff.
    + intros (p & Hr & ->). apply find_rev_iff in Hr. rewrite Ef in Hr. by injection Hr as <-.
  - exfalso. pose proof (find_none f (rev (iter_chain (c_chain c))) Ef (0, cb_header (c_head c))) as Hn.
    assert (f (0, cb_header (c_head c)) = false) as Hf.
    { apply Hn. rewrite <- in_rev. by left. }
    cbn [f] in Hf. apply orb_false_iff in Hf. rewrite N.mod_0_l in Hf by lia. lia.
Qed.

Lemma rule_bits_iff c ps g height parent hd bits : params_ok ps ->
  required_bits ps (c_chain c) g (mkCB height parent) hd = Val bits <->
  rule_bits ps (active c) g height parent hd bits.
Proof.
  intros Hp. destruct (adj_interval_pos (fun _ => 0) (fun _ => 0%nat) parent ps Hp) as [A B].
  unfold required_bits, rule_bits. cbn [cb_header cb_height].
  change (p_timespan ps / p_spacing ps) with (adj_interval ps).
  destruct (p_spacing ps =? 0) eqn:E1; [lia|]. destruct (adj_interval ps =? 0) eqn:E2; [lia|].
  cbn [orb]. rewrite andb_false_r.
  assert (wadd32 (h_time parent) (wmul32 (wrap32 (p_spacing ps)) 2) = (h_time parent + 2 * p_spacing ps) mod 2 ^ 32) as ->.
  { unfold wadd32, wmul32, wrap32. change two32 with (2 ^ 32).
    rewrite N.mul_mod_idemp_l by done. rewrite N.add_mod_idemp_r by done. f_equal. lia. }
  set (lim := (h_time parent + 2 * p_spacing ps) mod 2 ^ 32).
  assert (next_difficulty_target ps (get_by_height (c_chain c)) g height (h_time parent) (h_target parent) =
    next_difficulty_target ps (fun h => active c !! N.to_nat h) g height (h_time parent) (h_target parent)) as ->.
  { unfold next_difficulty_target. f_equal. rewrite active_lookup. unfold get_by_height.
    by destruct (c_chain c !! N.to_nat (height - (adj_interval ps - 1))). }
  destruct (p_allow_min ps) eqn:Ea; cbn [andb].
  2:{ split; [intros E; split; [done|]; by intros _|]. intros [_ E]. apply E. by left. }
  destruct ((height + 1) mod adj_interval ps =? 0) eqn:Eh; cbn [negb].
  { split; [intros E; split; [lia|]; by intros _|]. intros [_ E]. apply E. right. lia. }
  rewrite pow_limit_easiest. destruct (lim <? h_time hd) eqn:El.
  - split; [|intros [E _]; f_equal; symmetry; apply E; [done|lia|lia]].
    intros [= <-]. split; [|intros [?|?]; [done|lia]]. intros _ _. split; [done|]. intros. lia.
  - split.
    + intros E. injection E as E. apply (next_min_iff c ps bits A) in E.
      split; [|intros [?|?]; [done|lia]]. intros _ _. split; [lia|]. intros _. exact E.
    + intros [E _]. f_equal. apply (next_min_iff c ps bits A). apply E; [done|lia|lia].
Qed.

(** * The median time past *)

Lemma after_median_iff ts m t : sortN ts !! (length (sortN ts) / 2)%nat = Some m ->
  m < t <-> after_median ts t.
Proof.
  intros E. unfold after_median. rewrite sortN_length in E. set (k := (length ts / 2)%nat) in *.
  pose proof (sortN_strongly ts) as Hs. pose proof (sortN_length ts) as Hl.
  assert (length (List.filter (fun x => (x <? t)%N) ts) = length (List.filter (fun x => (x <? t)%N) (sortN ts))) as ->.
  { pose proof (sortN_perm ts) as P. clear -P. induction P; cbn; try done.
    - destruct (x <? t); cbn; lia.
    - destruct (x <? t), (y <? t); done.
    - lia. }
  rewrite <- (take_drop k (sortN ts)). rewrite List.filter_app, app_length.
  assert (forall l, (length (List.filter (fun x => (x <? t)%N) l) <= length l)%nat) as Hle.
  { induction l as [|a l IH]; [done|]. cbn. destruct (a <? t); cbn; lia. }
  pose proof (lookup_lt_Some _ _ _ E) as Hk. rewrite Hl in Hk. split.
  - intros Hm. rewrite (drop_S _ _ _ E). cbn [List.filter].
    destruct (m <? t) eqn:Em; [|lia]. cbn [length].
    assert (List.filter (fun x => (x <? t)%N) (take k (sortN ts)) = take k (sortN ts)) as ->.
    { assert (Forall (fun x => x < t) (take k (sortN ts))) as F.
      { apply Forall_lookup. intros i x Hx. apply lookup_take_Some in Hx as [Hx Hi].
        pose proof (strongly_lookup _ _ i k x m Hs Hi Hx E). lia. }
      clear -F. induction F; [done|]. cbn. destruct (x <? t) eqn:Ex; [by f_equal|lia]. }
    rewrite take_length. lia.
  - intros Hc. destruct (decide (m < t)) as [|Hm]; [done|]. exfalso.
    assert (List.filter (fun x => (x <? t)%N) (drop k (sortN ts)) = []) as Hd.
    { assert (Forall (fun x => t <= x) (drop k (sortN ts))) as F.
      { apply Forall_lookup. intros i x Hx. rewrite lookup_drop in Hx.
        destruct i as [|i]; [rewrite Nat.add_0_r in Hx; assert (x = m) by congruence; lia|].
        pose proof (strongly_lookup _ _ k (k + S i)%nat m x Hs ltac:(lia) E Hx). lia. }
      clear -F. induction F; [done|]. cbn. destruct (x <? t) eqn:Ex; [lia|done]. }
    rewrite Hd in Hc. cbn [length] in Hc. specialize (Hle (take k (sortN ts))).
    rewrite take_length in Hle. lia.
Qed.

Lemma after_median_perm ts ts' t : ts ≡ₚ ts' -> after_median ts t <-> after_median ts' t.
Proof.
  intros P. unfold after_median.
  assert (length (List.filter (fun x => (x <? t)%N) ts) = length (List.filter (fun x => (x <? t)%N) ts')) as ->.
  { clear -P. induction P; cbn; try done.
    - destruct (x <? t); cbn; lia.
    - destruct (x <? t), (y <? t); done.
    - lia. }
  by rewrite (Permutation_length P).
Qed.

Lemma past_times_perm c h : h <> 0 ->
  let ts := map (fun b => h_time (cb_header b)) (take (N.to_nat (h - (h - 11))) (drop (N.to_nat (h - 11)) (c_chain c))) in
  ts ++ replicate (N.to_nat (h - (h - 11)) - length ts) 0 ≡ₚ past_times (active c) h.
Proof.
  intros Hh ts. etrans; [|apply (reverse_Permutation (past_times (active c) h))].
  match goal with |- ?a ≡ₚ ?b => assert (a = b) as ->; [|done] end.
  set (n := N.to_nat (h - (h - 11))). set (s := N.to_nat (h - 11)).
  assert (Nat.min 11 (N.to_nat h) = n) as En by (unfold n; lia).
  assert (N.to_nat h = s + n)%nat as Eh by (unfold s, n; lia).
  assert (length (past_times (active c) h) = n) as Lp by (unfold past_times; by rewrite fmap_length, seq_length).
  assert (length ts <= n)%nat as Lt by (unfold ts; rewrite map_length, take_length; fold n; lia).
  assert (length ts = Nat.min n (length (c_chain c) - s)) as Lt'.
  { unfold ts. rewrite map_length, take_length, drop_length. fold n s. lia. }
  apply list_eq. intros i. destruct (decide (i < n)%nat) as [Hi|Hi].
  2:{ rewrite !lookup_ge_None_2; [done|..]; [rewrite reverse_length|rewrite app_length, replicate_length]; lia. }
  rewrite reverse_lookup by lia. rewrite Lp. unfold past_times. rewrite list_lookup_fmap, lookup_seq_lt by lia.
  cbn [fmap option_fmap option_map]. rewrite active_lookup.
  replace (N.to_nat h - (1 + (n - S i)))%nat with (s + i)%nat by lia.
  destruct (decide (i < length ts)%nat) as [Hl|Hl].
  - rewrite lookup_app_l by done. unfold ts. change (map ?f ?l) with (f <$> l).
    rewrite list_lookup_fmap. fold n s. rewrite lookup_take by lia. rewrite lookup_drop.
    destruct (c_chain c !! (s + i)%nat) as [b|] eqn:E; [done|].
    apply lookup_ge_None in E. lia.
  - rewrite lookup_app_r by lia. rewrite lookup_replicate_2 by lia.
    rewrite (lookup_ge_None_2 (c_chain c)); [done|]. lia.
Qed.

Lemma median_iff c h m t : h <> 0 -> median_time_past (c_chain c) h = Val m ->
  m < t <-> after_median (past_times (active c) h) t.
Proof.
  intros Hh. unfold median_time_past, assertM, MEDIAN_TIME_SPAN.
  destruct (negb (h =? 0)) eqn:E0; [|lia].
  unfold range_blocks, assertM. destruct (h - 11 <=? h) eqn:E1; [|lia]. cbn [mbind_M].
  match goal with |- context [sortN ?l] => set (ts := l) end.
  destruct (sortN ts !! (length (sortN ts) / 2)%nat) as [m'|] eqn:E; [|done]. intros [= ->].
  rewrite (after_median_iff ts m t E). apply after_median_perm. by apply past_times_perm.
Qed.
