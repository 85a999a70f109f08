(** Which fee rates a processed block yields. *)
From Verif Require Import Base SortProofs FeeModel FeeSpec FeeProofs.
Open Scope N_scope.

(** ** The floating point quotient *)

Lemma div_even_bounds p q : 0 < q ->
  2 * p <= 2 * (div_even p q * q) + q /\ 2 * (div_even p q * q) <= 2 * p + q /\
  (p mod q = 0 -> div_even p q * q = p).
Proof.
  intros Hq. unfold div_even. pose proof (N.div_mod p q ltac:(lia)) as E.
  pose proof (N.mod_lt p q ltac:(lia)) as B. set (m := p / q) in *. set (r := p mod q) in *. clearbody m r.
  destruct (2 * r <? q) eqn:E1; [split_and!; intros; nia|].
  destruct (q <? 2 * r) eqn:E2; [split_and!; intros; nia|].
  destruct (N.even m); split_and!; intros; nia.
Qed.

Lemma round_twice p q s : 0 < q -> 1 <= s -> q < 2 ^ s ->
  (2 * div_even (p * 2 ^ s) q + 2 ^ s) / (2 * 2 ^ s) = nearest p q.
Proof.
  intros Hq Hs Hl. unfold nearest.
  destruct (div_even_bounds (p * 2 ^ s) q Hq) as (B1 & B2 & B3).
  set (m := div_even (p * 2 ^ s) q) in *. clearbody m.
  assert (exists h, 2 ^ s = 2 * h) as [h Eh].
  { exists (2 ^ (s - 1)). rewrite <- N.pow_succ_r by lia. f_equal. lia. }
  set (S := 2 ^ s) in *. clearbody S.
  pose proof (N.div_mod (2 * p + q) (2 * q) ltac:(lia)) as E.
  pose proof (N.mod_lt (2 * p + q) (2 * q) ltac:(lia)) as B.
  set (R := (2 * p + q) / (2 * q)) in *. set (r := (2 * p + q) mod (2 * q)) in *. clearbody R r.
  symmetry. apply (N.div_unique _ _ R (2 * m + S - 2 * S * R)); [|].
  - destruct (decide (2 * m + S < 2 * S * (R + 1))) as [|G]; [nia|exfalso].
    assert (2 * S * (R + 1) * q <= (2 * m + S) * q) by (apply N.mul_le_mono_r; lia).
    assert (2 * p + 1 <= 2 * q * R + q) by lia.
    assert (S * (2 * p + 1) <= S * (2 * q * R + q)) by (apply N.mul_le_mono_l; lia).
    nia.
  - destruct (decide (2 * S * R <= 2 * m + S)) as [|G]; [lia|exfalso].
    assert (2 * m + S + 1 <= 2 * S * R) as G' by lia.
    assert ((2 * m + S + 1) * q <= 2 * S * R * q) as G2 by (apply N.mul_le_mono_r; lia).
    assert (S * (2 * q * R) <= S * (2 * p + q)) as G3 by (apply N.mul_le_mono_l; lia).
    destruct (decide (r = 0)) as [->|Hr].
    + (* a tie: the quotient by [q] is exact *)
      assert (2 * (p * S) + S * q = 2 * S * R * q) as E' by nia.
      assert (p * S = q * (h * (2 * R - 1))) as E2.
      { assert (1 <= R) by nia. nia. }
      assert (m * q = p * S) as E3.
      { apply B3. rewrite E2, N.mul_comm. apply N.mod_mul. lia. }
      nia.
    + assert (S * (2 * q * R + 1) <= S * (2 * p + q)) by (apply N.mul_le_mono_l; lia). nia.
Qed.

Lemma ratio_nearest p q : p < 2 ^ 52 -> 0 < q < 2 ^ 53 -> f64_ratio_round p q = nearest p q.
Proof.
  intros Hp Hq. unfold f64_ratio_round. destruct (N.eqb_spec p 0) as [->|Np].
  { unfold nearest. symmetry. apply N.div_small. lia. }
  set (k0 := (Z.of_N (N.log2 p) - Z.of_N (N.log2 q))%Z).
  match goal with |- context [Z.sub 52 ?k] => set (kk := k) end.
  assert (exists s, (52 - kk)%Z = Z.of_N s /\ 1 <= s /\ q < 2 ^ s) as (s & Es & S1 & S2).
  { pose proof (N.log2_spec p ltac:(lia)) as [P1 P2]. pose proof (N.log2_spec q ltac:(lia)) as [Q1 Q2].
    assert (N.log2 p <= 51) as P3 by (apply N.lt_succ_r, N.log2_lt_pow2; [lia|exact Hp]).
    assert (N.log2 q <= 52) as Q3 by (apply N.lt_succ_r, N.log2_lt_pow2; [lia|apply Hq]).
    rewrite N.pow_succ_r in P2, Q2 by lia.
    set (lp := N.log2 p) in *. set (lq := N.log2 q) in *.
    exists (Z.to_N (52 - kk)). unfold kk. destruct (Z.leb_spec 0 k0) as [Hk|Hk].
    - assert (exists d, lp = lq + d /\ k0 = Z.of_N d) as (d & Ed & Ek) by (exists (lp - lq); lia).
      rewrite Ek, N2Z.id. destruct (N.leb_spec (q * 2 ^ d) p) as [G|G].
      + split; [lia|]. split; [lia|].
        replace (Z.to_N (52 - Z.of_N d)) with (52 - d) by lia.
        assert (2 ^ 52 = 2 ^ d * 2 ^ (52 - d)) as E52 by (rewrite <- N.pow_add_r; f_equal; lia).
        assert (0 < 2 ^ d) by (apply N.neq_0_lt_0, N.pow_nonzero; lia). nia.
      + split; [lia|]. split; [lia|].
        replace (Z.to_N (52 - (Z.of_N d - 1))) with (lq + (53 - d - lq)) by lia.
        rewrite N.pow_add_r. assert (2 ^ 1 <= 2 ^ (53 - d - lq)) by (apply N.pow_le_mono_r; lia). nia.
    - assert (exists d, lq = lp + d /\ (- k0)%Z = Z.of_N d /\ 0 < d) as (d & Ed & Ek & Hd) by (exists (lq - lp); lia).
      rewrite Ek, N2Z.id. destruct (N.leb_spec q (p * 2 ^ d)) as [G|G].
      + split; [lia|]. split; [lia|]. replace (Z.to_N (52 - k0)) with (52 + d) by lia.
        rewrite N.pow_add_r. assert (0 < 2 ^ d) by (apply N.neq_0_lt_0, N.pow_nonzero; lia). nia.
      + split; [lia|]. split; [lia|]. replace (Z.to_N (52 - (k0 - 1))) with (lq + (53 - lp)) by lia.
        rewrite N.pow_add_r. assert (2 ^ 1 <= 2 ^ (53 - lp)) by (apply N.pow_le_mono_r; lia). nia. }
  rewrite Es. destruct (Z.leb_spec 0 (Z.of_N s)); [|lia]. rewrite N2Z.id.
  rewrite (round_twice p q s ltac:(lia) S1 S2).
  unfold as_u64, u64_max. apply N.min_l. unfold nearest.
  assert (nearest p q <= p + 1) as L.
  { unfold nearest. apply N.lt_succ_r. apply N.div_lt_upper_bound; nia. }
  unfold nearest in L. change (2 ^ 52) with 4503599627370496 in Hp.
  change (2 ^ 64 - 1) with 18446744073709551615. lia.
Qed.

(** ** Transactions *)

Lemma created_snoc ts t op : t_id t <> op.1 -> created (ts ++ [t]) op = created ts op.
Proof.
  intros Hn. unfold created.
  assert (List.find (fun x => t_id x =? op.1) (ts ++ [t]) = List.find (fun x => t_id x =? op.1) ts) as ->; [|done].
  induction ts as [|x ts IH]; cbn.
  - destruct (N.eqb_spec (t_id t) op.1); done.
  - destruct (t_id x =? op.1); [done|exact IH].
Qed.

Lemma created_none ts op : Forall (fun t => t_id t <> op.1) ts -> created ts op = None.
Proof.
  intros F. unfold created.
  assert (List.find (fun x => t_id x =? op.1) ts = None) as ->; [|done].
  induction F as [|x ts Hx F IH]; [done|]. cbn. destruct (N.eqb_spec (t_id x) op.1); done.
Qed.

Lemma created_own ts t op : Forall (fun x => t_id x <> t_id t) ts -> t_id t = op.1 ->
  created (ts ++ [t]) op = t_outs t !! N.to_nat op.2.
Proof.
  intros F E. unfold created.
  assert (List.find (fun x => t_id x =? op.1) (ts ++ [t]) = Some t) as ->; [|done].
  induction F as [|x ts Hx F IH]; cbn.
  - rewrite E, N.eqb_refl. done.
  - destruct (N.eqb_spec (t_id x) op.1); [congruence|done].
Qed.

Lemma add_outputs_go (t : tx) (l : list (N * N)) k (u : utxo_set) v :
  N.of_nat (k + length l) <= 2 ^ 32 ->
  let r := fold_left (fun '(u, sent) '(i, o) => (<[(t_id t, wrap32 (N.of_nat i)) := o]> u, wrap64 (sent + o.1)))
    (imap (fun i o => (k + i, o)%nat) l) (u, v) in
  (forall op, r.1 !! op = if bool_decide (op.1 = t_id t /\ N.of_nat k <= op.2 < N.of_nat (k + length l))
                          then l !! (N.to_nat op.2 - k)%nat else u !! op) /\
  (v + sumN (map fst l) < 2 ^ 64 -> r.2 = v + sumN (map fst l)).
Proof.
  revert k u v. induction l as [|o l IH]; intros k u v B; cbn [imap fold_left length].
  { cbn. split; [|intros; lia]. intros op. rewrite bool_decide_false; [done|lia]. }
  cbn [imap fold_left]. rewrite Nat.add_0_r.
  assert (imap ((fun i o => (k + i, o)%nat) ∘ S) l = imap (fun i o => (S k + i, o)%nat) l) as ->.
  { apply imap_ext. intros i x _. cbn. f_equal. lia. }
  cbn [length] in B. specialize (IH (S k) (<[(t_id t, wrap32 (N.of_nat k)) := o]> u) (wrap64 (v + o.1)) ltac:(lia)).
  destruct IH as [IH1 IH2]. split.
  - intros op. rewrite IH1. clear IH1 IH2. unfold wrap32. change two32 with (2 ^ 32).
    rewrite N.mod_small by lia.
    destruct (bool_decide_reflect (op.1 = t_id t /\ N.of_nat (S k) <= op.2 < N.of_nat (S k + length l))) as [Y|Y].
    + rewrite bool_decide_true by lia. replace (N.to_nat op.2 - k)%nat with (S (N.to_nat op.2 - S k)) by lia. done.
    + destruct (decide (op = (t_id t, N.of_nat k))) as [->|Hne].
      * etrans; [apply lookup_insert|]. rewrite bool_decide_true by (cbn; lia). cbn. replace (N.to_nat (N.of_nat k) - k)%nat with 0%nat by lia. done.
      * etrans; [apply lookup_insert_ne; congruence|]. rewrite bool_decide_false; [done|]. intros [A1 A2].
        assert (op.2 <> N.of_nat k). { intros A. apply Hne. destruct op. cbn in *. by subst. } lia.
  - cbn [map sumN foldr] in *. intros L. unfold sumN in *. cbn [map foldr] in L.
    assert (wrap64 (v + o.1) = v + o.1) as Ew by (unfold wrap64; apply N.mod_small; lia).
    rewrite Ew in *. cbn [map foldr]. rewrite IH2 by lia. lia.
Qed.

Lemma add_outputs_spec t u : N.of_nat (length (t_outs t)) <= 2 ^ 32 -> output_value t < 2 ^ 64 ->
  (forall op, (add_outputs t u).1 !! op =
     if bool_decide (op.1 = t_id t /\ op.2 < N.of_nat (length (t_outs t))) then t_outs t !! N.to_nat op.2 else u !! op) /\
  (add_outputs t u).2 = output_value t.
Proof.
  intros L1 L2. destruct (add_outputs_go t (t_outs t) 0 u 0) as [A B]; [lia|].
  unfold add_outputs. split.
  - intros op. rewrite A. cbn [Nat.add]. rewrite Nat.sub_0_r.
    destruct (bool_decide_reflect (op.1 = t_id t /\ N.of_nat 0 <= op.2 < N.of_nat (length (t_outs t)))).
    + rewrite bool_decide_true by lia. done.
    + rewrite bool_decide_false by lia. done.
  - apply B. unfold output_value in L2. lia.
Qed.

(** The tracked outputs are those created and not yet spent; an output that
    was spent together with an unknown one may still be there. *)
Definition tracks (before : list tx) (u : utxo_set) : Prop :=
  (forall op o, u !! op = Some o -> created before op = Some o) /\
  (forall op o, created before op = Some o -> op ∉ concat (map spends before) -> u !! op = Some o).

Lemma tracks_outputs before t u : tracks before u -> sane (before ++ [t]) ->
  let u1 := (add_outputs t u).1 in
  (forall op o, u1 !! op = Some o -> created (before ++ [t]) op = Some o) /\
  (forall op o, created (before ++ [t]) op = Some o -> op ∉ concat (map spends before) -> u1 !! op = Some o).
Proof.
  intros [T1 T2] Hs u1.
  pose proof (sane_outs _ Hs) as Ho. apply Forall_app in Ho as [_ Ho]. apply Forall_cons in Ho as [[L1 L2] _].
  destruct (add_outputs_spec t u L1 L2) as [A _]. fold u1 in A.
  assert (Forall (fun x => t_id x <> t_id t) before) as Hid.
  { pose proof (sane_ids _ Hs) as N0. rewrite map_app in N0. apply NoDup_app in N0 as (_ & N1 & _).
    apply Forall_forall. intros x Hx E. apply (N1 (t_id x)); [apply elem_of_list_fmap; by exists x|].
    rewrite E. cbn. by left. }
  assert (forall op o, t_outs t !! N.to_nat op.2 = Some o -> op.1 = t_id t ->
    op.1 = t_id t /\ op.2 < N.of_nat (length (t_outs t))) as Hb.
  { intros op o Hl E. apply lookup_lt_Some in Hl. lia. }
  split.
  - intros op o. rewrite A. case_bool_decide as Hc.
    + intros E. rewrite created_own; [done|done|by destruct Hc].
    + intros E. apply T1 in E as E'. destruct (decide (op.1 = t_id t)) as [Ei|Ei].
      * rewrite created_none in E'; [done|]. by rewrite Ei.
      * by rewrite created_snoc.
  - intros op o E Hn. rewrite A. destruct (decide (op.1 = t_id t)) as [Ei|Ei].
    + rewrite created_own in E by done. rewrite bool_decide_true by (by eapply Hb). done.
    + rewrite created_snoc in E by done. rewrite bool_decide_false by (by intros [? _]). by apply T2.
Qed.

Lemma take_inputs_spec ins (u : utxo_set) (cr : outpoint -> option (N * N)) v :
  NoDup ins ->
  (forall op, op ∈ ins -> u !! op = cr op) ->
  match mapM cr ins with
  | Some os => v + sumN (map fst os) < 2 ^ 64 -> (take_inputs ins u v).2 = Some (v + sumN (map fst os))
  | None => (take_inputs ins u v).2 = None
  end /\
  (forall op o, (take_inputs ins u v).1 !! op = Some o -> u !! op = Some o) /\
  (forall op, op ∉ ins -> (take_inputs ins u v).1 !! op = u !! op).
Proof.
  revert u v. induction ins as [|op ins IH]; intros u v N0 E; cbn [take_inputs].
  { cbn. split; [intros _; f_equal; lia|done]. }
  apply NoDup_cons in N0 as [N1 N2]. rewrite (E op) by (by left). cbn [mapM].
  destruct (cr op) as [o|] eqn:Eo; cbn [mbind option_bind].
  2:{ cbn. done. }
  assert (forall x, x ∈ ins -> delete op u !! x = cr x) as E'.
  { intros x Hx. etrans; [apply lookup_delete_ne; intros ->; done|]. apply E. by right. }
  destruct (IH (delete op u) (wrap64 (v + o.1)) N2 E') as (I1 & I2 & I3). split_and!.
  - destruct (mapM cr ins) as [os|]; cbn [mbind option_bind]; [|exact I1]. cbn [mret option_ret map].
    unfold sumN in *. cbn [foldr]. intros L.
    assert (wrap64 (v + o.1) = v + o.1) as Ew by (unfold wrap64; apply N.mod_small; lia).
    rewrite Ew in *. rewrite I1 by lia. f_equal. lia.
  - intros x y Hx. apply I2 in Hx. by apply lookup_delete_Some in Hx as [_ ?].
  - intros x Hx. apply not_elem_of_cons in Hx as [Hx1 Hx2]. rewrite I3 by done. by apply lookup_delete_ne.
Qed.

Lemma mapM_ext_in {A B} (f g : A -> option B) (l : list A) : (forall x, x ∈ l -> f x = g x) -> mapM f l = mapM g l.
Proof.
  induction l as [|x l IH]; intros E; [done|]. cbn. rewrite (E x) by (by left). rewrite IH; [done|].
  intros y Hy. apply E. by right.
Qed.

Lemma apply_tx_spec before t u u' r : tracks before u -> sane (before ++ [t]) ->
  apply_tx t u = Val (u', r) -> tracks (before ++ [t]) u' /\ r = fee_rate before t.
Proof.
  intros T Hs E. destruct (tracks_outputs before t u T Hs) as [T1 T2].
  pose proof (sane_outs _ Hs) as Ho. apply Forall_app in Ho as [_ Ho]. apply Forall_cons in Ho as [[L1 L2] _].
  destruct (add_outputs_spec t u L1 L2) as [_ Ev].
  unfold apply_tx in E. destruct (add_outputs t u) as [u1 sent]. cbn [fst snd] in *. subst sent.
  pose proof (sane_spent _ Hs) as Hsp. rewrite map_app, concat_app in Hsp. cbn [map concat] in Hsp.
  rewrite app_nil_r in Hsp. apply NoDup_app in Hsp as (_ & Hdis & Hnd).
  unfold fee_rate. destruct (is_coin_base t) eqn:Ec.
  { injection E as <- <-. split; [|done]. split; [exact T1|].
    intros op o Hc Hn. apply T2; [done|]. intros Hi. apply Hn. rewrite map_app, concat_app. apply elem_of_app. by left. }
  assert (spends t = t_ins t) as Esp by (unfold spends; by rewrite Ec). rewrite Esp in *.
  assert (forall op, op ∈ t_ins t -> created (before ++ [t]) op = created before op) as Hcb.
  { intros op Hop. apply created_snoc. intros E'. pose proof (sane_own _ Hs) as Hw.
    apply Forall_app in Hw as [_ Hw]. apply Forall_cons in Hw as [Hw _]. rewrite Forall_forall in Hw.
    by apply (Hw op). }
  assert (forall op, op ∈ t_ins t -> u1 !! op = created before op) as Hlk.
  { intros op Hop. rewrite <- (Hcb op Hop). destruct (created (before ++ [t]) op) as [o|] eqn:Eo.
    - apply T2; [done|]. intros Hi. by apply (Hdis op).
    - destruct (u1 !! op) eqn:Eu; [|done]. apply T1 in Eu. congruence. }
  destruct (take_inputs_spec (t_ins t) u1 (created before) 0 Hnd Hlk) as (I1 & I2 & I3).
  assert (tracks (before ++ [t]) (take_inputs (t_ins t) u1 0).1) as Ht.
  { split.
    - intros op o Hop. apply T1, I2, Hop.
    - intros op o Hc Hn. rewrite map_app, concat_app in Hn. cbn [map concat] in Hn. rewrite app_nil_r, Esp in Hn.
      apply not_elem_of_app in Hn as [Hn1 Hn2]. rewrite I3 by done. by apply T2. }
  unfold input_value. destruct (mapM (created before) (t_ins t)) as [os|] eqn:Em; cbn [fmap option_fmap option_map].
  - assert (sumN (map fst os) < 2 ^ 50) as Lv.
    { pose proof (sane_ins _ Hs) as Hi. apply Forall_app in Hi as [_ Hi]. apply Forall_cons in Hi as [Hi _].
      apply (Hi before); [by exists [t]|]. unfold input_value. by rewrite Em. }
    destruct (take_inputs (t_ins t) u1 0) as [u2 v]. cbn [fst snd] in *. rewrite I1 in E.
    2:{ change (2 ^ 50) with 1125899906842624 in Lv. change (2 ^ 64) with 18446744073709551616. lia. }
    rewrite N.add_0_l in E. unfold assertM in E. destruct (output_value t <=? sumN (map fst os)); [|done].
    injection E as <- <-. split; [done|]. f_equal.
    pose proof (sane_weight _ Hs) as Hw. apply Forall_app in Hw as [_ Hw]. apply Forall_cons in Hw as [[W1 W2] _].
    set (fee := sumN (map fst os) - output_value t). assert (fee < 2 ^ 50) by (unfold fee; lia).
    change (2 ^ 50) with 1125899906842624 in *. rewrite (f64_small fee), (f64_small (t_weight t)).
    + apply ratio_nearest; [|done]. change (2 ^ 52) with 4503599627370496. lia.
    + lia.
    + change (2 ^ 53) with 9007199254740992. lia.
  - destruct (take_inputs (t_ins t) u1 0) as [u2 v]. cbn [fst snd] in *. subst v. injection E as <- <-. done.
Qed.

Lemma sane_prefix l l' : sane (l ++ l') -> sane l.
Proof.
  intros [A B C D E F]. split.
  - rewrite map_app in A. by apply NoDup_app in A as (? & _).
  - rewrite map_app, concat_app in B. by apply NoDup_app in B as (? & _).
  - by apply Forall_app in C as [? _].
  - by apply Forall_app in D as [? _].
  - by apply Forall_app in E as [? _].
  - apply Forall_app in F as [F _]. eapply Forall_impl; [exact F|]. cbn. intros t Ht x v Hp. apply Ht.
    etrans; [exact Hp|]. by exists l'.
Qed.

Lemma apply_txs_spec before ts u fees u' fees' : tracks before u -> sane (before ++ ts) ->
  apply_txs ts u fees = Val (u', fees') -> tracks (before ++ ts) u' /\ fees' = fees ++ fee_rates before ts.
Proof.
  revert before u fees. induction ts as [|t ts IH]; intros before u fees T Hs E; cbn [apply_txs] in E.
  { injection E as <- <-. cbn [fee_rates]. by rewrite !app_nil_r. }
  destruct (apply_tx t u) as [[u1 r]|] eqn:E1; [|done]. cbn [mbind_M] in E.
  assert (before ++ t :: ts = (before ++ [t]) ++ ts) as El by (by rewrite <- app_assoc). rewrite El in *.
  destruct (apply_tx_spec before t u u1 r T (sane_prefix _ _ Hs) E1) as [T1 ->].
  destruct (IH _ _ _ T1 Hs E) as [T2 ->]. split; [done|]. cbn [fee_rates].
  destruct (fee_rate before t); cbn [option_list app]; [by rewrite <- app_assoc|done].
Qed.

Lemma fee_processing_spec bs e before e' rs : tracks before (e_utxos e) ->
  sane (before ++ concat (map snd bs)) -> above (e_height e) bs ->
  fee_run (processing bs) e = Val (e', rs) ->
  tracks (before ++ concat (map snd bs)) (e_utxos e') /\ rs = block_reports before bs.
Proof.
  revert e before rs. induction bs as [|[h ts] bs IH]; intros e before rs T Hs Ha E.
  { cbn in E. injection E as <- <-. cbn. by rewrite app_nil_r. }
  destruct Ha as [Ha1 Ha2]. cbn [processing map fee_run fee_step fst snd] in E. unfold fee_process in E.
  destruct (N.leb_spec h (e_height e)); [lia|].
  destruct (apply_txs ts (e_utxos e) []) as [[u fees]|] eqn:E1; [|done]. cbn [mbind_M] in E.
  cbn [map concat snd] in Hs. rewrite app_assoc in Hs.
  destruct (apply_txs_spec before ts (e_utxos e) [] u fees T (sane_prefix _ _ Hs) E1) as [T1 ->].
  match type of E with context [fee_run _ ?x] => set (e1 := x) in * end.
  change (map (fun b => FProcess b.2 b.1) bs) with (processing bs) in E.
  destruct (fee_run (processing bs) e1) as [[e2 rs2]|] eqn:E2; [|done]. cbn [mbind_M] in E.
  injection E as <- <-.
  destruct (IH e1 (before ++ ts) rs2 T1 Hs Ha2 E2) as [T2 ->].
  cbn [map concat snd block_reports app]. rewrite app_assoc. done.
Qed.

Lemma block_reports_spec bs e rs : sane (concat (map snd bs)) -> above 0 bs ->
  fee_run (processing bs) est0 = Val (e, rs) -> rs = block_reports [] bs.
Proof.
  intros Hs Ha E. apply (fee_processing_spec bs est0 [] e rs); [|exact Hs|exact Ha|exact E].
  split; [intros op o Ho; exfalso; exact (lookup_empty_Some (M:=gmap outpoint) op o Ho)|intros op o Ho; done].
Qed.
