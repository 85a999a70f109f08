(** Proofs about the compact target encoding and the difficulty rule. *)
From Verif Require Import Base PowModel BlockModel BlockSpec.
Open Scope N_scope.

Lemma pow2_pos n : 0 < 2 ^ n.
Proof. apply N.neq_0_lt_0, N.pow_nonzero. lia. Qed.

Lemma lor_add a b : a < 2 ^ 24 -> N.lor a (N.shiftl b 24) = a + b * 2 ^ 24.
Proof.
  intros Ha. rewrite N.shiftl_mul_pow2. rewrite <- N.lxor_lor.
  - rewrite <- N.add_nocarry_lxor; [done|]. apply N.bits_inj_0. intros n. rewrite N.land_spec.
    destruct (N.lt_ge_cases n 24).
    + rewrite N.mul_pow2_bits_low by done. by rewrite andb_false_r.
    + rewrite (N.bits_above_log2 a); [done|]. destruct (N.eq_dec a 0) as [->|]; [cbn; lia|].
      apply N.log2_lt_pow2 in Ha; lia.
  - apply N.bits_inj_0. intros n. rewrite N.land_spec.
    destruct (N.lt_ge_cases n 24).
    + rewrite N.mul_pow2_bits_low by done. by rewrite andb_false_r.
    + rewrite (N.bits_above_log2 a); [done|]. destruct (N.eq_dec a 0) as [->|]; [cbn; lia|].
      apply N.log2_lt_pow2 in Ha; lia.
Qed.

(** Decoding [m + e * 2^24] for a mantissa without sign bit. *)
Lemma decode_eq m e : m < 2 ^ 23 ->
  target_of_bits (m + e * 2 ^ 24) =
    if e <=? 3 then m / 2 ^ (8 * (3 - e)) else (m * 2 ^ (8 * (e - 3))) mod two256.
Proof.
  intros Hm. unfold target_of_bits. change 16777216 with (2 ^ 24).
  assert ((m + e * 2 ^ 24) / 2 ^ 24 = e) as ->.
  { rewrite N.div_add by lia. rewrite N.div_small by lia. lia. }
  assert ((m + e * 2 ^ 24) mod 2 ^ 24 = m) as ->.
  { rewrite N.mod_add by lia. apply N.mod_small. lia. }
  destruct (e <=? 3) eqn:E.
  - rewrite N.shiftr_div_pow2. set (x := m / _).
    assert (x <= m) by (apply N.div_le_upper_bound; [apply N.pow_nonzero; lia|]; pose proof (pow2_pos (8 * (3 - e))); nia).
    destruct (8388607 <? x) eqn:Ex; [lia|]. rewrite N.shiftl_mul_pow2, N.pow_0_r, N.mul_1_r.
    apply N.mod_small. unfold two256. assert (2 ^ 23 < 2 ^ 256) by (apply N.pow_lt_mono_r; lia). lia.
  - destruct (8388607 <? m) eqn:Ex; [lia|]. by rewrite N.shiftl_mul_pow2.
Qed.

Lemma div_div_pow a m n : a / 2 ^ m / 2 ^ n = a / 2 ^ (m + n).
Proof. rewrite N.div_div by (apply N.pow_nonzero; lia). by rewrite N.pow_add_r. Qed.

Lemma testbit23 m : m < 2 ^ 24 -> N.testbit m 23 = (2 ^ 23 <=? m).
Proof.
  intros Hm. rewrite N.testbit_eqb.
  assert (m / 2 ^ 23 < 2) as Hd. { apply N.div_lt_upper_bound; lia. }
  destruct (2 ^ 23 <=? m) eqn:E.
  - assert (m / 2 ^ 23 = 1) as ->; [|done]. assert (1 <= m / 2 ^ 23); [|lia].
    apply N.div_le_lower_bound; lia.
  - rewrite N.div_small by lia. done.
Qed.

(** The compact encoding keeps the top bits: it rounds down to a multiple of a
    power of two that is less than a 2^15-th of the target. *)
Lemma compact_round t : t < two256 -> exists j,
  target_of_bits (bits_of_target t) = t / 2 ^ j * 2 ^ j /\ (j = 0 \/ 2 ^ (j + 15) <= t) /\
  exists i, j = 8 * i.
Proof.
  intros Ht. destruct (N.eq_dec t 0) as [->|Hn]; [exists 0; split; [reflexivity|]; split; [by left|by exists 0]|].
  unfold bits_of_target. rewrite N.size_log2 by done.
  set (s := N.log2 t / 8).
  assert ((N.succ (N.log2 t) + 7) / 8 = s + 1) as ->.
  { unfold s. replace (N.succ (N.log2 t) + 7) with (N.log2 t + 1 * 8) by lia. rewrite N.div_add by lia. done. }
  assert (2 ^ (8 * s) <= t < 2 ^ (8 * s + 8)) as [Hlo Hhi].
  { destruct (N.log2_spec t) as [L1 L2]; [lia|].
    pose proof (N.div_mod (N.log2 t) 8 ltac:(lia)) as Hd. fold s in Hd.
    pose proof (N.mod_lt (N.log2 t) 8 ltac:(lia)). split.
    - etransitivity; [|exact L1]. apply N.pow_le_mono_r; lia.
    - eapply N.lt_le_trans; [exact L2|]. apply N.pow_le_mono_r; lia. }
  assert (s < 32) as Hs.
  { assert (2 ^ (8 * s) < 2 ^ 256) as Hx by (unfold two256 in Ht; lia). apply N.pow_lt_mono_r_iff in Hx; lia. }
  destruct (s + 1 <=? 3) eqn:E3.
  - (* at most three bytes: the mantissa is shifted left *)
    assert (t < 2 ^ 24) as Ht24.
    { eapply N.lt_le_trans; [exact Hhi|]. apply N.pow_le_mono_r; lia. }
    rewrite (N.mod_small t (2 ^ 64)) by (assert (2 ^ 24 < 2 ^ 64) by (apply N.pow_lt_mono_r; lia); lia).
    rewrite N.shiftl_mul_pow2. set (k := 8 * (3 - (s + 1))).
    assert (t * 2 ^ k < 2 ^ 24) as Hc.
    { replace (2 ^ 24) with (2 ^ (8 * s + 8) * 2 ^ k).
      - pose proof (pow2_pos k). nia.
      - rewrite <- N.pow_add_r. f_equal. unfold k. lia. }
    unfold wrap32. rewrite (N.mod_small _ two32) by (unfold two32; lia).
    rewrite testbit23 by done. destruct (2 ^ 23 <=? t * 2 ^ k) eqn:Eb.
    + rewrite N.shiftr_div_pow2, lor_add.
      2:{ apply N.div_lt_upper_bound; lia. }
      rewrite decode_eq by (apply N.div_lt_upper_bound; lia).
      destruct (s + 1 + 1 <=? 3) eqn:E4.
      * exists 0. split; [|split; [by left|by exists 0]]. rewrite div_div_pow.
        replace (8 + 8 * (3 - (s + 1 + 1))) with k by (unfold k; lia).
        rewrite N.div_mul by (apply N.pow_nonzero; lia). rewrite N.pow_0_r, N.div_1_r. lia.
      * assert (s = 2) as Es by lia. assert (k = 0) as -> by (unfold k; lia).
        exists 8. rewrite N.pow_0_r, N.mul_1_r in *.
        replace (s + 1 + 1) with 4 by lia. change (8 * (4 - 3)) with 8. split.
        -- apply N.mod_small. unfold two256. eapply N.le_lt_trans; [|exact Ht].
           rewrite N.mul_comm. apply N.mul_div_le. lia.
        -- split; [|by exists 1]. right. change (2 ^ (8 + 15)) with (2 ^ 23). lia.
    + rewrite lor_add by done. rewrite decode_eq by lia. rewrite E3.
      exists 0. split; [|split; [by left|by exists 0]]. fold k. rewrite N.div_mul by (apply N.pow_nonzero; lia).
      rewrite N.pow_0_r, N.div_1_r. lia.
  - (* more than three bytes: the top three *)
    rewrite N.shiftr_div_pow2. set (k := 8 * (s + 1 - 3)).
    assert (t / 2 ^ k < 2 ^ 24) as Hc.
    { apply N.div_lt_upper_bound; [apply N.pow_nonzero; lia|]. rewrite <- N.pow_add_r.
      replace (k + 24) with (8 * s + 8) by (unfold k; lia). done. }
    unfold wrap32. rewrite (N.mod_small _ two32) by (unfold two32; lia).
    rewrite testbit23 by done.
    assert (forall j, t / 2 ^ j * 2 ^ j < two256) as Hsm.
    { intros j. eapply N.le_lt_trans; [|exact Ht]. rewrite N.mul_comm. apply N.mul_div_le.
      apply N.pow_nonzero. lia. }
    destruct (2 ^ 23 <=? t / 2 ^ k) eqn:Eb.
    + rewrite N.shiftr_div_pow2, lor_add.
      2:{ apply N.div_lt_upper_bound; lia. }
      rewrite decode_eq by (apply N.div_lt_upper_bound; lia).
      destruct (s + 1 + 1 <=? 3) eqn:E4; [lia|]. rewrite div_div_pow.
      replace (8 * (s + 1 + 1 - 3)) with (k + 8) by (unfold k; lia).
      exists (k + 8). split; [apply N.mod_small, Hsm|]. split; [|exists (s + 1 - 2); unfold k; lia]. right.
      assert (2 ^ 23 * 2 ^ k <= t) as Hx.
      { rewrite N.mul_comm. transitivity (2 ^ k * (t / 2 ^ k)); [nia|]. apply N.mul_div_le. apply N.pow_nonzero. lia. }
      rewrite <- N.pow_add_r in Hx. replace (k + 8 + 15) with (23 + k) by lia. done.
    + rewrite lor_add by done. rewrite decode_eq by lia. rewrite E3. fold k.
      exists k. split; [apply N.mod_small, Hsm|]. split; [|by exists (s + 1 - 3)]. right.
      etransitivity; [|exact Hlo]. apply N.pow_le_mono_r; [lia|]. unfold k. lia.
Qed.

Lemma compact_bounds t : t < two256 ->
  target_of_bits (bits_of_target t) <= t /\ (t - target_of_bits (bits_of_target t)) * 2 ^ 15 <= t.
Proof.
  intros Ht. destruct (compact_round t Ht) as (j & -> & Hj & _).
  pose proof (pow2_pos j) as Hp.
  pose proof (N.div_mod t (2 ^ j) ltac:(lia)) as Hd. pose proof (N.mod_lt t (2 ^ j) ltac:(lia)) as Hm.
  split; [lia|]. destruct Hj as [->|Hj]; [rewrite N.pow_0_r, N.div_1_r; lia|].
  rewrite N.pow_add_r in Hj. nia.
Qed.

(** Every decoded target is a mantissa below 2^23 times a power of 256. *)
Lemma decode_form b : exists m k, target_of_bits b = m * 2 ^ (8 * k) /\ m < 2 ^ 23 /\
  target_of_bits b < two256.
Proof.
  unfold target_of_bits. set (e := b / 16777216). set (m := b mod 16777216).
  assert (0 < two256) as Hpos by (unfold two256; apply pow2_pos).
  destruct (e <=? 3) eqn:E.
  - destruct (8388607 <? _) eqn:Em; [exists 0, 0; split; [done|]; split; lia|].
    set (x := N.shiftr m _) in *. exists x, 0. rewrite N.shiftl_mul_pow2, N.mul_0_r, N.pow_0_r, !N.mul_1_r.
    assert (x < 2 ^ 256) by (assert (2 ^ 23 < 2 ^ 256) by (apply N.pow_lt_mono_r; lia); lia).
    unfold two256. rewrite N.mod_small by done. split; [done|]. split; [lia|done].
  - destruct (8388607 <? _) eqn:Em; [exists 0, 0; split; [done|]; split; lia|].
    rewrite N.shiftl_mul_pow2. set (k := e - 3).
    destruct (N.le_gt_cases 256 (8 * k)) as [Hk|Hk].
    + exists 0, 0. split; [|split; [lia|apply N.mod_lt; lia]].
      replace (8 * k) with (256 + (8 * k - 256)) by lia. rewrite N.pow_add_r.
      replace (m * (2 ^ 256 * 2 ^ (8 * k - 256))) with (m * 2 ^ (8 * k - 256) * two256) by (unfold two256; lia).
      rewrite N.mod_mul by lia. lia.
    + exists (m mod 2 ^ (256 - 8 * k)), k. split; [|split; [|apply N.mod_lt; lia]].
      * unfold two256. replace 256 with (256 - 8 * k + 8 * k) at 1 by lia. rewrite N.pow_add_r.
        by rewrite N.mul_mod_distr_r by (apply N.pow_nonzero; lia).
      * eapply N.le_lt_trans; [apply N.mod_le; apply N.pow_nonzero; lia|]. lia.
Qed.

(** Re-encoding a decoded target is exact. *)
Lemma compact_exact b : target_of_bits (bits_of_target (target_of_bits b)) = target_of_bits b.
Proof.
  destruct (decode_form b) as (m & k & Et & Hm & Ht). set (t := target_of_bits b) in *.
  destruct (compact_round t Ht) as (j & -> & Hj & i & Ei).
  pose proof (pow2_pos j) as Hp. destruct Hj as [->|Hj]; [rewrite N.pow_0_r, N.div_1_r; lia|].
  assert (j <= 8 * k) as Hle.
  { assert (2 ^ (j + 15) < 2 ^ (23 + 8 * k)) as Hx.
    { eapply N.le_lt_trans; [exact Hj|]. rewrite Et, N.pow_add_r.
      apply N.mul_lt_mono_pos_r; [apply pow2_pos|done]. }
    apply N.pow_lt_mono_r_iff in Hx; lia. }
  assert (t = m * 2 ^ (8 * k - j) * 2 ^ j) as ->.
  { rewrite <- N.mul_assoc, <- N.pow_add_r, Et. do 2 f_equal. lia. }
  by rewrite N.div_mul by lia.
Qed.

(** * The difficulty rule *)

Lemma adjusted_bounds ps last first : p_timespan ps < 2 ^ 30 ->
  let T := p_timespan ps in
  T / 4 <= adjusted_timespan ps last first <= 4 * T.
Proof.
  intros HT. unfold adjusted_timespan, wmul32, wrap32, two32. cbn zeta.
  rewrite (N.mod_small (p_timespan ps)) by lia. rewrite (N.mod_small (p_timespan ps * 4)) by lia.
  pose proof (N.mul_div_le (p_timespan ps) 4 ltac:(lia)).
  set (a := wsub32 last first). set (q := p_timespan ps / 4) in *. clearbody a q.
  destruct (N.ltb_spec a q); [lia|].
  destruct (N.ltb_spec (p_timespan ps * 4) a); lia.
Qed.

Lemma scaled_spec ps lt ts : 0 < p_timespan ps -> lt * ts < two256 ->
  scaled_target ps lt ts = N.min (p_pow_limit ps) (lt * ts / p_timespan ps).
Proof.
  intros HT Ho. unfold scaled_target. rewrite N.mod_small by done. destruct (_ <? _) eqn:E; lia.
Qed.

Lemma scaled_bounds ps lt ts : 0 < p_timespan ps -> p_pow_limit ps < two256 ->
  let T := p_timespan ps in
  T / 4 <= ts <= 4 * T -> 4 <= T -> T mod 4 = 0 ->
  lt <= p_pow_limit ps -> p_pow_limit ps * (4 * T) < two256 ->
  let t := scaled_target ps lt ts in
  t <= p_pow_limit ps /\ t <= 4 * lt /\ lt / 4 <= t.
Proof.
  intros HT Hlim T Hts H4 Hmod Hlt Ho t. unfold t. rewrite scaled_spec; [|done|].
  2:{ eapply N.le_lt_trans; [|exact Ho]. nia. }
  fold T. assert (lt * ts / T <= 4 * lt) as H1.
  { apply N.div_le_upper_bound; [lia|]. nia. }
  assert (lt / 4 <= lt * ts / T) as H2.
  { apply N.div_le_lower_bound; [lia|].
    assert (T = 4 * (T / 4)) as HT4 by (apply N.div_exact; lia).
    transitivity (4 * (T / 4) * (lt / 4)); [rewrite <- HT4; lia|].
    pose proof (N.mul_div_le lt 4 ltac:(lia)). nia. }
  assert (lt / 4 <= lt) by (apply N.div_le_upper_bound; lia).
  split; [lia|]. split; lia.
Qed.

Lemma adj_pos ps : params_ok ps -> p_spacing ps <> 0 /\ adj_interval ps <> 0.
Proof.
  intros [A B]. split; [lia|]. unfold adj_interval.
  pose proof (N.div_str_pos (p_timespan ps) (p_spacing ps)). lia.
Qed.

(** Off adjustment heights the previous target is kept. *)
Lemma target_kept ps get g height time bits : params_ok ps ->
  (height + 1) mod adj_interval ps <> 0 ->
  exists b, next_difficulty_target ps get g height time (target_of_bits bits) = Val b /\
    target_of_bits b = target_of_bits bits.
Proof.
  intros [A B]%adj_pos Hm. unfold next_difficulty_target.
  destruct (N.eqb_spec (p_spacing ps) 0); [lia|]. destruct (N.eqb_spec (adj_interval ps) 0); [lia|].
  destruct (N.eqb_spec ((height + 1) mod adj_interval ps) 0); [lia|].
  eexists. split; [reflexivity|]. apply compact_exact.
Qed.

(** On adjustment heights the target follows the clamped time span. *)
Lemma target_adjusted ps get g first height time last : params_ok ps ->
  let T := p_timespan ps in
  T mod 4 = 0 -> T < 2 ^ 30 -> p_pow_limit ps * (4 * T) < 2 ^ 256 -> last <= p_pow_limit ps ->
  p_no_retarget ps = false -> (height + 1) mod adj_interval ps = 0 ->
  get (height + 1 - adj_interval ps) = Some first ->
  exists b span, next_difficulty_target ps get g height time last = Val b /\
    T / 4 <= span <= 4 * T /\
    (h_time first <= time -> time < 2 ^ 32 ->
       span = N.max (T / 4) (N.min (4 * T) (time - h_time first))) /\
    let t := N.min (p_pow_limit ps) (last * span / T) in
    target_of_bits b <= t /\ t * (2 ^ 15 - 1) <= target_of_bits b * 2 ^ 15 /\
    target_of_bits b <= p_pow_limit ps /\ target_of_bits b <= 4 * last /\
    last / 4 * (2 ^ 15 - 1) <= target_of_bits b * 2 ^ 15.
Proof.
  intros Hp T H4 HT Ho Hl Hnr Hm Hg. pose proof (adj_pos ps Hp) as [A B].
  destruct Hp as [Hp1 Hp2]. fold T in Hp2. assert (0 < T) as HT0 by lia.
  assert (4 <= T) as HT4.
  { destruct (N.lt_ge_cases T 4); [|done]. rewrite N.mod_small in H4 by done. lia. }
  set (span := adjusted_timespan ps time (h_time first)).
  exists (bits_of_target (scaled_target ps last span)), span. split; [|split].
  - unfold next_difficulty_target.
    destruct (N.eqb_spec (p_spacing ps) 0); [lia|]. destruct (N.eqb_spec (adj_interval ps) 0); [lia|].
    destruct (N.eqb_spec ((height + 1) mod adj_interval ps) 0); [|lia].
    replace (height - (adj_interval ps - 1)) with (height + 1 - adj_interval ps) by lia.
    rewrite Hg, Hnr. reflexivity.
  - by apply adjusted_bounds.
  - pose proof (adjusted_bounds ps time (h_time first) HT) as Hs. fold span in Hs. fold T in Hs. split.
    + intros Hle Ht. unfold span, adjusted_timespan, wmul32, wsub32, wrap32, two32.
      fold T. rewrite (N.mod_small T) by lia. rewrite (N.mod_small (T * 4)) by lia.
      assert ((time + 4294967296 - h_time first) mod 4294967296 = time - h_time first) as ->.
      { replace (time + 4294967296 - h_time first) with (time - h_time first + 1 * 4294967296) by lia.
        rewrite N.mod_add by lia. apply N.mod_small. lia. }
      assert (T / 4 <= T * 4) by (apply N.div_le_upper_bound; lia).
      set (q := T / 4) in *. clearbody q.
      destruct (N.ltb_spec (time - h_time first) q); [lia|].
      destruct (N.ltb_spec (T * 4) (time - h_time first)); lia.
    + assert (p_pow_limit ps < two256) as Hlim.
      { unfold two256. eapply N.le_lt_trans; [|exact Ho]. nia. }
      destruct (scaled_bounds ps last span HT0 Hlim Hs HT4 H4 Hl Ho) as (S1 & S2 & S3).
      assert (last * span < two256) as Hov.
      { eapply N.le_lt_trans; [|exact Ho]. apply N.mul_le_mono; [done|apply Hs]. }
      pose proof (scaled_spec ps last span HT0 Hov) as Hsp. fold T in Hsp. rewrite <- Hsp. cbn zeta.
      destruct (compact_bounds (scaled_target ps last span)) as [C1 C2]; [lia|].
      set (x := scaled_target ps last span) in *. set (d := target_of_bits (bits_of_target x)) in *.
      assert (x * (2 ^ 15 - 1) <= d * 2 ^ 15) as Hx.
      { change (2 ^ 15 - 1) with 32767. change (2 ^ 15) with 32768 in *. lia. }
      split_and!; auto; try lia.
Qed.

(** With [no_pow_retargeting] the bits of the first block of the period are
    required. *)
Lemma target_no_retarget ps get g first height time last : params_ok ps ->
  p_no_retarget ps = true -> (height + 1) mod adj_interval ps = 0 ->
  get (height + 1 - adj_interval ps) = Some first ->
  next_difficulty_target ps get g height time last = Val (h_bits first).
Proof.
  intros Hp Hnr Hm Hg. pose proof (adj_pos ps Hp) as [A B]. unfold next_difficulty_target.
  destruct (N.eqb_spec (p_spacing ps) 0); [lia|]. destruct (N.eqb_spec (adj_interval ps) 0); [lia|].
  destruct (N.eqb_spec ((height + 1) mod adj_interval ps) 0); [|lia].
  replace (height - (adj_interval ps - 1)) with (height + 1 - adj_interval ps) by lia.
  by rewrite Hg, Hnr.
Qed.

(** When time runs backwards over a period, the 32-bit difference wraps and
    the period counts as the slowest possible one. *)
Lemma backwards_is_slowest ps last first : 0 < p_timespan ps < 2 ^ 30 ->
  last < first -> first < 2 ^ 32 -> first - last + 4 * p_timespan ps <= 2 ^ 32 ->
  adjusted_timespan ps last first = 4 * p_timespan ps.
Proof.
  intros HT Hlt Hf Hd. unfold adjusted_timespan, wmul32, wsub32, wrap32, two32. set (T := p_timespan ps) in *.
  rewrite (N.mod_small T) by lia. rewrite (N.mod_small (T * 4)) by lia.
  rewrite (N.mod_small (last + _ - _)) by lia.
  assert (T / 4 <= T * 4) by (apply N.div_le_upper_bound; lia).
  set (q := T / 4) in *. clearbody q.
  destruct (N.ltb_spec (last + 4294967296 - first) q); [lia|].
  destruct (N.ltb_spec (T * 4) (last + 4294967296 - first)); lia.
Qed.
