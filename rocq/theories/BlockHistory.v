(** From histories of operations to the state invariant, and facts about
    single imports used by the property theorems. *)
From Verif Require Import Base PowModel BlockModel BlockSpec BlockProofs BlockOps BlockImport BlockRun BlockRules.
Open Scope N_scope.

Section History.
Context (H : header -> N) (ng : network -> N).

Notation linked_from := (linked_from H).
Notation last_hash := (last_hash H).

(** * Histories *)

Lemma rtc_cfg rank g P c tl c' tl' : rtc (bstep H rank g P) (c, tl) (c', tl') -> same_cfg c c'.
Proof.
  intros R. remember (c, tl) as x eqn:Ex. remember (c', tl') as y eqn:Ey.
  revert c tl Ex. induction R as [x|x z y S R IH]; intros c tl Ex; subst.
  - injection Ex as -> ->. by split.
  - inversion S; subst; (eapply same_cfg_trans; [eassumption|]; by eapply IH).
Qed.

Record history (rank : N -> nat) (s : store) (ps : params) (cps : list (N * N)) (os : list op)
    (c0 c : cache) (tl : list header) : Prop := {
  h_from : from_store H ng s ps cps = Val (Ok c0);
  h_inv0 : INV H rank (s_genesis s) c0 (s_tail s);
  h_orph0 : c_orphans c0 = ∅;
  h_store0 : c_store c0 = s;
  h_inv : INV H rank (s_genesis s) c tl;
  h_params : c_params c = ps;
  h_cps : c_checkpoints c = foldl (fun m kv => <[kv.1 := kv.2]> m) ∅ cps;
  h_steps : rtc (bstep H rank (s_genesis s) (presented_at os)) (c0, s_tail s) (c, tl);
  h_rk : Forall (rk H rank) (s_tail s ++ presented os);
}.

Lemma reachable_history s ps cps os c outs : params_ok ps ->
  reachable H ng s ps cps os c outs ->
  exists rank c0 tl, history rank s ps cps os c0 c tl /\ run H c0 os = Val (c, outs).
Proof.
  intros Hp [L [rank R] F (c0 & E0 & Er)].
  assert (Forall (rk H rank) (s_tail s)) as Rs by by apply Forall_app in R as [? _].
  assert (Forall (rk H rank) (presented os)) as Ro by by apply Forall_app in R as [_ ?].
  pose proof (from_store_spec H rank (s_genesis s) ng s ps cps eq_refl L Rs) as Hs.
  destruct (_ || _); [|congruence].
  destruct Hs as (c0' & E0' & I0 & O0 & S0 & P0 & C0).
  rewrite E0 in E0'. injection E0' as <-.
  destruct (run_spec H rank (s_genesis s) c0 (s_tail s) os I0) as (c' & tl & rs & Er' & I & S & T); auto.
  { by rewrite P0. }
  rewrite Er in Er'. injection Er' as <- <-.
  exists rank, c0, tl. split; [|done]. constructor; auto.
  - destruct S as [-> _]. done.
  - destruct S as [_ ->]. done.
Qed.

(** * Validation, declaratively *)

Lemma validate_iff c now height parent hd : params_ok (c_params c) ->
  h_prev hd = H parent ->
  c_validate H c (mkCB height parent) hd now = Val None <-> valid_at H c now height parent hd.
Proof.
  intros Hp Hl. unfold c_validate, validate, valid_at, assertM, cb_hash. cbn [cb_header cb_height].
  rewrite Hl, N.eqb_refl.
  destruct (required_bits_val (fun _ => 0) (fun _ => 0%nat) parent (c_params c) (c_chain c) (c_genesis c) (mkCB height parent) hd Hp) as [bits Eb].
  pose proof (rule_bits_iff c (c_params c) (c_genesis c) height parent hd) as Hr.
  rewrite Eb. cbn [mbind_M].
  destruct (median_val H (fun _ => 0%nat) parent (c_chain c) (height + 1)) as [mtp Em]; [lia|]. rewrite Em. cbn [mbind_M].
  pose proof (median_iff c (height + 1) mtp (h_time hd) ltac:(lia) Em) as Hm.
  unfold validate_pow, wadd32, wrap32, MAX_FUTURE_BLOCK_TIME.
  change two32 with (2 ^ 32). set (lim := (now + 7200) mod 2 ^ 32).
  destruct (h_target hd =? target_of_bits bits) eqn:Et; cbn [negb].
  2:{ split; [done|]. intros (_ & (b & E & Eb') & _). apply Hr in E; [|done]. rewrite Eb in E. injection E as <-. lia. }
  destruct (pow_value (H hd) <=? h_target hd) eqn:Epow.
  2:{ split; [done|]. intros (_ & _ & ? & _). lia. }
  assert (match c_checkpoints c !! (height + 1) with Some cp => H hd =? cp | None => true end = true <->
    (forall k, c_checkpoints c !! (height + 1) = Some k -> H hd = k)) as Hcp.
  { destruct (c_checkpoints c !! (height + 1)); [|split; done]. split; [intros E k [= <-]; lia|].
    intros Hk. specialize (Hk _ eq_refl). lia. }
  destruct (match c_checkpoints c !! (height + 1) with Some cp => H hd =? cp | None => true end); cbn [negb].
  2:{ split; [done|]. intros (_ & _ & _ & Hk & _). apply Hcp in Hk. done. }
  destruct (h_time hd <=? mtp) eqn:E1.
  { split; [done|]. intros (_ & _ & _ & _ & E & _). apply Hm in E. lia. }
  destruct (lim <? h_time hd) eqn:E2.
  { split; [done|]. intros (_ & _ & _ & _ & _ & ?). lia. }
  split; [|done]. intros _. split; [done|]. split; [exists bits; split; [by apply Hr|lia]|]. split; [lia|].
  split; [by apply Hcp|]. split; [apply Hm; lia|lia].
Qed.

Lemma validate_headers_iff c now height parent path : params_ok (c_params c) ->
  linked_from (H parent) path ->
  validate_headers H c (mkCB height parent) path now = Val None <-> valid_path H c now height parent path.
Proof.
  intros Hp. revert height parent. induction path as [|x path IH]; intros height parent L; cbn [validate_headers valid_path].
  { split; done. }
  destruct L as [L1 L2]. rewrite <- validate_iff by done. rewrite <- (IH (height + 1) x L2).
  destruct (c_validate H c (mkCB height parent) x now) as [[e|]|p]; cbn [mbind_M cb_height].
  - split; [done|]. by intros [? _].
  - split; [done|]. by intros [_ ?].
  - split; [done|]. by intros [? _].
Qed.

Lemma valid_path_lookup c now height parent path i x :
  valid_path H c now height parent path -> path !! i = Some x ->
  exists y, (parent :: path) !! i = Some y /\ valid_at H c now (height + N.of_nat i) y x.
Proof.
  revert height parent i. induction path as [|z path IH]; intros height parent i Hv E; [done|].
  destruct Hv as [V1 V2]. destruct i as [|i]; cbn in E.
  - injection E as ->. exists parent. split; [done|]. by rewrite N.add_0_r.
  - destruct (IH _ _ _ V2 E) as (y & Ey & Hy). exists y. split; [done|].
    replace (height + N.of_nat (S i)) with (height + 1 + N.of_nat i) by lia. done.
Qed.

(** * One header *)

Section One.
Context (rank : N -> nat) (g : header).
Notation INV := (INV H rank g).
Notation rk := (rk H rank).

Definition one_result (c' : cache) (r : result import_result err) : result import_result err :=
  match r with
  | Ok (TipChanged h k ht rv cn) => Ok (TipChanged h k ht (rev rv) cn)
  | Ok TipUnchanged => Ok TipUnchanged
  | Err (EDuplicate _) => Ok TipUnchanged
  | Err (EMissing _) => Ok TipUnchanged
  | Err e => Err (EAborted e 0 (c_height c'))
  end.

(** Shape of the result of [import_blocks] on one header. *)
Lemma import_one_spec c tl hd now ch : INV c tl -> params_ok (c_params c) ->
  fair_choice ch -> rk hd ->
  exists c' tl' r r1, import_block H c hd now ch = Val (c', r) /\
    import_blocks H c [(hd, ch)] now = Val (c', r1) /\
    INV c' tl' /\ same_cfg c c' /\ import_outcome H g c tl hd now ch c' tl' r /\
    match r with
    | Ok (TipChanged _ _ _ _ _) => exists rv cn,
        r1 = Ok (TipChanged (ne_last g tl') (last_hash (H g) tl') (lenN tl') rv cn) /\
        report_exact (g :: tl) (g :: tl') rv cn
    | Ok TipUnchanged | Err (EDuplicate _) | Err (EMissing _) => r1 = Ok TipUnchanged
    | Err e => r1 = Err (EAborted e 0 (c_height c'))
    end.
Proof.
  intros I Hp Hf Hr.
  destruct (import_block_spec H rank g c tl hd now ch I Hp Hf Hr) as (c1 & tl1 & r & E & I1 & S1 & O).
  exists c1, tl1, r. unfold import_blocks. cbn [import_loop]. rewrite E. cbn [mbind_M].
  destruct r as [[h k ht rv cn|]|e].
  2:{ eexists. split; [done|]. split; [reflexivity|]. done. }
  2:{ destruct e; eexists; (split; [done|]; split; [reflexivity|]; done). }
  destruct (import_tip_changed H rank g _ _ _ _ _ _ _ _ _ _ _ _ I O) as (cd & Hb & Etl & Hne & Hfit & Eh & Ek & Eht & Erv & Ecn).
  pose proof (loop_inv_init H rank g c tl I) as [_ B0 K0]. set (b0 := mkBatch _ _ _ _ _ _) in *.
  assert (is_known c (H hd) = false) as Hnk.
  { inversion O; subst. by match goal with E : entered _ _ _ _ _ _ |- _ => destruct E as [Ek' _] end. }
  assert (forall x, known H g c1 tl1 x <-> known H g (with_orphan c (H hd) hd) tl x) as Kn.
  { inversion O; subst. done. }
  assert (BINV H rank g tl (known H g c1 tl1) tl1 (batch_add H b0 h k ht rv cn)) as B1.
  { subst. eapply (BINV_switch H rank g) with (c := with_orphan c (H hd) hd); try done.
    - apply with_orphan_inv; auto.
    - intros x Hx. by apply Kn.
    - intros x Hx. apply (known_with_orphan H g c tl hd x Hnk). left. by apply K0.
    - apply I.
    - apply I.
    - eapply BINV_mono; [|exact B0]. intros x Hx. apply (known_with_orphan H g); auto. }
  destruct (batch_finish_spec H rank g tl c1 tl1 _ I1 B1 (i_linked I) (i_rk I)) as (r & Er & Hrep).
  { intros x Hx. apply Kn, (known_with_orphan H g); auto. }
  rewrite Er. cbn [mbind_M]. eexists. split; [done|]. split; [reflexivity|]. split; [done|]. split; [done|].
  split; [done|].
  assert (forall x, x ∈ g :: tl -> x ∉ g :: tl1 -> H x ∉ b_seen (batch_add H b0 h k ht rv cn)) as Hseen.
  { intros x Hx Hx1 Hs. cbn in Hs. apply elem_of_union in Hs as [Hs|Hs]; [set_solver|].
    apply elem_of_list_to_set, elem_of_list_fmap in Hs as ([j y] & Ey & Hy). cbn in Ey.
    subst cn. apply (connected_list_elem H rank g tl) in Hy; auto. destruct Hy as [_ Hy].
    rewrite <- Etl in Hy. apply elem_of_list_lookup_2 in Hy. apply Hx1.
    assert (x = y) as ->; [|done]. eapply (known_fun H rank g c1 tl1); eauto; [|by right].
    apply Kn, (known_with_orphan H g); auto. left. by right. }
  assert (forall i x, (i, x) ∈ connected_list cd -> x ∉ g :: tl) as Hnew.
  { intros i x Hx Hin. destruct Hb as (_ & _ & (_ & _ & Ho)).
    unfold connected_list in Hx. apply elem_of_lookup_imap in Hx as (j & y & Ey & Hj).
    injection Ey as -> ->. apply elem_of_list_lookup_2 in Hj. rewrite Forall_forall in Ho.
    specialize (Ho _ Hj).
    assert (INV (with_orphan c (H hd) hd) tl) as Iw by by apply with_orphan_inv.
    apply (i_disj Iw) in Ho. apply elem_of_list_lookup in Hin as [m Hm].
    assert (c_index (with_orphan c (H hd) hd) !! H y = Some (N.of_nat m)) as Hi.
    { apply (i_index Iw). exists y. by rewrite Nat2N.id. }
    congruence. }
  inversion Hrep as [Etl' Econ|rv' cn' Hcne Hs1 Hs2 Hc1 Hc2 Hc3 Hr1 Hr2]; subst r.
  { exfalso. cbn in Econ. apply (bt_extend_nil _ Ncmp_eq Ncmp_anti Ncmp_trans fst snd) in Econ as [_ Econ].
    rewrite Ecn in Econ. unfold connected_list in Econ. by destruct (cd_headers cd). }
  exists rv', cn'. split; [done|]. split; [done|]. split; [done|]. split.
  - intros j x. split; [auto|]. intros [Hj Hx]. apply Hr2; auto. apply Hseen; [|done].
    by eapply elem_of_list_lookup_2.
  - intros j x. split.
    + intros Hx. split; [auto|]. apply Hc3 in Hx. cbn in Hx.
      apply (bt_extend_elem _ Ncmp_eq Ncmp_anti Ncmp_trans fst snd) in Hx as [Hx|([m y] & Hy & Ey)]; [set_solver|].
      cbn in Ey. injection Ey as -> ->. rewrite Ecn in Hy. eauto.
    + intros [Hj Hx]. auto.
Qed.

End One.
End History.
