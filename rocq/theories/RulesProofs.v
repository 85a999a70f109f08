(** Extending the tip: accepted exactly when the consensus rules allow it. *)
From Verif Require Import Base PowModel BlockModel BlockSpec BlockProofs BlockOps BlockImport BlockRun BlockRules
  BlockHistory BlockFacts BlockMain.
Open Scope N_scope.

Section Rules.
Context (H : header -> N) (ng : network -> N) (s : store) (ps : params) (cps : list (N * N)).
Context (Hparams : params_ok ps).

Lemma extend_iff os c hd ch now c' r :
  transition H ng s ps cps os c (OExtend hd now ch) c' r -> io_ok [OExtend hd now ch] ->
  active c' = active c ++ [hd] <-> valid_at H c now (c_height c) (c_tip H c).2 hd.
Proof.
  intros T Hio. destruct (trans_inv H ng s ps cps Hparams os c _ c' r T) as (rank & tl & _ & I & _ & Ep & _ & _ & Ff).
  cbn in Ff. apply Forall_cons in Ff as [[Hf Hr] _].
  destruct (extend_tip_spec H rank (s_genesis s) c tl hd now ch I) as (c1 & tl' & r0 & E0 & I' & S & O);
    auto; [by rewrite Ep|].
  pose proof (t_step _ _ _ _ _ _ _ _ _ _ T) as E. cbn [step] in E. rewrite E0 in E. injection E as <- <-.
  assert (c_last c = mkCB (c_height c) (c_tip H c).2) as El.
  { unfold c_height, c_tip. cbn. by destruct (c_last c). }
  assert (H (c_tip H c).2 = last_hash H (H (s_genesis s)) tl) as Et.
  { rewrite <- (inv_tip_hash I), El. done. }
  pose proof (validate_iff H c now (c_height c) (c_tip H c).2 hd) as V. rewrite <- El, Et in V.
  rewrite (inv_active I), (inv_active I').
  inversion O as [Hn|e0 Hp Hne Hv|c2 r2 Hp Hv Es Ek Er]; subst.
  - split.
    + intros EE. apply (f_equal length) in EE. rewrite app_length in EE. cbn in EE. lia.
    + intros (EE & _). by rewrite Et in EE.
  - split.
    + intros EE. apply (f_equal length) in EE. rewrite app_length in EE. cbn in EE. lia.
    + intros EE. apply V in EE; [|done|done]. congruence.
  - split; [|done]. intros _. apply V; done.
Qed.

Lemma required_unique c g height parent hd : params_ok (c_params c) ->
  exists bits, rule_bits (c_params c) (active c) g height parent hd bits /\
    forall b, rule_bits (c_params c) (active c) g height parent hd b -> b = bits.
Proof using.
  intros Hp.
  destruct (required_bits_val (fun _ => 0) (fun _ => 0%nat) parent (c_params c) (c_chain c) g (mkCB height parent) hd Hp) as [bits Eb].
  exists bits. split; [by apply rule_bits_iff|]. intros b Hb. apply rule_bits_iff in Hb; [|done].
  rewrite Eb in Hb. by injection Hb.
Qed.

End Rules.
