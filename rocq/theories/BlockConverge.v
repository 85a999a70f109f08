(** Order-independence of the active chain. *)
From Verif Require Import Base PowModel BlockModel BlockSpec BlockProofs BlockOps BlockImport
  BlockRun BlockHistory BlockFacts BlockMain ConvergeSpec.
Open Scope N_scope.

Lemma last_ne_last {A} (g : A) l : List.last l g = ne_last g l.
Proof.
  destruct l as [|y t] using rev_ind; [done|]. rewrite List.last_last, ne_last_app. done.
Qed.

Section Converge.
Context (H : header -> N) (rank : N -> nat) (g : header).
Notation linked_from := (linked_from H).
Notation last_hash := (last_hash H).
Notation rk := (rk H rank).
Notation INV := (INV H rank g).
Notation known := (known H g).
Notation chain_of := (chain_of H g).
Notation best_chain := (best_chain H g).

(** A chain of known headers leaves the active chain once. *)
Lemma chain_split c tl l : INV c tl -> linked_from (H g) l -> Forall rk l ->
  (forall x, x ∈ l -> known c tl x) ->
  exists n f rest, l = take n tl ++ rest /\ (g :: tl) !! n = Some f /\
    linked_from (H f) rest /\ Forall (fun x => c_orphans c !! H x = Some x) rest.
Proof.
  intros I. induction l as [|x l IH] using rev_ind; intros L R K.
  { exists 0%nat, g, []. repeat split; auto. }
  apply linked_app in L as [L Lx]. destruct Lx as [Lx _].
  apply Forall_app in R as [R Rx]. apply Forall_cons in Rx as [Rx _].
  assert (forall y, y ∈ l -> known c tl y) as Kl by set_solver.
  destruct (IH L R Kl) as (n & f & rest & El & Hf & Lr & Or).
  assert (known c tl x) as Kx by set_solver.
  assert (last_hash (H g) (take n tl) = H f) as Hlast by by apply take_last_hash.
  destruct Kx as [Kx|Kx].
  { exists n, f, (rest ++ [x]). split; [by rewrite El, app_assoc|]. split; [done|]. split.
    - apply linked_app. split; [done|]. split; [|done]. rewrite Lx, El, last_hash_app, Hlast. done.
    - apply Forall_app. split; [done|]. by constructor. }
  apply elem_of_list_lookup in Kx as [m Hm]. destruct m as [|m].
  { cbn in Hm. injection Hm as <-. exfalso.
    pose proof (linked_rank_last H rank _ _ L R) as Hr. unfold BlockProofs.rk in Rx. rewrite Lx in Rx. lia. }
  destruct (linked_lookup_gprev H g _ _ _ (i_linked I) Hm) as (y & Hy & Ey).
  destruct rest as [|z rest] using rev_ind.
  - rewrite app_nil_r in El. subst l. rewrite Hlast in Lx. rewrite Lx in Ey.
    pose proof (nodup_hash_inj H _ _ _ _ _ (inv_nodup I) Hf Hy Ey) as <-.
    cbn in Hm. exists (S n), x, []. rewrite app_nil_r. split; [|split; [done|split; [done|constructor]]].
    symmetry. by apply take_S_r.
  - exfalso. clear IHrest. apply Forall_app in Or as [_ Oz]. apply Forall_cons in Oz as [Oz _].
    rewrite El, app_assoc, last_hash_app in Lx. cbn in Lx.
    apply (i_disj I) in Oz.
    assert (c_index c !! H z = Some (N.of_nat m)) as Hi.
    { apply (i_index I). exists y. rewrite Nat2N.id. split; [done|]. congruence. }
    congruence.
Qed.

Context (ps : params) (hs : list header) (now : N).
Hypothesis Hps : params_ok ps.
Hypothesis Hnet : p_network ps <> Bitcoin.
Hypothesis Hrk : Forall rk hs.
Hypothesis Hinj : hash_injective H (g :: hs).
Hypothesis Hacc : forall x, x ∈ hs -> acceptable H ps x.
Hypothesis Hval : valid_in_any_context H ps g hs now.

Lemma hs_rk l : (forall x, x ∈ l -> x ∈ hs) -> Forall rk l.
Proof. intros Hl. apply Forall_forall. intros x Hx. rewrite Forall_forall in Hrk. auto. Qed.

Lemma zero_work l : (forall x, x ∈ l -> x ∈ hs) -> sum_work l = 0 -> l = [].
Proof.
  destruct l as [|x l]; [done|]. intros Hl E. cbn in E. destruct (Hacc x) as (_ & _ & ?); [set_solver|lia].
Qed.

Lemma ctx_path c tl pre rest : c_params c = ps -> c_checkpoints c = ∅ -> INV c tl ->
  chain_of hs tl -> chain_of hs (pre ++ rest) ->
  valid_path H c now (lenN pre) (ne_last g pre) rest.
Proof.
  intros Ep Ec I Ct. revert pre. induction rest as [|x rest IH]; intros pre Cr; cbn [valid_path]; [done|].
  split.
  - rewrite <- last_ne_last. apply (Hval c tl); auto; [apply (inv_genesis I)|apply (inv_active I)|].
    destruct Cr as [L K]. change (x :: rest) with ([x] ++ rest) in L, K. rewrite app_assoc in L, K.
    apply linked_app in L as [L _]. split; [done|]. intros y Hy. apply K, elem_of_app. by left.
  - specialize (IH (pre ++ [x])). rewrite <- app_assoc in IH. specialize (IH Cr).
    rewrite ne_last_app in IH. cbn in IH.
    replace (lenN pre + 1) with (lenN (pre ++ [x])); [exact IH|].
    unfold lenN. rewrite app_length. cbn. lia.
Qed.

(** Agreement of the state with the headers [seen] so far. *)
Record conv (seen : list header) (c : cache) (tl : list header) : Prop := {
  cv_inv : INV c tl;
  cv_params : c_params c = ps;
  cv_cps : c_checkpoints c = ∅;
  cv_known : forall x, known c tl x <-> x ∈ g :: seen;
  cv_sub : forall x, x ∈ seen -> x ∈ hs;
  cv_best : best_chain seen tl;
}.

(** How any chain of headers of [seen] compares with the active one. *)
Lemma chain_cases seen c tl l : INV c tl -> c_params c = ps -> c_checkpoints c = ∅ ->
  (forall x, x ∈ seen -> known c tl x) -> (forall x, x ∈ seen -> x ∈ hs) ->
  chain_of hs tl -> chain_of seen l ->
  (l = tl \/ sum_work l < sum_work tl) \/
  exists cd, valid_branches H g c tl now cd /\ sum_work l + lost tl cd = sum_work tl + cwork cd /\
    last_hash (H g) l = cd_tip cd.
Proof.
  intros I Ep Ec K Sub Ct [L Kl].
  destruct (chain_split c tl l I L) as (n & f & rest & El & Hf & Lr & Or).
  { apply hs_rk. auto. }
  { auto. }
  assert (n <= length tl)%nat as Hn by (apply lookup_lt_Some in Hf; cbn in Hf; lia).
  assert (sum_work tl = sum_work (take n tl) + sum_work (drop n tl)) as Es.
  { by rewrite <- sum_work_app, take_drop. }
  destruct rest as [|x rest].
  - left. rewrite app_nil_r in El. subst l.
    destruct (decide (sum_work (drop n tl) = 0)) as [E|E]; [left|right; lia].
    apply zero_work in E.
    + rewrite <- (take_drop n tl) at 2. by rewrite E, app_nil_r.
    + intros y Hy. apply Ct. rewrite <- (take_drop n tl). apply elem_of_app. by right.
  - right. set (path := x :: rest) in *.
    assert (last_hash (H g) (take n tl) = H f) as Hlast by by apply take_last_hash.
    exists (mkCand (last_hash (H f) path) path (N.of_nat n) f). split; [split|].
    + unfold is_branch, opath. cbn [cd_fork_height cd_fork_header cd_headers cd_tip].
      rewrite Nat2N.id. split; [done|]. split; [done|]. split; [done|]. by split.
    + unfold branch_valid, validate_branch. cbn [cd_fork_height cd_fork_header cd_headers].
      apply validate_headers_iff; [by rewrite Ep|done|].
      assert (N.of_nat n = lenN (take n tl)) as -> by (unfold lenN; rewrite take_length; lia).
      assert (f = ne_last g (take n tl)) as ->.
      { apply Hinj.
        - assert (f ∈ g :: tl) as Hin by by eapply elem_of_list_lookup_2.
          apply elem_of_cons in Hin as [->|Hin]; [by left|]. right. by apply Ct.
        - destruct (take n tl) as [|y t] eqn:Et using rev_ind; [by left|]. rewrite ne_last_app.
          right. apply Ct. rewrite <- (take_drop n tl), Et. set_solver.
        - rewrite <- last_hash_ne_last. done. }
      eapply ctx_path; eauto. rewrite <- El. split; auto.
    + unfold lost, cwork. cbn [cd_fork_height cd_headers cd_tip]. rewrite Nat2N.id. split.
      * rewrite El, sum_work_app. lia.
      * by rewrite El, last_hash_app, Hlast.
Qed.

Lemma chain_mono (s1 s2 l : list header) : (forall x, x ∈ s1 -> x ∈ s2) -> chain_of s1 l -> chain_of s2 l.
Proof. intros Hs [L K]. split; auto. Qed.

Lemma last_checkpoint_none c : c_checkpoints c = ∅ -> last_checkpoint c = 0.
Proof.
  intros E. unfold last_checkpoint. rewrite E. unfold last_checkpoint_of.
  by rewrite (map_to_list_empty (M:=gmap N)).
Qed.

Lemma admission_none c hd : c_params c = ps -> c_checkpoints c = ∅ -> hd ∈ hs -> admission H c hd = None.
Proof.
  intros Ep Ec Hin. destruct (Hacc hd Hin) as (A1 & A2 & _). unfold admission.
  rewrite (proj2 (N.leb_le _ _) A1). cbn [negb]. rewrite Ep, (proj2 (N.ltb_ge _ _) A2).
  rewrite (last_checkpoint_none c Ec). destruct (c_index c !! h_prev hd) as [h|]; [|reflexivity].
  by rewrite (proj2 (N.ltb_ge h 0) (N.le_0_l h)).
Qed.

Lemma tip_valid c tl hd : c_params c = ps -> c_checkpoints c = ∅ -> INV c tl -> chain_of hs tl ->
  hd ∈ hs -> h_prev hd = last_hash (H g) tl -> c_validate H c (c_last c) hd now = Val None.
Proof.
  intros Ep Ec I Ct Hin Hprev. rewrite (inv_last I).
  assert (chain_of hs (tl ++ [hd])) as Ch.
  { split.
    - apply linked_app. split; [apply Ct|]. by split.
    - intros x Hx. apply elem_of_app in Hx as [Hx|Hx]; [by apply Ct|].
      by apply elem_of_list_singleton in Hx as ->. }
  apply validate_iff; [by rewrite Ep|by rewrite <- last_hash_ne_last|].
  exact (proj1 (ctx_path c tl tl [hd] Ep Ec I Ct Ch)).
Qed.

Lemma import_conv seen c tl hd ch : conv seen c tl -> hd ∈ hs -> fair_choice ch -> io_ok_choice ch ->
  exists c' tl' r, import_block H c hd now ch = Val (c', r) /\ conv (seen ++ [hd]) c' tl' /\
    match r with Ok _ | Err (EDuplicate _) | Err (EMissing _) => True | Err _ => False end.
Proof.
  intros [I Ep Ec Kn Sub [Ct Best]] Hin Hf [Hrb Hput].
  assert (rk hd) as Hr by exact (proj1 (Forall_forall _ _) Hrk hd Hin).
  destruct (import_block_spec H rank g c tl hd now ch I ltac:(by rewrite Ep) Hf Hr)
    as (c' & tl' & r & E & I' & [Sp Sc] & O).
  exists c', tl', r. split; [done|].
  assert (forall x, x ∈ seen ++ [hd] -> x ∈ hs) as Sub'.
  { intros x Hx. apply elem_of_app in Hx as [Hx|Hx]; [auto|]. by apply elem_of_list_singleton in Hx as ->. }
  assert (chain_of hs tl) as Cth by exact (chain_mono _ _ _ Sub Ct).
  assert (forall k, is_known c k = true <-> exists x, known c tl x /\ H x = k) as Hik.
  { intros k. unfold is_known. rewrite orb_true_iff, (inv_contains I). unfold in_orphans, BlockOps.known. split.
    - intros [(x & Hx & Hk)|Ho]; [eauto|]. apply bool_decide_eq_true in Ho as [x Hx].
      exists x. destruct (i_orph I _ _ Hx) as [<- _]. auto.
    - intros (x & [Hx|Hx] & <-); [right; apply bool_decide_eq_true; by eexists|left; eauto]. }
  destruct (is_known c (H hd)) eqn:Ek.
  { (* already known *)
    assert (c' = c /\ tl' = tl /\ r = Err (EDuplicate (H hd))) as (-> & -> & ->).
    { unfold import_block in E. rewrite Ek in E. injection E as <- <-. split; [done|].
      inversion O; subst; try done.
      match goal with He : entered _ _ _ _ _ _ |- _ => destruct He as [He _]; congruence end. }
    split; [|done]. apply Hik in Ek as (x & Kx & Ex). apply Kn in Kx as Kx'.
    assert (x = hd) as ->.
    { apply Hinj; auto; [|by right]. apply elem_of_cons in Kx' as [->|Kx']; [by left|]. right. auto. }
    constructor; auto.
    - intros y. rewrite Kn. rewrite !elem_of_cons, elem_of_app, elem_of_list_singleton.
      split; [tauto|]. intros [?|[?| ->]]; auto. by apply elem_of_cons.
    - split; [eapply chain_mono; [|exact Ct]; set_solver|].
      intros l [L K]. apply Best. split; [done|]. intros y Hy.
      pose proof (K y Hy) as Ky. apply elem_of_app in Ky as [Hy'|Hy']; [done|]. apply elem_of_list_singleton in Hy' as ->.
      apply elem_of_cons in Kx' as [->|?]; [|done]. exfalso.
      assert (Forall rk l) as Rl by (apply hs_rk; intros z Hz; by apply Sub', K).
      pose proof (linked_rank_elem H rank _ _ _ L Rl Hy). lia. }
  assert (is_known c (H hd) = false) as Hnk by exact Ek.
  set (c1 := with_orphan c (H hd) hd) in *.
  assert (INV c1 tl) as I1 by by apply with_orphan_inv.
  assert (forall x, known c1 tl x <-> x ∈ g :: (seen ++ [hd])) as Kn1.
  { intros x. unfold c1. rewrite known_with_orphan by done. rewrite Kn, !elem_of_cons, elem_of_app, elem_of_list_singleton. tauto. }
  assert (chain_of (seen ++ [hd]) tl) as Ct1 by (eapply chain_mono; [|exact Ct]; set_solver).
  assert (forall l, chain_of (seen ++ [hd]) l ->
     (l = tl \/ sum_work l < sum_work tl) \/
     exists cd, valid_branches H g c1 tl now cd /\ sum_work l + lost tl cd = sum_work tl + cwork cd /\
       last_hash (H g) l = cd_tip cd) as Cases.
  { intros l Cl. eapply chain_cases; eauto. intros x Hx. apply Kn1. by right. }
  inversion O as [e He Hrej| Hent Hmiss |Hent Hk1 Hb|cd c2 tl2 r2 Hent Hk1 Hv Hle Heq Hbest Etl Hst Hkn Hfail Hok]; subst.
  - (* rejected: impossible *)
    exfalso. destruct Hrej as [[_ Hx]|[_ [[Hprev Hv]|Ha]]].
    + by rewrite Ek in Hx.
    + rewrite (tip_valid c' tl' hd Ep Ec I Cth Hin Hprev) in Hv. discriminate.
    + rewrite (admission_none c' hd Ep Ec Hin) in Ha. discriminate.
  - (* parent unknown *)
    split; [|done]. constructor; auto. split; [done|]. intros l Cl.
    assert (hd ∉ l) as Hnin.
    { intros Hl. destruct Cl as [L K]. apply elem_of_list_lookup in Hl as [i Hi].
      assert ((g :: l) !! S i = Some hd) as Hi' by done.
      destruct (linked_lookup_gprev H g _ _ _ L Hi') as (y & Hy & Ey).
      assert (known c1 tl' y) as Ky.
      { apply Kn1. apply elem_of_list_lookup_2 in Hy. apply elem_of_cons in Hy as [->|Hy]; [by left|]. right. auto. }
      assert (is_known c1 (h_prev hd) = true) as Hx; [|unfold c1 in Hx; by rewrite Hx in Hmiss].
      unfold is_known. apply orb_true_iff. rewrite (inv_contains I1). rewrite Ey.
      destruct Ky as [Ky|Ky]; [right; unfold in_orphans; apply bool_decide_eq_true; by eexists|left; eauto]. }
    apply Best. destruct Cl as [L K]. split; [done|]. intros x Hx.
    pose proof (K x Hx) as Ky. apply elem_of_app in Ky as [?|Hx']; [done|]. apply elem_of_list_singleton in Hx' as ->. done.
  - (* tip kept *)
    split; [|done]. constructor; auto. split; [done|]. intros l Cl.
    destruct (Cases l Cl) as [[->|Hlt]|(cd & Hv & Es & Et)].
    + split; [lia|]. intros _. lia.
    + split; [lia|]. intros Hx. lia.
    + destruct (Hb cd Hv) as [B1 B2]. split; [lia|]. intros Hx. rewrite Et. apply B2; [by rewrite Ep|lia].
  - (* switch *)
    rewrite Hrb in *. specialize (Hok ltac:(by rewrite Hput, bool_decide_eq_true_2)) as (hd' & _ & _ & ->).
    split; [|done]. pose proof (sum_switched H rank g tl cd) as Esw.
    assert (last_hash (H g) (switched tl cd) = cd_tip cd) as Etip.
    { destruct Hv as [(B1 & B2 & (B3 & B4 & B5)) _]. unfold switched. rewrite last_hash_app.
      by rewrite (take_last_hash H g _ _ _ B1). }
    constructor; [exact I'|etrans; [exact Sp|exact Ep]|etrans; [exact Sc|exact Ec]|intros x; etrans; [apply Hkn|apply Kn1]|exact Sub'|].
    { split.
      * split; [apply (i_linked I')|]. intros x Hx.
        assert (known c' (switched tl cd) x) as Kx by (right; by right).
        apply Hkn, Kn1, elem_of_cons in Kx as [->|?]; [|done]. exfalso.
        pose proof (linked_rank_elem H rank _ _ _ (i_linked I') (i_rk I') Hx). lia.
      * intros l Cl. rewrite Etip. destruct (Cases l Cl) as [[->|Hlt]|(cd' & Hv' & Es & Et)].
        -- split; [lia|]. intros Hx. assert (cwork cd = lost tl cd) as Hc by lia. destruct (Heq Hc). lia.
        -- split; [lia|]. intros Hx. lia.
        -- destruct (Hbest cd' Hv') as [B1 B2]. split; [lia|]. intros Hx. rewrite Et. apply B2; [by rewrite Ep|lia]. }
Qed.

Lemma loop_conv seen c tl hds b i c' r : conv seen c tl ->
  Forall (fun x => x.1 ∈ hs /\ fair_choice x.2 /\ io_ok_choice x.2) hds ->
  import_loop H c b i hds now = Val (c', r) ->
  exists tl', conv (seen ++ map fst hds) c' tl'.
Proof.
  revert seen c tl b i. induction hds as [|[hd ch] hds IH]; intros seen c tl b i C Hall E; cbn [import_loop] in E.
  { destruct (batch_finish H c b); cbn [mbind_M] in E; [|done]. injection E as <- <-.
    exists tl. cbn. by rewrite app_nil_r. }
  apply Forall_cons in Hall as [(A1 & A2 & A3) Hall]. cbn in A1, A2, A3.
  destruct (import_conv seen c tl hd ch C A1 A2 A3) as (c1 & tl1 & r1 & E1 & C1 & Hr).
  rewrite E1 in E. cbn [mbind_M] in E.
  assert (exists b' i', import_loop H c1 b' i' hds now = Val (c', r)) as (b' & i' & E').
  { destruct r1 as [[]|e]; [eauto|eauto|]. destruct e; try done; eauto. }
  destruct (IH _ _ _ _ _ C1 Hall E') as (tl' & C'). exists tl'. cbn [map fst].
  by rewrite <- app_assoc in C'.
Qed.

End Converge.

Section Runs.
Context (H : header -> N) (ng : network -> N).

Lemma step_conv rank g ps hs seen c tl o c' r : params_ok ps -> p_network ps <> Bitcoin ->
  Forall (rk H rank) hs -> hash_injective H (g :: hs) -> (forall x, x ∈ hs -> acceptable H ps x) ->
  valid_in_any_context H ps g hs (clock_of o) -> (exists l now, o = OImport l now) ->
  Forall (fun x => x.1 ∈ hs /\ fair_choice x.2 /\ io_ok_choice x.2) (op_inputs o) ->
  conv H rank g ps hs seen c tl -> step H c o = Val (c', r) ->
  exists tl', conv H rank g ps hs (seen ++ map fst (op_inputs o)) c' tl'.
Proof.
  intros Hp Hn Hr Hi Ha Hv (l & now & ->) Hall C E. cbn [step clock_of op_inputs] in *.
  unfold import_blocks in E.
  exact (loop_conv H rank g ps hs now Hp Hn Hr Hi Ha Hv seen c tl l _ _ c' r C Hall E).
Qed.

Lemma run_conv rank g ps hs os : params_ok ps -> p_network ps <> Bitcoin ->
  Forall (rk H rank) hs -> hash_injective H (g :: hs) -> (forall x, x ∈ hs -> acceptable H ps x) ->
  forall seen c tl c' rs,
  (forall o, o ∈ os -> valid_in_any_context H ps g hs (clock_of o)) -> imports os ->
  Forall (fun x => x.1 ∈ hs /\ fair_choice x.2 /\ io_ok_choice x.2) (inputs os) ->
  conv H rank g ps hs seen c tl -> run H c os = Val (c', rs) ->
  exists tl', conv H rank g ps hs (seen ++ presented os) c' tl'.
Proof.
  intros Hp Hn Hr Hi Ha. induction os as [|o os IH]; intros seen c tl c' rs Hv Him Hall C E; cbn [run] in E.
  { injection E as <- <-. exists tl. unfold presented, inputs. cbn. by rewrite app_nil_r. }
  destruct (step H c o) as [[c1 r1]|] eqn:E1; cbn [mbind_M] in E; [|done].
  destruct (run H c1 os) as [[c2 rs2]|] eqn:E2; cbn [mbind_M] in E; [|done]. injection E as <- <-.
  apply Forall_cons in Him as [Ho Him].
  unfold inputs in Hall. cbn [map concat] in Hall. apply Forall_app in Hall as [Hall1 Hall2].
  destruct (step_conv rank g ps hs seen c tl o c1 r1 Hp Hn Hr Hi Ha (Hv o ltac:(by left)) Ho Hall1 C E1) as (tl1 & C1).
  destruct (IH _ _ _ _ _ (fun o' Ho' => Hv o' ltac:(by right)) Him Hall2 C1 E2) as (tl2 & C2).
  exists tl2. unfold presented, inputs in *. cbn [map concat]. by rewrite map_app, app_assoc.
Qed.

(** Chains of headers with distinct hashes are determined by their tip. *)
Lemma chain_by_tip rank g hs l1 l2 : Forall (rk H rank) hs -> hash_injective H (g :: hs) ->
  chain_of H g hs l1 -> chain_of H g hs l2 ->
  last_hash H (H g) l1 = last_hash H (H g) l2 -> l1 = l2.
Proof.
  intros Hr Hi. revert l2.
  assert (forall l, chain_of H g hs l -> Forall (rk H rank) l) as Hrl.
  { intros l [_ K]. apply Forall_forall. intros x Hx. rewrite Forall_forall in Hr. auto. }
  assert (forall l x, chain_of H g hs (l ++ [x]) -> H g = last_hash H (H g) (l ++ [x]) -> False) as Hno.
  { intros l x C E. rewrite last_hash_app in E. cbn in E. destruct C as [L K] eqn:EC.
    assert (x ∈ l ++ [x]) as Hx by (apply elem_of_app; right; by left).
    pose proof (linked_rank_elem H rank _ _ _ L (Hrl _ C) Hx) as Hlt. rewrite <- E in Hlt. lia. }
  assert (forall l x, chain_of H g hs (l ++ [x]) -> chain_of H g hs l /\ h_prev x = last_hash H (H g) l) as Hinit.
  { intros l x [L K]. apply linked_app in L as [L [Lx _]]. split; [|done]. split; [done|].
    intros y Hy. apply K, elem_of_app. by left. }
  induction l1 as [|x l1 IH] using rev_ind; intros l2 C1 C2 E.
  - destruct l2 as [|y l2] using rev_ind; [done|]. exfalso. eapply Hno; eauto.
  - destruct l2 as [|y l2] using rev_ind; [exfalso; eapply Hno; eauto|]. clear IHl2.
    rewrite !last_hash_app in E. cbn in E.
    assert (x = y) as ->.
    { apply Hi; [right; apply C1|right; apply C2|done]; apply elem_of_app; right; by left. }
    apply Hinit in C1 as [C1 P1]. apply Hinit in C2 as [C2 P2].
    f_equal. apply IH; auto. congruence.
Qed.

Lemma best_unique rank g hs l1 l2 : Forall (rk H rank) hs -> hash_injective H (g :: hs) ->
  best_chain H g hs l1 -> best_chain H g hs l2 -> l1 = l2.
Proof.
  intros Hr Hi [C1 B1] [C2 B2]. apply (chain_by_tip rank g hs); auto.
  destruct (B1 _ C2) as [W1 T1]. destruct (B2 _ C1) as [W2 T2].
  assert (sum_work l1 = sum_work l2) as E by lia. specialize (T2 E). specialize (T1 (eq_sym E)). lia.
Qed.

Theorem reach_best s ps os c outs : params_ok ps -> p_network ps <> Bitcoin -> s_tail s = [] ->
  reachable H ng s ps [] os c outs -> imports os -> io_ok os ->
  hash_injective H (s_genesis s :: presented os) ->
  (forall x, x ∈ presented os -> acceptable H ps x) ->
  (forall o, o ∈ os -> valid_in_any_context H ps (s_genesis s) (presented os) (clock_of o)) ->
  exists l, active c = s_genesis s :: l /\ best_chain H (s_genesis s) (presented os) l.
Proof.
  intros Hp Hn Ht R Him Hio Hi Ha Hv.
  pose proof (r_fair _ _ _ _ _ _ _ _ R) as Hf.
  apply reachable_history in R as (rank & c0 & tl & Hh & Er); [|done].
  pose proof (h_inv0 _ _ _ _ _ _ _ _ _ _ Hh) as I0. rewrite Ht in I0.
  pose proof (h_orph0 _ _ _ _ _ _ _ _ _ _ Hh) as O0.
  pose proof (h_rk _ _ _ _ _ _ _ _ _ _ Hh) as Rk. rewrite Ht in Rk. cbn [app] in Rk.
  assert (c_params c0 = ps /\ c_checkpoints c0 = ∅) as [P0 K0].
  { pose proof (from_store_spec H rank (s_genesis s) ng s ps [] eq_refl) as Hs. rewrite Ht in Hs.
    destruct (Hs Logic.I (List.Forall_nil _)) as (c1 & E1 & _ & _ & _ & A & B).
    rewrite (h_from _ _ _ _ _ _ _ _ _ _ Hh) in E1. injection E1 as <-. by split. }
  assert (conv H rank (s_genesis s) ps (presented os) [] c0 []) as C0.
  { constructor; auto.
    - intros x. unfold known. rewrite O0. rewrite lookup_empty. split; [by intros [?|?]|by right].
    - intros x Hx. by apply elem_of_nil in Hx.
    - split; [split; [done|]|].
      + intros x Hx. by apply elem_of_nil in Hx.
      + intros l [_ K]. destruct l as [|y l]; [split; [lia|intros _; apply N.le_refl]|].
        exfalso. apply (elem_of_nil y), K. by left. }
  destruct (run_conv rank (s_genesis s) ps (presented os) os Hp Hn Rk Hi Ha [] c0 [] c outs Hv Him) as (tl' & C); auto.
  { apply Forall_forall. intros [x ch] Hx. cbn. split.
    - unfold presented. change (x ∈ fst <$> inputs os). apply elem_of_list_fmap. by exists (x, ch).
    - unfold fair, io_ok in *. rewrite Forall_forall in Hf, Hio. split; [apply (Hf (x, ch) Hx)|apply (Hio (x, ch) Hx)]. }
  cbn [app] in C. exists tl'. split; [apply (inv_active (cv_inv _ _ _ _ _ _ _ _ C))|apply C].
Qed.

Lemma best_same_set g hs1 hs2 l : (forall x, x ∈ hs1 <-> x ∈ hs2) ->
  best_chain H g hs1 l -> best_chain H g hs2 l.
Proof.
  intros E [[L K] B]. split; [split; [done|]|].
  - intros x Hx. by apply E, K.
  - intros l' [L' K']. apply B. split; [done|]. intros x Hx. by apply E, K'.
Qed.

Theorem converge s ps os1 os2 c1 c2 outs1 outs2 : params_ok ps -> p_network ps <> Bitcoin -> s_tail s = [] ->
  reachable H ng s ps [] os1 c1 outs1 -> reachable H ng s ps [] os2 c2 outs2 ->
  imports os1 -> imports os2 -> io_ok os1 -> io_ok os2 ->
  (forall x, x ∈ presented os1 <-> x ∈ presented os2) ->
  hash_injective H (s_genesis s :: presented os1) ->
  (forall x, x ∈ presented os1 -> acceptable H ps x) ->
  (forall o, o ∈ os1 ++ os2 -> valid_in_any_context H ps (s_genesis s) (presented os1) (clock_of o)) ->
  active c1 = active c2 /\
  exists l, active c1 = s_genesis s :: l /\ best_chain H (s_genesis s) (presented os1) l.
Proof.
  intros Hp Hn Ht R1 R2 M1 M2 I1 I2 E Hi Ha Hv.
  destruct (reach_best s ps os1 c1 outs1) as (l1 & A1 & B1); auto.
  { intros o Ho. apply Hv, elem_of_app. by left. }
  destruct (reach_best s ps os2 c2 outs2) as (l2 & A2 & B2); auto.
  { intros x y Hx Hy. apply Hi.
    - apply elem_of_cons in Hx as [->|Hx]; [by left|right; by apply E].
    - apply elem_of_cons in Hy as [->|Hy]; [by left|right; by apply E]. }
  { intros x Hx. by apply Ha, E. }
  { intros o Ho c l P K G A C l' x C'.
    assert (forall m, chain_of H (s_genesis s) (presented os2) m -> chain_of H (s_genesis s) (presented os1) m) as Hm.
    { intros m [Lm Km]. split; [done|]. intros y Hy. by apply E, Km. }
    refine (Hv o _ c l P K G A (Hm _ C) l' x (Hm _ C')). apply elem_of_app. by right. }
  destruct (r_acyclic _ _ _ _ _ _ _ _ R1) as [rank Rk]. rewrite Ht in Rk. cbn [app] in Rk.
  assert (l1 = l2) as ->.
  { eapply (best_unique rank); eauto. eapply best_same_set; [|exact B2]. intros x. by rewrite E. }
  split; [congruence|]. eauto.
Qed.

End Runs.
