(** The statements of BlockProps.v, proved from the invariants. *)
From Coq Require Import Sorted.
From Verif Require Import Base PowModel BlockModel BlockSpec BlockProofs BlockOps BlockImport
  BlockRun BlockHistory BlockFacts BlockQueries.
Open Scope N_scope.

Section Main.
Context (H : header -> N) (ng : network -> N) (s : store) (ps : params) (cps : list (N * N)).
Context (Hps : params_ok ps).
Notation reachable := (reachable H ng s ps cps).
Notation transition := (transition H ng s ps cps).
Notation g := (s_genesis s).

Lemma reach_inv os c outs : reachable os c outs -> exists rank tl, INV H rank g c tl.
Proof. intros R. apply reachable_history in R as (rank & c0 & tl & Hh & _); [|done]. exists rank, tl. apply Hh. Qed.

Lemma trans_inv os c o c' r : transition os c o c' r ->
  exists rank tl tl', INV H rank g c tl /\ INV H rank g c' tl' /\ c_params c = ps /\ same_cfg c c' /\
    rtc (bstep H rank g (presented_at [o])) (c, tl) (c', tl') /\
    Forall (fun x => fair_choice x.2 /\ rk H rank x.1) (op_inputs o).
Proof.
  intros T. pose proof (transition_inv H ng _ _ _ _ _ _ _ _ Hps T) as (rank & c0 & tl & Hh & Ff).
  destruct (step_spec H rank g c tl o) as (c1 & tl' & r1 & E & I' & S & R); [apply Hh| |done|].
  { by rewrite (h_params _ _ _ _ _ _ _ _ _ _ Hh). }
  rewrite (t_step _ _ _ _ _ _ _ _ _ _ T) in E. injection E as <- <-.
  exists rank, tl, tl'. split_and!; auto; apply Hh.
Qed.

Lemma linked_chain os c outs : reachable os c outs ->
  get_block_by_height c 0 = Some g /\
  (forall h, is_Some (get_block_by_height c h) <-> h <= c_height c) /\
  (forall h p x, get_block_by_height c h = Some p -> get_block_by_height c (h + 1) = Some x ->
     h_prev x = H p) /\
  get_block_by_height c (c_height c) = Some (c_tip H c).2 /\
  (c_tip H c).1 = H (c_tip H c).2 /\
  lenN (active c) = c_height c + 1.
Proof.
  intros R. destruct (reach_inv _ _ _ R) as (rank & tl & I).
  rewrite (inv_active I), (inv_height I). unfold c_tip. rewrite (inv_last I).
  split_and!.
  - by rewrite (inv_get_by_height I).
  - intros h. rewrite (inv_get_by_height I), lookup_lt_is_Some. unfold lenN. cbn. lia.
  - intros h p x. rewrite !(inv_get_by_height I). intros Ep Ex.
    replace (N.to_nat (h + 1)) with (S (N.to_nat h)) in Ex by lia.
    destruct (linked_lookup_gprev H _ _ _ _ (i_linked I) Ex) as (y & Ey & Hy). congruence.
  - rewrite (inv_get_by_height I). cbn [snd cb_header]. unfold lenN. rewrite Nat2N.id.
    generalize g. clear. induction tl as [|x tl IH]; intros y; [done|]. rewrite ne_last_cons. apply IH.
  - done.
  - unfold lenN. cbn. lia.
Qed.

Lemma hash_index os c outs : reachable os c outs ->
  (forall k h x, get_block c k = Some (h, x) <-> get_block_by_height c h = Some x /\ H x = k) /\
  (forall k, contains c k = true <-> exists h x, get_block_by_height c h = Some x /\ H x = k) /\
  (forall h1 h2 x1 x2, get_block_by_height c h1 = Some x1 -> get_block_by_height c h2 = Some x2 ->
     H x1 = H x2 -> h1 = h2) /\
  (forall k, contains c k = true -> in_orphans c k = false).
Proof.
  intros R. destruct (reach_inv _ _ _ R) as (rank & tl & I). split_and!.
  - intros k h x. by rewrite (inv_get_by_height I), (inv_get_block I).
  - intros k. rewrite (inv_contains I). split.
    + intros (x & Hx & E). apply elem_of_list_lookup in Hx as [i Hi].
      exists (N.of_nat i), x. by rewrite (inv_get_by_height I), Nat2N.id.
    + intros (h & x & Hx & E). rewrite (inv_get_by_height I) in Hx. exists x.
      split; [by eapply elem_of_list_lookup_2|done].
  - intros h1 h2 x1 x2. rewrite !(inv_get_by_height I). intros E1 E2 E.
    pose proof (inv_nodup I) as ND.
    assert (N.to_nat h1 = N.to_nat h2); [|lia].
    eapply NoDup_lookup; [exact ND| |].
    + change (map H (g :: tl)) with (H <$> (g :: tl)). rewrite list_lookup_fmap, E1. reflexivity.
    + change (map H (g :: tl)) with (H <$> (g :: tl)). rewrite list_lookup_fmap, E2. cbn. by rewrite E.
  - intros k Hc. unfold in_orphans. apply bool_decide_eq_false. intros [x Hx].
    unfold contains in Hc. apply bool_decide_eq_true in Hc as [h Hh].
    by rewrite (i_disj I _ _ Hx) in Hh.
Qed.

Lemma work_is_sum os c outs : reachable os c outs -> c_chainwork c = sum_work (active c).
Proof.
  intros R. destruct (reach_inv _ _ _ R) as (rank & tl & I).
  rewrite (inv_active I). apply I.
Qed.

Lemma work_monotone os c o c' r : transition os c o c' r -> io_ok [o] ->
  c_chainwork c <= c_chainwork c'.
Proof.
  intros T Hio. destruct (trans_inv _ _ _ _ _ T) as (rank & tl & tl' & I & I' & Ep & S & R & Ff).
  rewrite (i_work I), (i_work I').
  destruct (rtc_io H rank g _ _ _ _ _ (fun hd ch now => presented_io [o] hd ch now Hio) R) as (Hw & _).
  cbn. lia.
Qed.

Lemma mainnet_strict os c o c' r : transition os c o c' r -> io_ok [o] -> p_network ps = Bitcoin ->
  active c `prefix_of` active c' \/ sum_work (active c) < sum_work (active c').
Proof.
  intros T Hio Hn. destruct (trans_inv _ _ _ _ _ T) as (rank & tl & tl' & I & I' & Ep & S & R & Ff).
  rewrite (inv_active I), (inv_active I').
  destruct (rtc_io H rank g _ _ _ _ _ (fun hd ch now => presented_io [o] hd ch now Hio) R) as (_ & _ & Hm).
  destruct Hm as [Hm|Hm]; [by rewrite Ep| |].
  - left. by apply prefix_cons.
  - right. cbn. lia.
Qed.

(** * Single imports *)

Lemma one_import os c hd ch now c' r : transition os c (OImport [(hd, ch)] now) c' r ->
  exists rank tl tl' r0, INV H rank g c tl /\ INV H rank g c' tl' /\ c_params c = ps /\
    c_params c' = ps /\
    import_block H c hd now ch = Val (c', r0) /\ import_outcome H g c tl hd now ch c' tl' r0 /\
    match r0 with
    | Ok (TipChanged _ _ _ _ _) => exists rv cn,
        r = Ok (TipChanged (ne_last g tl') (last_hash H (H g) tl') (lenN tl') rv cn) /\
        report_exact (g :: tl) (g :: tl') rv cn
    | Ok TipUnchanged | Err (EDuplicate _) | Err (EMissing _) => r = Ok TipUnchanged
    | Err e => r = Err (EAborted e 0 (c_height c'))
    end.
Proof.
  intros T. destruct (trans_inv _ _ _ _ _ T) as (rank & tl & _ & I & _ & Ep & _ & _ & Ff).
  cbn in Ff. apply Forall_cons in Ff as [[Hf Hr] _].
  destruct (import_one_spec H rank g c tl hd now ch I) as (c1 & tl' & r0 & r1 & E0 & E1 & I' & S & O & M);
    auto; [by rewrite Ep|].
  pose proof (t_step _ _ _ _ _ _ _ _ _ _ T) as E. cbn [step] in E. rewrite E1 in E.
  injection E as <- <-. exists rank, tl, tl', r0. split_and!; auto.
  destruct S as [-> _]. done.
Qed.

Lemma single_report os c hd ch now c' r : transition os c (OImport [(hd, ch)] now) c' r ->
  match r with
  | Ok (TipChanged tip k height rv cn) =>
      report_exact (active c) (active c') rv cn /\ cn <> [] /\
      (k, tip) = c_tip H c' /\ height = c_height c'
  | Ok TipUnchanged => active c' = active c
  | Err _ => True
  end.
Proof.
  intros T. destruct (one_import _ _ _ _ _ _ _ T) as (rank & tl & tl' & r0 & I & I' & Ep & Ep' & E & O & M).
  assert (forall r1, r0 = r1 -> (r1 = Ok TipUnchanged \/ exists e, r1 = Err e /\ e <> EStore) ->
    active c' = active c) as Hkeep.
  { intros r1 -> Hr. destruct (import_keep H g _ _ _ _ _ _ _ _ O Hr) as [-> _].
    by rewrite (inv_active I), (inv_active I'). }
  destruct r0 as [[tip k ht rv cn|]|e].
  - destruct M as (rv' & cn' & -> & Hrep). rewrite (inv_active I), (inv_active I').
    split; [done|]. split.
    + destruct (import_tip_changed H rank g _ _ _ _ _ _ _ _ _ _ _ _ I O) as (cd & Hbr & Etl & Hne & Hfit & _).
      intros ->. destruct Hrep as (_ & _ & _ & Hc).
      destruct (cd_headers cd) as [|y path] eqn:Ey; [done|].
      assert (tl' !! N.to_nat (cd_fork_height cd) = Some y) as Hy.
      { rewrite Etl. unfold switched. rewrite Ey, lookup_app_r; rewrite take_length; unfold fits in Hfit.
        - by rewrite Nat.min_l, Nat.sub_diag by lia.
        - lia. }
      eapply (not_elem_of_nil (cd_fork_height cd + 1, y)), Hc.
      split.
      * replace (N.to_nat (cd_fork_height cd + 1)) with (S (N.to_nat (cd_fork_height cd))) by lia. done.
      * intros Hin.
        assert (contains c (H y) = true) as Hcon by (apply (inv_contains I); by exists y).
        assert (is_known c (H hd) = false) as Hun.
        { inversion O; subst; match goal with X : entered _ _ _ _ _ _ |- _ => apply X end. }
        destruct Hbr as (_ & _ & _ & _ & Hf). rewrite Ey in Hf. apply Forall_cons in Hf as [Hf _].
        cbn [with_orphan c_orphans] in Hf. destruct (decide (H hd = H y)) as [Eh|Eh].
        -- unfold is_known in Hun. rewrite Eh, Hcon in Hun. done.
        -- rewrite lookup_insert_ne in Hf by done. apply (i_disj I) in Hf.
           unfold contains in Hcon. rewrite Hf in Hcon. apply bool_decide_eq_true in Hcon as [? ?]. done.
    + unfold c_tip. rewrite (inv_tip_hash I'), (inv_last I'), (inv_height I'). done.
  - subst r. by eapply Hkeep; [reflexivity|left].
  - destruct e; try (subst r; done); subst r; (eapply Hkeep; [reflexivity|right; eexists; split; [reflexivity|congruence]]).
Qed.

Lemma extend_report os c hd ch now c' r : transition os c (OExtend hd now ch) c' r ->
  match r with
  | Ok (TipChanged tip k height rv cn) =>
      active c' = active c ++ [hd] /\ rv = [] /\ cn = [(c_height c', hd)] /\
      (k, tip) = c_tip H c' /\ height = c_height c'
  | Ok TipUnchanged => c' = c
  | Err e => e = EStore \/ c' = c
  end.
Proof.
  intros T. destruct (trans_inv _ _ _ _ _ T) as (rank & tl & _ & I & _ & Ep & _ & _ & Ff).
  cbn in Ff. apply Forall_cons in Ff as [[Hf Hr] _].
  destruct (extend_tip_spec H rank g c tl hd now ch I) as (c1 & tl' & r0 & E0 & I' & S & O);
    auto; [by rewrite Ep|].
  pose proof (t_step _ _ _ _ _ _ _ _ _ _ T) as E. cbn [step] in E. rewrite E0 in E.
  injection E as <- <-. inversion O as [|e0|c2 r2 A B Es Ek Er]; subst; auto. destruct (ch_put ch); [by left|].
  rewrite (inv_active I), (inv_active I'), (inv_height I'). unfold c_tip.
  rewrite (inv_tip_hash I'), (inv_last I').
  rewrite (last_hash_app H), (ne_last_app g tl [] hd). cbn. unfold lenN. rewrite app_length. cbn.
  split; [done|]. split; [done|]. split; [do 2 f_equal; lia|]. split; [done|]. lia.
Qed.

Lemma failed_import os c hd ch now c' e :
  transition os c (OImport [(hd, ch)] now) c' (Err e) -> io_ok [OImport [(hd, ch)] now] ->
  active c' = active c /\ c_chainwork c' = c_chainwork c /\ c_store c' = c_store c /\
  c_index c' = c_index c /\ (forall x, stale H c' x <-> stale H c x).
Proof.
  intros T Hio. destruct (one_import _ _ _ _ _ _ _ T) as (rank & tl & tl' & r0 & I & I' & Ep & Ep' & E & O & M).
  unfold io_ok, inputs in Hio. cbn in Hio. apply Forall_cons in Hio as [[Hrb Hpt] _]. cbn in Hrb, Hpt.
  destruct r0 as [[]|e0]; [by destruct M as (? & ? & ? & _)|done|].
  assert (c' = c \/ exists k, e0 = EMissing k) as [->|[k ->]]; [|done|done].
  inversion O as [e1 Hne Hwhy|Hen Hk|?|cd c2 tl2 r2 Hen Hk Hv Hw Heq Hmax Htl Hst Hkn Hbad Hgood]; subst.
  - by left.
  - right. by eexists.
  - destruct (Hgood ltac:(by rewrite Hrb, Hpt)) as (? & _ & _ & ?). done.
Qed.

Lemma aborted_height os c hds now c' e : transition os c (OImport hds now) c' (Err e) ->
  exists e' i, e = EAborted e' i (c_height c').
Proof.
  intros T. destruct (trans_inv _ _ _ _ _ T) as (rank & tl & _ & I & _ & Ep & _ & _ & Ff).
  destruct (import_blocks_spec H rank g (fun _ _ _ => True) c tl hds now I) as (c1 & tl' & r0 & E0 & I' & S & _ & M).
  { by rewrite Ep. }
  { eapply Forall_impl; [exact Ff|]. cbn. tauto. }
  pose proof (t_step _ _ _ _ _ _ _ _ _ _ T) as E. cbn [step] in E. rewrite E0 in E.
  injection E as <- ->. destruct e; try done. destruct M as (-> & _). exists e, index.
  by rewrite (inv_height I').
Qed.

Lemma batch_report_facts os c hds now c' r : transition os c (OImport hds now) c' (Ok r) ->
  match r with
  | TipUnchanged => active c' = active c
  | TipChanged tip k height rv cn =>
      (k, tip) = c_tip H c' /\ height = c_height c' /\
      StronglySorted (fun p q => q.1 < p.1) rv /\ StronglySorted (fun p q => p.1 < q.1) cn /\
      (forall h x, (h, x) ∈ cn -> active c' !! N.to_nat h = Some x) /\
      (forall h x, active c' !! N.to_nat h = Some x -> x ∉ active c -> (h, x) ∈ cn) /\
      (forall h x, (h, x) ∈ rv -> active c !! N.to_nat h = Some x /\ x ∉ active c')
  end.
Proof.
  intros T. destruct (trans_inv _ _ _ _ _ T) as (rank & tl & _ & I & _ & Ep & _ & _ & Ff).
  destruct (import_blocks_spec H rank g (fun _ _ _ => True) c tl hds now I) as (c1 & tl' & r0 & E0 & I' & S & _ & M).
  { by rewrite Ep. }
  { eapply Forall_impl; [exact Ff|]. cbn. tauto. }
  pose proof (t_step _ _ _ _ _ _ _ _ _ _ T) as E. cbn [step] in E. rewrite E0 in E.
  injection E as <- ->. destruct M as (b & _ & M). rewrite (inv_active I), (inv_active I').
  inversion M; subst; [done|]. unfold c_tip. rewrite (inv_tip_hash I'), (inv_last I'), (inv_height I').
  split_and!; auto.
Qed.

Lemma best_branch os c hd ch now c' r :
  transition os c (OImport [(hd, ch)] now) c' (Ok r) -> io_ok [OImport [(hd, ch)] now] ->
  is_known c (H hd) = false -> is_known c (h_prev hd) = true ->
  c_chainwork c <= c_chainwork c' /\
  (forall h f path, branch_off H c hd h f path -> valid_path H c now h f path ->
     sum_work (take (S (N.to_nat h)) (active c)) + sum_work path <= c_chainwork c') /\
  (active c' = active c \/
   exists h f path, branch_off H c hd h f path /\ valid_path H c now h f path /\
     active c' = take (S (N.to_nat h)) (active c) ++ path) /\
  (p_network ps <> Bitcoin ->
   (forall h f path, branch_off H c hd h f path -> valid_path H c now h f path ->
      sum_work (take (S (N.to_nat h)) (active c)) + sum_work path = c_chainwork c' ->
      (c_tip H c').1 <= last_hash H (H f) path) /\
   (c_chainwork c = c_chainwork c' -> (c_tip H c').1 <= (c_tip H c).1)).
Proof.
  intros T Hio Hn Hk.
  destruct (one_import _ _ _ _ _ _ _ T) as (rank & tl & tl' & r0 & I & I' & Ep & Ep' & E & O & M).
  unfold io_ok, inputs in Hio. cbn in Hio. apply Forall_cons in Hio as [Hch _].
  assert (exists r1, r0 = Ok r1) as [r1 ->].
  { destruct r0 as [r1|e]; [by eexists|]. exfalso.
    inversion O as [e1 Hne Hwhy|Hen Hkk|?|cd c2 tl2 r2 Hen Hkk Hv Hw Heq Hmax Htl Hst Hkn Hbad Hgood]; subst.
    - destruct Hwhy as [[-> Hw]|[_ [[_ Hw]|Hw]]]; [congruence| |].
      + destruct (validate_not_store H _ _ _ _ _ _ _ _ Hw) as (_ & A & B).
        destruct e; try done; [by eapply A|by eapply B].
      + destruct (admission_not_store H _ _ _ Hw) as (_ & A & B).
        destruct e; try done; [by eapply A|by eapply B].
    - unfold is_known in Hkk, Hk. apply orb_false_iff in Hkk as [K1 K2].
      change (contains (with_orphan c (H hd) hd) (h_prev hd)) with (contains c (h_prev hd)) in K1.
      rewrite K1 in Hk. cbn in Hk. unfold in_orphans in Hk, K2.
      apply bool_decide_eq_true in Hk. apply bool_decide_eq_false in K2. apply K2.
      cbn [with_orphan c_orphans]. destruct (decide (H hd = h_prev hd)) as [->|Ne];
        [by rewrite lookup_insert|by rewrite lookup_insert_ne].
    - destruct (Hgood ltac:(destruct Hch as [Hrb Hpt]; cbn in *; by rewrite Hrb, Hpt)) as (? & _ & _ & ?). done. }
  destruct (best_lemma H rank g c tl hd now ch c' tl' r1 I I') as ((A & B & C) & D); auto; [by rewrite Ep|].
  split_and!; auto. intros Hnet. apply D. by rewrite Ep.
Qed.

(** * Validation of active blocks *)

Lemma active_validated os c outs : reachable os c outs ->
  exists c0 hist outs', from_store H ng s ps cps = Val (Ok c0) /\
    hist `sublist_of` singles os /\ run H c0 hist = Val (c, outs') /\
    forall h p x, get_block_by_height c h = Some p -> get_block_by_height c (h + 1) = Some x ->
      s_tail s !! N.to_nat h = Some x \/
      exists l1 o l2 c1 outs1, hist = l1 ++ o :: l2 /\ run H c0 l1 = Val (c1, outs1) /\
        valid_at H c1 (clock_of o) h p x.
Proof. exact (active_accepted H ng s ps cps os c outs Hps). Qed.

Lemma fold_insert_nodup l (m : gmap N N) h k : NoDup (map fst l) -> (h, k) ∈ l ->
  foldl (fun m kv => <[kv.1 := kv.2]> m) m l !! h = Some k.
Proof.
  assert (forall l (m : gmap N N), h ∉ map fst l ->
    foldl (fun m kv => <[kv.1 := kv.2]> m) m l !! h = m !! h) as Hno.
  { clear. induction l as [|[a b] l IH]; intros m Hn; cbn; [done|].
    cbn in Hn. apply not_elem_of_cons in Hn as [? ?]. rewrite IH by done. by rewrite lookup_insert_ne. }
  revert m. induction l as [|[a b] l IH]; intros m; cbn; intros ND Hin; [by apply elem_of_nil in Hin|].
  apply NoDup_cons in ND as [Hn ND]. apply elem_of_cons in Hin as [Hin|Hin].
  - injection Hin as -> ->. rewrite Hno by done. by rewrite lookup_insert.
  - by apply IH.
Qed.

Lemma elem_inputs os x : x ∈ inputs os <-> exists o, o ∈ os /\ x ∈ op_inputs o.
Proof.
  unfold inputs. rewrite elem_of_list_In, in_concat. split.
  - intros (l & Hl & Hx). apply in_map_iff in Hl as (o & <- & Ho). exists o.
    by rewrite !elem_of_list_In.
  - intros (o & Ho & Hx). exists (op_inputs o). rewrite in_map_iff. rewrite !elem_of_list_In in *.
    split; [by exists o|done].
Qed.

Lemma sub_inputs hist os : hist `sublist_of` singles os ->
  forall x, x ∈ inputs hist -> x ∈ inputs os.
Proof.
  intros Hs x. rewrite !elem_inputs. intros (o & Ho & Hx).
  assert (o ∈ singles os) as Ho' by (eapply elem_of_submseteq; [exact Ho|by apply sublist_submseteq]).
  unfold singles in Ho'. rewrite elem_of_list_In, in_concat in Ho'. destruct Ho' as (l & Hl & Hin).
  apply in_map_iff in Hl as (o' & <- & Ho'). rewrite <- elem_of_list_In in Ho', Hin. exists o'. split; [done|].
  destruct o' as [hds now|hd now ch]; cbn in Hin.
  - rewrite elem_of_list_In, in_map_iff in Hin. destruct Hin as (y & <- & Hy). cbn in Hx.
    apply elem_of_list_singleton in Hx as ->. by apply elem_of_list_In.
  - apply elem_of_list_singleton in Hin as ->. done.
Qed.

Lemma checkpoint_hash os c outs h k x : reachable os c outs -> NoDup (map fst cps) ->
  (h + 1, k) ∈ cps -> get_block_by_height c (h + 1) = Some x ->
  s_tail s !! N.to_nat h = Some x \/ H x = k.
Proof.
  intros R ND Hin Hx.
  destruct (linked_chain _ _ _ R) as (_ & Hh & _).
  destruct (proj2 (Hh h)) as [p Hp].
  { assert (h + 1 <= c_height c) by (apply Hh; by eexists). lia. }
  destruct (active_accepted H ng s ps cps os c outs Hps R) as (c0 & hist & outs' & E0 & Hsub & Er & Hall).
  destruct (Hall h p x Hp Hx) as [?|(l1 & o & l2 & c1 & outs1 & Eh & Er1 & Hv)]; [by left|right].
  destruct Hv as (_ & _ & _ & Hcp & _). apply Hcp.
  (* checkpoints of c1 *)
  pose proof (r_linked _ _ _ _ _ _ _ _ R) as L.
  destruct (r_acyclic _ _ _ _ _ _ _ _ R) as [rank Rk]. apply Forall_app in Rk as [Rs Ro].
  pose proof (from_store_spec H rank g ng s ps cps eq_refl L Rs) as Hs.
  destruct (_ || _); [|congruence].
  destruct Hs as (c0' & E0' & I0 & _ & _ & P0 & C0). rewrite E0 in E0'. injection E0' as <-.
  assert (c_checkpoints c1 = c_checkpoints c0) as ->; [|rewrite C0; by apply fold_insert_nodup].
  destruct (run_spec H rank g c0 (s_tail s) l1 I0) as (c1' & _ & rs & Er' & _ & S & _).
  - by rewrite P0.
  - apply Forall_forall. intros y Hy. apply (proj1 (Forall_forall _ _) (r_fair _ _ _ _ _ _ _ _ R)).
    apply (sub_inputs _ _ Hsub). rewrite Eh. rewrite elem_inputs in Hy |- *.
    destruct Hy as (o' & ? & ?). exists o'. set_solver.
  - apply Forall_forall. intros y Hy. apply (proj1 (Forall_forall _ _) Ro).
    unfold presented in *. rewrite elem_of_list_In, in_map_iff in Hy |- *.
    destruct Hy as (z & <- & Hz). exists z. split; [done|]. rewrite <- elem_of_list_In in Hz |- *.
    apply (sub_inputs _ _ Hsub). rewrite Eh. rewrite elem_inputs in Hz |- *.
    destruct Hz as (o' & ? & ?). exists o'. set_solver.
  - rewrite Er1 in Er'. injection Er' as <- _. apply S.
Qed.

(** * Absence of panics *)

Lemma load_total os : linked_from H (H g) (s_tail s) -> acyclic H (s_tail s ++ presented os) ->
  fair os ->
  (s_tail s = [] \/ ng (p_network ps) = H g -> exists c outs, reachable os c outs) /\
  (s_tail s <> [] -> ng (p_network ps) <> H g ->
   from_store H ng s ps cps = Val (Err EGenesisMismatch)).
Proof.
  intros L A F. pose proof A as [rank Rk]. apply Forall_app in Rk as [Rs Ro].
  pose proof (from_store_spec H rank g ng s ps cps eq_refl L Rs) as Hs. split.
  - intros Hg. destruct (_ || _) eqn:E.
    + destruct Hs as (c0 & E0 & I0 & _ & _ & P0 & _).
      destruct (run_spec H rank g c0 (s_tail s) os I0) as (c & tl & rs & Er & _); auto; [by rewrite P0|].
      exists c, rs. constructor; auto. by exists c0.
    + apply orb_false_iff in E as [E1 E2]. apply bool_decide_eq_false in E1. destruct Hg; [done|]. lia.
  - intros Ht Hg. destruct (_ || _) eqn:E; [|done].
    apply orb_true_iff in E as [E|E]; [by apply bool_decide_eq_true in E|]. lia.
Qed.

Lemma next_total os c outs o : reachable os c outs ->
  acyclic H (s_tail s ++ presented (os ++ [o])) -> fair [o] ->
  exists c' r, transition os c o c' r.
Proof.
  intros R A F. pose proof A as [rank Rk]. rewrite presented_app, app_assoc in Rk.
  apply Forall_app in Rk as [Rs Ro]. apply Forall_app in Rs as [Rs Ro'].
  pose proof (r_linked _ _ _ _ _ _ _ _ R) as L.
  destruct (r_run _ _ _ _ _ _ _ _ R) as (c0 & E0 & Er).
  pose proof (from_store_spec H rank g ng s ps cps eq_refl L Rs) as Hs.
  destruct (_ || _); [|congruence].
  destruct Hs as (c0' & E0' & I0 & _ & _ & P0 & _). rewrite E0 in E0'. injection E0' as <-.
  destruct (run_spec H rank g c0 (s_tail s) os I0) as (c1 & tl & rs & Er' & I & S & _).
  { by rewrite P0. } { apply (r_fair _ _ _ _ _ _ _ _ R). } { done. }
  rewrite Er in Er'. injection Er' as <- _.
  destruct (step_spec H rank g c tl o I) as (c' & tl' & r & E & _).
  { destruct S as [-> _]. by rewrite P0. }
  { apply Forall_forall. intros x Hx. split.
    - apply (proj1 (Forall_forall _ _) F). unfold inputs. cbn. by rewrite app_nil_r.
    - apply (proj1 (Forall_forall _ _) Ro). apply elem_of_list_In, in_map. by apply elem_of_list_In. }
  exists c', r. constructor; auto. by exists outs.
Qed.

Lemma queries_total os c outs : reachable os c outs ->
  (forall k, exists r, find_branch c k = Val r) /\
  (forall locs stop max, exists l, locate_headers c locs stop max = Val l) /\
  (forall from, from <= c_height c -> from < 2 ^ 64 -> exists l, locator_hashes H c from = Val l) /\
  (forall h, h <> 0 -> exists t, median_time_past (c_chain c) h = Val t).
Proof.
  intros R. destruct (reach_inv _ _ _ R) as (rank & tl & I). split_and!.
  - intros k. destruct (find_branch_spec H rank g c tl k I) as (r & E & _). by exists r.
  - intros locs stop max. destruct locs as [|l locs].
    + cbn. destruct (get_block c stop) as [[]|]; by eexists.
    + destruct (locate_spec H rank g c tl (l :: locs) stop max I) as (start & E & _); [done|]. by eexists.
  - intros from Hf Hb. rewrite (inv_height I) in Hf.
    destruct (locator_hashes_spec H rank g c tl from I Hf Hb) as (idx & hs & _ & E & _). by exists hs.
  - intros h Hh. by apply (median_val H rank g).
Qed.

(** * The store *)

Lemma store_mirror os c outs : reachable os c outs -> io_ok os ->
  s_genesis (c_store c) :: s_tail (c_store c) = active c.
Proof.
  intros R Hio. apply reachable_history in R as (rank & c0 & tl & Hh & _); [|done].
  pose proof (h_inv _ _ _ _ _ _ _ _ _ _ Hh) as I. rewrite (inv_active I), (i_sg I). f_equal.
  eapply (rtc_io H rank g _ c0 (s_tail s)).
  - intros hd ch now. by apply (presented_io os).
  - apply Hh.
  - by rewrite (h_store0 _ _ _ _ _ _ _ _ _ _ Hh).
Qed.

Lemma reload os c outs : reachable os c outs -> io_ok os -> ng (p_network ps) = H g ->
  exists c1, from_store H ng (c_store c) ps cps = Val (Ok c1) /\
    active c1 = active c /\ c_height c1 = c_height c /\ c_tip H c1 = c_tip H c /\
    c_chainwork c1 = c_chainwork c /\ c_index c1 = c_index c /\
    c_checkpoints c1 = c_checkpoints c /\ c_store c1 = c_store c /\ c_orphans c1 = ∅.
Proof.
  intros R Hio Hng. pose proof (store_mirror _ _ _ R Hio) as Hm.
  apply reachable_history in R as (rank & c0 & tl & Hh & _); [|done].
  pose proof (h_inv _ _ _ _ _ _ _ _ _ _ Hh) as I. rewrite (inv_active I), (i_sg I) in Hm.
  injection Hm as Hm.
  pose proof (from_store_spec H rank g ng (c_store c) ps cps (i_sg I)) as Hs. rewrite Hm in Hs.
  specialize (Hs (i_linked I) (i_rk I)).
  destruct (_ || _) eqn:E; [|apply orb_false_iff in E as [_ E]; lia].
  destruct Hs as (c1 & E1 & I1 & O1 & S1 & P1 & C1). exists c1.
  rewrite (inv_active I), (inv_active I1), (inv_height I), (inv_height I1).
  unfold c_tip. rewrite (inv_last I), (inv_last I1), (i_work I), (i_work I1).
  split_and!; auto.
  - apply map_eq. intros k. apply option_eq. intros h. by rewrite (i_index I), (i_index I1).
  - rewrite C1. symmetry. apply Hh.
Qed.

(** * Queries *)

Lemma locators_above os c outs from : reachable os c outs -> from <= c_height c -> from < 2 ^ 64 ->
  exists idx hs, locators_indexes from = Val idx /\ locator_hashes H c from = Val hs /\
    exists idx', idx' `prefix_of` idx /\ StronglySorted (fun a b => b < a) idx' /\
      (forall h, h ∈ idx -> (last_checkpoint c <= h <-> h ∈ idx')) /\
      Forall2 (fun h k => exists x, get_block_by_height c h = Some x /\ H x = k) idx' hs.
Proof.
  intros R Hf Hb. destruct (reach_inv _ _ _ R) as (rank & tl & I). rewrite (inv_height I) in Hf.
  destruct (locator_hashes_spec H rank g c tl from I Hf Hb) as (idx & hs & Ei & E & F2).
  exists idx, hs. split; [done|]. split; [done|]. exists (above (last_checkpoint c) idx).
  destruct (above_sub H rank g (last_checkpoint c) idx) as [Hp Hall].
  destruct (locators_correct from Hb) as (idx' & Ei' & _ & _ & Hdec & _).
  rewrite Ei in Ei'. injection Ei' as <-. pose proof (lookup_sorted H rank g idx Hdec) as Hs.
  split_and!; auto.
  - destruct Hp as [l El]. rewrite El in Hs. revert Hs. generalize (above (last_checkpoint c) idx). clear.
    intros l1. induction l1 as [|a l1 IH]; intros Hs; [constructor|].
    rewrite <- app_comm_cons in Hs. apply StronglySorted_inv in Hs as [Hs1 Hs2].
    constructor; [by apply IH|]. by apply Forall_app in Hs2 as [? _].
  - intros h Hh. split.
    + by apply (above_complete H rank g).
    + intros Hin. by apply (proj1 (Forall_forall _ _) Hall).
  - eapply Forall2_impl; [exact F2|]. cbn. intros h k (x & Hx & Hk). exists x.
    by rewrite (inv_get_by_height I).
Qed.

Lemma located os c outs locs stop max : reachable os c outs -> locs <> [] ->
  exists start, locate_headers c locs stop max = Val
      (let last := match get_block c stop with Some (h, _) => h | None => c_height c end in
       take (N.to_nat (N.min max (last - start))) (drop (S (N.to_nat start)) (active c))) /\
    ((exists l1 k l2 x, locs = l1 ++ k :: l2 /\ Forall (fun k => contains c k = false) l1 /\
        get_block_by_height c start = Some x /\ H x = k) \/
     (start = 0 /\ Forall (fun k => contains c k = false) locs)).
Proof.
  intros R Hne. destruct (reach_inv _ _ _ R) as (rank & tl & I).
  destruct (locate_spec H rank g c tl locs stop max I Hne) as (start & E & Hst).
  exists start. rewrite (inv_active I), (inv_height I), (inv_get_by_height I). split; [|done].
  rewrite E. cbn zeta. do 3 f_equal. lia.
Qed.

Lemma located_empty os c outs stop max : reachable os c outs ->
  locate_headers c [] stop max =
    Val (match get_block c stop with Some (_, x) => [x] | None => [] end).
Proof. intros _. cbn. by destruct (get_block c stop) as [[]|]. Qed.

Lemma branch_lookup os c outs k : reachable os c outs ->
  (forall h x, get_block_by_height c h = Some x -> H x = k -> find_branch c k = Val (Some (h, [x]))) /\
  (contains c k = false -> exists r, find_branch c k = Val r /\
    match r with
    | Some (h, x :: path) =>
        get_block_by_height c h = Some x /\ path <> [] /\ linked_from H (H x) path /\
        last_hash H (H x) path = k /\ Forall (stale H c) path
    | Some (_, []) => False
    | None => forall h x path, get_block_by_height c h = Some x -> linked_from H (H x) path ->
          Forall (stale H c) path -> last_hash H (H x) path <> k
    end).
Proof.
  intros R. destruct (reach_inv _ _ _ R) as (rank & tl & I). split.
  - intros h x Hx Hk. unfold find_branch. rewrite (inv_get_by_height I) in Hx.
    by rewrite (proj2 (inv_get_block I k h x) (conj Hx Hk)).
  - intros Hc. destruct (find_branch_spec H rank g c tl k I) as (r & E & Hr). exists r. split; [done|].
    destruct r as [[h [|x path]]|]; [done| |].
    + destruct Hr as (A & B & C & D). rewrite (inv_get_by_height I). split_and!; auto.
      intros ->. cbn in C. apply not_true_iff_false in Hc. apply Hc, (inv_contains I).
      exists x. split; [by eapply elem_of_list_lookup_2|done].
    + intros h x path Hx. rewrite (inv_get_by_height I) in Hx. intros L F. by eapply Hr.
Qed.

Lemma median_ok os c outs h : reachable os c outs -> 1 <= h <= c_height c + 1 ->
  exists t, median_time_past (c_chain c) h = Val t /\
    let ts := map h_time (take (N.to_nat (N.min h 11)) (drop (N.to_nat (h - 11)) (active c))) in
    length ts = N.to_nat (N.min h 11) /\ t ∈ ts /\
    (length ts / 2 < length (filter (fun x => (x <= t)%N) ts))%nat /\
    (length ts - length ts / 2 <= length (filter (fun x => (t <= x)%N) ts))%nat.
Proof.
  intros R Hh. destruct (reach_inv _ _ _ R) as (rank & tl & I). rewrite (inv_height I) in Hh.
  rewrite (inv_active I). exact (median_spec H rank g c tl h I Hh).
Qed.

(** * Checkpoints *)

Lemma checkpoint_kept os c hd ch now c' r k cp x :
  transition os c (OImport [(hd, ch)] now) c' r -> NoDup (map fst cps) -> (k, cp) ∈ cps ->
  get_block_by_height c k = Some x -> H x = cp -> k <= c_height c' ->
  forall h, h <= k -> get_block_by_height c' h = get_block_by_height c h.
Proof.
  intros T ND Hcp Hx Ex Hk h Hh.
  destruct (transition_inv H ng _ _ _ _ _ _ _ _ Hps T) as (rank0 & c0 & tl0 & Hh0 & _).
  pose proof (h_cps _ _ _ _ _ _ _ _ _ _ Hh0) as Ec.
  destruct (one_import _ _ _ _ _ _ _ T) as (rank & tl & tl' & r0 & I & I' & Ep & Ep' & E & O & M).
  rewrite (inv_get_by_height I), (inv_get_by_height I'). rewrite (inv_get_by_height I) in Hx.
  rewrite (inv_height I') in Hk. clear M.
  inversion O as [e1 Hne Hwhy|Hen Hkk|?|cd c2 tl2 r2 Hen Hkk Hv Hw Heq Hmax Htl Hst Hkn Hbad Hgood]; subst; auto.
  destruct Hv as [Hbr Hval].
  assert (N.to_nat (cd_fork_height cd) <= length tl)%nat as Hle by by eapply is_branch_fork_le.
  set (n := N.to_nat (cd_fork_height cd)) in *.
  assert (k <= cd_fork_height cd -> forall rest,
    (g :: take n tl ++ rest) !! N.to_nat h = (g :: tl) !! N.to_nat h) as Hlow.
  { intros Hkn' rest. destruct (N.to_nat h) as [|m] eqn:Em; [done|].
    change ((take n tl ++ rest) !! m = tl !! m). rewrite lookup_app_l by (rewrite take_length; lia). apply lookup_take. lia. }
  destruct (ch_rollback_ok ch).
  2:{ unfold lenN in Hk. rewrite take_length in Hk.
      specialize (Hlow ltac:(lia) []). by rewrite app_nil_r in Hlow. }
  destruct (N.le_gt_cases k (cd_fork_height cd)) as [Hc|Hc]; [by apply Hlow|]. exfalso.
  rewrite (switched_fits_len H rank g tl cd) in Hk by done.
  destruct Hbr as (Hf & Hne & L & Elast & Hpath).
  destruct (cd_headers cd !! N.to_nat (k - cd_fork_height cd - 1)) as [y|] eqn:Ey.
  2:{ apply lookup_ge_None in Ey. unfold lenN in Hk. lia. }
  assert (params_ok (c_params c)) as Hpc by done.
  apply (validate_headers_iff H) in Hval; [|done|done].
  apply valid_path_orphan in Hval.
  destruct (valid_path_lookup H _ _ _ _ _ _ _ Hval Ey) as (y0 & _ & Hat).
  destruct Hat as (_ & _ & _ & Hcpy & _).
  replace (cd_fork_height cd + N.of_nat (N.to_nat (k - cd_fork_height cd - 1)) + 1) with k in Hcpy by lia.
  specialize (Hcpy (H x)). rewrite Ec in Hcpy. specialize (Hcpy (fold_insert_nodup _ _ _ _ ND Hcp)).
  pose proof (proj1 (Forall_forall _ _) Hpath y (elem_of_list_lookup_2 _ _ _ Ey)) as Ho.
  assert (contains c (H y) = true) as Hcon.
  { apply (inv_contains I). exists x. split; [by eapply elem_of_list_lookup_2|done]. }
  cbn [with_orphan c_orphans] in Ho. destruct (decide (H hd = H y)) as [Eh|Eh].
  - destruct Hen as (Hun & _). unfold is_known in Hun. by rewrite Eh, Hcon in Hun.
  - rewrite lookup_insert_ne in Ho by done. apply (i_disj I) in Ho.
    unfold contains in Hcon. rewrite Ho in Hcon. apply bool_decide_eq_true in Hcon as [? ?]. done.
Qed.

(** A header whose parent is active below the last checkpoint is refused. *)
Lemma below_checkpoint os c hd ch now c' r h p :
  transition os c (OImport [(hd, ch)] now) c' r -> is_known c (H hd) = false ->
  get_block_by_height c h = Some p -> h_prev hd = H p -> h < last_checkpoint c ->
  exists e, r = Err (EAborted e 0 (c_height c')) /\ c' = c.
Proof.
  intros T Hn Hp Hpar Hlt.
  destruct (one_import _ _ _ _ _ _ _ T) as (rank & tl & tl' & r0 & I & I' & Ep & Ep' & E & O & M).
  rewrite (inv_get_by_height I) in Hp.
  assert (admission H c hd <> None) as Ha.
  { unfold admission. destruct (negb _); [done|]. destruct (_ <? _); [done|].
    rewrite (proj2 (i_index I (h_prev hd) h)); [|by exists p].
    destruct (N.ltb_spec h (last_checkpoint c)); [done|lia]. }
  inversion O as [e1 Hne Hwhy|Hen Hkk|?|cd c2 tl2 r2 Hen Hkk]; subst;
    try (match goal with X : entered _ _ _ _ _ _ |- _ => destruct X as (_ & _ & ?) end; done).
  exists e1. split; [|done].
  destruct Hwhy as [[_ Hw]|[_ [[_ Hw]|Hw]]]; [congruence| |].
  - destruct (validate_not_store H _ _ _ _ _ _ _ _ Hw) as (_ & A & B).
    destruct e1; try done; [by destruct (A hash)|by destruct (B hash)].
  - destruct (admission_not_store H _ _ _ Hw) as (_ & A & B).
    destruct e1; try done; [by destruct (A hash)|by destruct (B hash)].
Qed.
End Main.
