(** Proofs about the block header cache: import of one header and extension. *)
From Verif Require Import Base SortProofs PowModel BlockModel BlockSpec BlockProofs BlockOps.
Open Scope N_scope.

Section Import.
Context (H : header -> N) (rank : N -> nat) (g : header).
Notation linked_from := (linked_from H).
Notation last_hash := (last_hash H).
Notation rk := (rk H rank).
Notation INV := (INV H rank g).
Notation is_branch := (is_branch H g).
Notation branch_valid := (branch_valid H).
Notation known := (known H g).

(** * Selection *)

Definition lost (tl : list header) (cd : candidate) : N :=
  sum_work (drop (N.to_nat (cd_fork_height cd)) tl).
Definition cwork (cd : candidate) : N := sum_work (cd_headers cd).

Definition fits (tl : list header) (cd : candidate) : Prop :=
  (N.to_nat (cd_fork_height cd) <= length tl)%nat.

Lemma select_step_eq c tl s cd : INV c tl -> fits tl cd ->
  select_step c s cd = Val (
    if cwork cd <? lost tl cd then s else
    if sel_work s <? cwork cd - lost tl cd then mkSel (Some cd) (cd_tip cd) (cwork cd - lost tl cd)
    else if bool_decide (p_network (c_params c) ≠ Bitcoin) then
      if cwork cd - lost tl cd =? sel_work s then
        if cd_tip cd <? sel_hash s then mkSel (Some cd) (cd_tip cd) (sel_work s) else s
      else s
    else s).
Proof.
  intros I Hf. unfold fits in Hf. unfold select_step, chain_suffix.
  rewrite (i_tail I), mk_from_length.
  destruct (_ <=? _)%nat eqn:E; [|lia]. cbn [mbind_M].
  rewrite mk_from_drop, mk_from_headers by done. rewrite !branch_work_sum.
  fold (cwork cd) (lost tl cd).
  destruct (_ <? _); [done|]. destruct (_ <? _); [done|]. destruct (bool_decide _); [|done].
  destruct (_ =? _); [|done]. by destruct (_ <? _).
Qed.

(** Result of the selection loop over [cds] starting from [s]. *)
Record sel_ok (tl : list header) (main : bool) (s : selection) (cds : list candidate)
    (s' : selection) : Prop := {
  so_mono : sel_work s <= sel_work s';
  so_max : forall cd, cd ∈ cds -> cwork cd <= lost tl cd + sel_work s';
  so_from : s' = s \/ exists cd, cd ∈ cds /\ sel_branch s' = Some cd /\
      sel_hash s' = cd_tip cd /\ cwork cd = lost tl cd + sel_work s';
  so_main : main = true -> sel_work s' = sel_work s -> s' = s;
  so_tie : main = false -> forall cd, cd ∈ cds ->
      cwork cd = lost tl cd + sel_work s' -> sel_hash s' <= cd_tip cd;
  so_tie0 : main = false -> sel_work s' = sel_work s -> sel_hash s' <= sel_hash s /\
      (sel_hash s' = sel_hash s -> s' = s);
}.

Definition is_main (c : cache) : bool := bool_decide (p_network (c_params c) = Bitcoin).

Lemma select_spec c tl s cds : INV c tl -> Forall (fits tl) cds ->
  exists s', select c s cds = Val s' /\ sel_ok tl (is_main c) s cds s'.
Proof.
  intros I. revert s. induction cds as [|cd cds IH]; intros s Hf; cbn [select].
  { exists s. split; [done|]. constructor; auto; try (intros; set_solver); try lia. }
  inversion Hf as [|?? Hf1 Hf2]; subst.
  rewrite (select_step_eq c tl s cd I Hf1). cbn [mbind_M].
  assert (bool_decide (p_network (c_params c) ≠ Bitcoin) = negb (is_main c)) as ->.
  { unfold is_main. by destruct (decide (p_network (c_params c) = Bitcoin)) as [->|Hn];
      [|rewrite (bool_decide_eq_true_2 _ Hn), bool_decide_eq_false_2]. }
  match goal with |- context [select c ?t cds] => set (s1 := t) end.
  destruct (IH s1 Hf2) as (s' & E & K). exists s'. split; [done|].
  destruct K as [K1 K2 K3 K4 K5 K6].
  assert (s1 = s /\ (cwork cd < lost tl cd \/ (lost tl cd <= cwork cd /\ (cwork cd - lost tl cd < sel_work s \/
            (cwork cd - lost tl cd = sel_work s /\ (is_main c = true \/ sel_hash s <= cd_tip cd))))) \/
          s1 = mkSel (Some cd) (cd_tip cd) (cwork cd - lost tl cd) /\ lost tl cd <= cwork cd /\
            (sel_work s < cwork cd - lost tl cd \/
             is_main c = false /\ cwork cd - lost tl cd = sel_work s /\ cd_tip cd < sel_hash s)) as Hs1.
  { unfold s1. destruct (cwork cd <? lost tl cd) eqn:E1; [left; split; [done|lia]|].
    destruct (sel_work s <? cwork cd - lost tl cd) eqn:E2; [right; split; [done|lia]|].
    destruct (is_main c); cbn.
    - left. split; [done|]. right. split; [lia|]. destruct (decide (cwork cd - lost tl cd = sel_work s)); [right; auto|left; lia].
    - destruct (cwork cd - lost tl cd =? sel_work s) eqn:E3.
      + destruct (cd_tip cd <? sel_hash s) eqn:E4.
        * right. split; [f_equal; lia|]. split; [lia|]. right. split; [done|]. lia.
        * left. split; [done|]. right. split; [lia|]. right. split; [lia|]. right. lia.
      + left. split; [done|]. lia. }
  clearbody s1. destruct Hs1 as [[-> Hc]|[-> [Hc1 Hc2]]].
  - constructor; auto.
    + intros x Hx. apply elem_of_cons in Hx as [->|Hx]; [|auto]. lia.
    + destruct K3 as [?|(x & Hx & R)]; [by left|]. right. exists x. split; [by right|done].
    + intros Hm x Hx Ex. apply elem_of_cons in Hx as [->|Hx]; [|auto].
      destruct Hc as [Hc|[Hc [Hc'|[Hc' [Hc2|Hc2]]]]]; [lia|lia|congruence|].
      assert (sel_work s' = sel_work s) as Es by lia. destruct (K6 Hm Es). lia.
  - cbn in K1, K4, K6. constructor; auto.
    + destruct Hc2; lia.
    + intros x Hx. apply elem_of_cons in Hx as [->|Hx]; [|auto]. lia.
    + right. destruct K3 as [->|(x & Hx & R)].
      * exists cd. cbn. split; [by left|]. split; [done|]. split; [done|]. lia.
      * exists x. split; [by right|done].
    + intros Hm Es. exfalso. destruct Hc2 as [Hc2|[Hc2 _]]; [lia|congruence].
    + intros Hm x Hx Ex. apply elem_of_cons in Hx as [->|Hx]; [|auto].
      apply K6; [done|lia].
    + intros Hm Es. destruct Hc2 as [Hc2|[Hc2 [Hc3 Hc4]]]; [lia|].
      destruct (K6 Hm ltac:(lia)) as [A _]. split; [lia|]. intros. lia.
Qed.

(** * Activation *)

Lemma prune_id c tl : INV c tl -> prune_orphans c = c.
Proof.
  intros I. unfold prune_orphans. destruct c; cbn in *. f_equal.
  apply map_filter_id. intros k x Hx. cbn. apply (i_disj I) in Hx. cbn in Hx.
  unfold contains. cbn. rewrite Hx. apply bool_decide_eq_false. by intros [].
Qed.

(** The list of blocks reported as connected after switching to [cd]. *)
Definition connected_list (cd : candidate) : list (N * header) :=
  imap (fun i h => (cd_fork_height cd + 1 + N.of_nat i, h)) (cd_headers cd).

Lemma last_some_ne_last (x : header) l : List.last (map Some (x :: l)) None = Some (ne_last x l).
Proof.
  revert x. induction l as [|y l IH]; intros x; [done|].
  change (List.last (map Some (y :: l)) None = Some (ne_last x (y :: l))).
  by rewrite IH, ne_last_cons.
Qed.

Lemma activate_spec c tl cd ch : INV c tl -> is_branch c tl cd ->
  exists c' r, activate H c cd ch = Val (c', r) /\ same_cfg c c' /\
    s_tail (c_store c') = store_after ch (s_tail (c_store c)) tl cd /\
    INV c' (if ch_rollback_ok ch then switched tl cd
            else take (N.to_nat (cd_fork_height cd)) tl) /\
    (forall hd, known c' (if ch_rollback_ok ch then switched tl cd
            else take (N.to_nat (cd_fork_height cd)) tl) hd <-> known c tl hd) /\
    (ch_rollback_ok ch && bool_decide (ch_put ch = None) = false -> r = Err EStore) /\
    (ch_rollback_ok ch && bool_decide (ch_put ch = None) = true ->
     exists hd, H hd = cd_tip cd /\ ne_last g (switched tl cd) = hd /\
       r = Ok (TipChanged hd (cd_tip cd) (lenN (switched tl cd))
            (stale_list (N.to_nat (cd_fork_height cd)) tl) (connected_list cd))).
Proof.
  intros I B. destruct (switch_spec H rank g c tl cd ch I B) as (c' & r & E & S' & St & Er & I' & K).
  unfold activate. rewrite E. cbn [mbind_M].
  destruct (ch_rollback_ok ch) eqn:Erb.
  2:{ subst r. exists c'. eexists. split; [reflexivity|]. split; [exact S'|]. split; [exact St|].
      split; [exact I'|]. split; [exact K|]. split; [reflexivity|]. intros Hx. discriminate. }
  destruct (ch_put ch) as [k|] eqn:Eput.
  { subst r. exists c'. eexists. split; [reflexivity|]. split; [exact S'|]. split; [exact St|].
    split; [exact I'|]. split; [exact K|]. split; [reflexivity|].
    intros Hx. by rewrite bool_decide_eq_false_2 in Hx. }
  subst r. rewrite (inv_height I').
  pose proof (is_branch_fork_le H rank g _ _ _ B) as Hle.
  destruct B as (B1 & B2 & B3). destruct (cd_headers cd) as [|x l] eqn:Eh; [done|].
  rewrite last_some_ne_last.
  assert (lenN (switched tl cd) = cd_fork_height cd + lenN (x :: l)) as Hlen.
  { unfold switched, lenN. rewrite app_length, take_length, Eh. lia. }
  assert (0 < lenN (x :: l)) by (unfold lenN; cbn; lia).
  unfold assertM. destruct (_ <? _) eqn:E1; [|lia].
  unfold range_blocks, assertM. destruct (_ <=? _) eqn:E2; [|lia]. cbn [mbind_M].
  assert (take (N.to_nat (lenN (switched tl cd) + 1 - (cd_fork_height cd + 1)))
           (drop (N.to_nat (cd_fork_height cd + 1)) (c_chain c')) =
          mk_from (cd_fork_height cd + 1) (x :: l)) as ->.
  { rewrite (inv_chain I').
    change (g :: switched tl cd) with ([g] ++ take (N.to_nat (cd_fork_height cd)) tl ++ cd_headers cd).
    rewrite app_assoc, mk_from_app.
    rewrite drop_app_alt.
    2:{ rewrite mk_from_length, app_length, take_length. cbn. lia. }
    rewrite Eh. rewrite take_ge.
    2:{ rewrite mk_from_length. unfold lenN in *. lia. }
    f_equal. unfold lenN. rewrite app_length, take_length. cbn. lia. }
  cbn [mk_from map].
  do 2 eexists. split; [reflexivity|]. split; [done|]. split; [done|]. split; [done|]. split; [done|].
  split; [intros Hx; by rewrite bool_decide_eq_true_2 in Hx|].
  intros _. exists (ne_last x l). split.
  { destruct B3 as (_ & B4 & _). rewrite <- B4.
    change (last_hash (H (cd_fork_header cd)) (x :: l)) with (last_hash (H x) l).
    by rewrite last_hash_ne_last. }
  split.
  { unfold switched. rewrite Eh. apply ne_last_app. }
  unfold connected_list. rewrite Eh. do 2 f_equal.
  exact (mk_from_pairs (cd_fork_height cd + 1) (x :: l)).
Qed.

(** * Import of one header *)

(** The state in which candidates are looked for. *)
Definition entered (c : cache) (tl : list header) (hd : header) (now : N) : Prop :=
  is_known c (H hd) = false /\
  (h_prev hd = last_hash (H g) tl -> c_validate H c (c_last c) hd now = Val None) /\
  admission H c hd = None.

Definition valid_branches (c : cache) (tl : list header) (now : N) (cd : candidate) : Prop :=
  is_branch c tl cd /\ branch_valid c now cd.

Inductive import_outcome (c : cache) (tl : list header) (hd : header) (now : N) (ch : choice) :
    cache -> list header -> result import_result err -> Prop :=
| IO_reject e :
    e <> EStore ->
    (e = EDuplicate (H hd) /\ is_known c (H hd) = true \/
     is_known c (H hd) = false /\ (
     h_prev hd = last_hash (H g) tl /\ c_validate H c (c_last c) hd now = Val (Some e) \/
     admission H c hd = Some e)) ->
    import_outcome c tl hd now ch c tl (Err e)
| IO_missing :
    entered c tl hd now ->
    is_known (with_orphan c (H hd) hd) (h_prev hd) = false ->
    import_outcome c tl hd now ch (with_orphan c (H hd) hd) tl (Err (EMissing (h_prev hd)))
| IO_unchanged :
    entered c tl hd now ->
    is_known (with_orphan c (H hd) hd) (h_prev hd) = true ->
    (forall cd, valid_branches (with_orphan c (H hd) hd) tl now cd ->
       cwork cd <= lost tl cd /\
       (p_network (c_params c) <> Bitcoin -> cwork cd = lost tl cd ->
        last_hash (H g) tl <= cd_tip cd)) ->
    import_outcome c tl hd now ch (with_orphan c (H hd) hd) tl (Ok TipUnchanged)
| IO_switch cd c' tl' r :
    entered c tl hd now ->
    is_known (with_orphan c (H hd) hd) (h_prev hd) = true ->
    valid_branches (with_orphan c (H hd) hd) tl now cd ->
    lost tl cd <= cwork cd ->
    (cwork cd = lost tl cd -> p_network (c_params c) <> Bitcoin /\
       cd_tip cd < last_hash (H g) tl) ->
    (forall cd', valid_branches (with_orphan c (H hd) hd) tl now cd' ->
       cwork cd' + lost tl cd <= lost tl cd' + cwork cd /\
       (p_network (c_params c) <> Bitcoin -> cwork cd' + lost tl cd = lost tl cd' + cwork cd ->
        cd_tip cd <= cd_tip cd')) ->
    tl' = (if ch_rollback_ok ch then switched tl cd else take (N.to_nat (cd_fork_height cd)) tl) ->
    s_tail (c_store c') = store_after ch (s_tail (c_store c)) tl cd ->
    (forall x, known c' tl' x <-> known (with_orphan c (H hd) hd) tl x) ->
    (ch_rollback_ok ch && bool_decide (ch_put ch = None) = false -> r = Err EStore) ->
    (ch_rollback_ok ch && bool_decide (ch_put ch = None) = true ->
     exists hd', H hd' = cd_tip cd /\ ne_last g (switched tl cd) = hd' /\
       r = Ok (TipChanged hd' (cd_tip cd) (lenN (switched tl cd))
            (stale_list (N.to_nat (cd_fork_height cd)) tl) (connected_list cd))) ->
    import_outcome c tl hd now ch c' tl' r.

Lemma with_orphan_inv c tl hd : INV c tl -> is_known c (H hd) = false -> rk hd ->
  INV (with_orphan c (H hd) hd) tl.
Proof.
  intros I Hk Hr. apply orb_false_iff in Hk as [Hc _]. unfold contains in Hc.
  apply bool_decide_eq_false in Hc. apply eq_None_not_Some in Hc.
  destruct I. constructor; cbn; auto.
  - intros k x Hx. apply lookup_insert_Some in Hx as [[<- <-]|[_ Hx]]; auto.
  - intros k x Hx. apply lookup_insert_Some in Hx as [[<- <-]|[_ Hx]]; eauto.
Qed.

Lemma validate_not_store ps cps chain gg tip hd now e :
  validate H ps cps chain gg tip hd now = Val (Some e) ->
  e <> EStore /\ (forall k, e <> EDuplicate k) /\ (forall k, e <> EMissing k).
Proof.
  unfold validate, assertM. intros E.
  destruct (_ =? _); [|done]. destruct (required_bits _ _ _ _ _); cbn [mbind_M] in E; [|done].
  destruct (validate_pow _ _ _) as [[]|].
  1,2: injection E as <-; repeat split; intros; discriminate.
  match type of E with (if ?b then _ else _) = _ => destruct b end.
  1: injection E as <-; repeat split; intros; discriminate.
  destruct (median_time_past _ _); cbn [mbind_M] in E; [|done].
  destruct (_ <=? _); [injection E as <-; repeat split; intros; discriminate|].
  destruct (_ <? _); [injection E as <-; repeat split; intros; discriminate|done].
Qed.

Lemma admission_not_store c hd e : admission H c hd = Some e ->
  e <> EStore /\ (forall k, e <> EDuplicate k) /\ (forall k, e <> EMissing k).
Proof.
  unfold admission. intros E. destruct (negb _); [injection E as <-; repeat split; intros; discriminate|].
  destruct (_ <? _); [injection E as <-; repeat split; intros; discriminate|].
  destruct (c_index c !! _); [|done]. destruct (_ <? _); [injection E as <-; repeat split; intros; discriminate|done].
Qed.

Theorem import_block_spec c tl hd now ch :
  INV c tl -> params_ok (c_params c) -> fair_choice ch -> rk hd ->
  exists c' tl' r, import_block H c hd now ch = Val (c', r) /\
    INV c' tl' /\ same_cfg c c' /\ import_outcome c tl hd now ch c' tl' r.
Proof.
  intros I Hp Hf Hr. unfold import_block.
  destruct (is_known c (H hd)) eqn:Ek.
  { exists c, tl. eexists. split; [reflexivity|]. split; [done|]. split; [by split|].
    apply IO_reject; [done|]. by left. }
  rewrite (inv_tip_hash I).
  assert (exists v, (if h_prev hd =? last_hash (H g) tl then c_validate H c (c_last c) hd now else Val None) = Val v /\
    (h_prev hd = last_hash (H g) tl -> c_validate H c (c_last c) hd now = Val v) /\
    (h_prev hd <> last_hash (H g) tl -> v = None)) as (v & Ev & Hv1 & Hv2).
  { destruct (h_prev hd =? last_hash (H g) tl) eqn:E1.
    - destruct (validate_val H rank g (c_params c) (c_checkpoints c) (c_chain c) (c_genesis c) (c_last c) hd now Hp) as [v Ev].
      { rewrite (inv_tip_hash I). lia. }
      exists v. split; [done|]. split; [done|]. lia.
    - exists None. split; [done|]. split; [lia|done]. }
  rewrite Ev. cbn [mbind_M]. destruct v as [e|].
  { destruct (decide (h_prev hd = last_hash (H g) tl)) as [Heq|Hne]; [|by specialize (Hv2 Hne)].
    exists c, tl. eexists. split; [reflexivity|]. split; [done|]. split; [by split|].
    apply IO_reject; [by eapply validate_not_store, Hv1|]. right. split; [done|]. left. auto. }
  destruct (admission H c hd) as [e|] eqn:Ea.
  { exists c, tl. eexists. split; [reflexivity|]. split; [done|]. split; [by split|].
    apply IO_reject; [by eapply admission_not_store|]. right. split; [done|]. by right. }
  assert (entered c tl hd now) as Hent by (split; auto).
  set (c1 := with_orphan c (H hd) hd).
  assert (INV c1 tl) as I1 by by apply with_orphan_inv.
  destruct (negb (in_orphans c1 (h_prev hd)) && negb (contains c1 (h_prev hd))) eqn:Em.
  { exists c1, tl. eexists. split; [reflexivity|]. split; [done|]. split; [by split|].
    apply IO_missing; [done|]. fold c1. unfold is_known.
    apply andb_true_iff in Em as [Em1 Em2]. apply negb_true_iff in Em1, Em2. by rewrite Em1, Em2. }
  assert (is_known c1 (h_prev hd) = true) as Hk1.
  { unfold is_known. destruct (in_orphans c1 _), (contains c1 _); done. }
  destruct (chain_candidates_spec H rank g c1 tl ch now I1 Hp Hf) as (cds & Ecds & Hcds).
  rewrite Ecds. cbn [mbind_M].
  assert (Forall (fits tl) cds) as Hfit.
  { apply Forall_forall. intros cd Hcd. apply Hcds in Hcd as [Hb _]. by eapply (is_branch_fork_le H rank g). }
  destruct (select_spec c1 tl (mkSel None (last_hash (H g) tl) 0) cds I1 Hfit) as (s & Es & Hs).
  destruct cds as [|cd0 cds0].
  { exists c1, tl. eexists. split; [reflexivity|]. split; [done|]. split; [by split|].
    apply IO_unchanged; auto. intros cd [Hb Hvv]. exfalso.
    assert (cd ∈ @nil candidate) as Hx by (apply Hcds; by split). by apply elem_of_nil in Hx. }
  rewrite Es. cbn [mbind_M]. rewrite (prune_id c1 tl I1).
  destruct Hs as [S1 S2 S3 S4 S5 S6]. cbn [sel_work sel_hash sel_branch] in *.
  assert (forall cd, cd ∈ cd0 :: cds0 <-> valid_branches c1 tl now cd) as Hvb by exact Hcds.
  assert (p_network (c_params c) <> Bitcoin -> is_main c1 = false) as Hmain.
  { intros. unfold is_main. by apply bool_decide_eq_false. }
  destruct (sel_branch s) as [cd|] eqn:Eb.
  - destruct S3 as [->|(cd' & Hin & Eb' & Eh & Ew)]; [done|]. injection Eb' as <-.
    apply Hvb in Hin as Hvc.
    destruct (activate_spec c1 tl cd ch I1 (proj1 Hvc)) as (c' & r & E & Sc & St & I' & K & Ef & Et).
    exists c'. eexists. exists r. split; [exact E|]. split; [exact I'|]. split; [exact Sc|].
    eapply IO_switch with (cd := cd); auto; fold c1; try lia.
    + intros Heq. assert (sel_work s = 0) as Ew0 by lia.
      destruct (is_main c1) eqn:Emain.
      { specialize (S4 eq_refl Ew0). subst s. done. }
      destruct (S6 eq_refl Ew0) as [A B]. split.
      { unfold is_main in Emain. by apply bool_decide_eq_false in Emain. }
      rewrite <- Eh. destruct (decide (sel_hash s = last_hash (H g) tl)) as [Hx|Hx]; [|lia].
      specialize (B Hx). by subst s.
    + intros cd' Hcd'. apply Hvb in Hcd'. pose proof (S2 cd' Hcd'). split; [lia|].
      intros Hnet Heq. rewrite <- Eh. apply S5; auto. lia.
  - exists c1, tl. eexists. split; [reflexivity|]. split; [done|]. split; [by split|].
    destruct S3 as [->|(cd' & _ & Eb' & _)]; [|done]. cbn in *.
    apply IO_unchanged; auto. fold c1. intros cd Hcd. apply Hvb in Hcd.
    pose proof (S2 cd Hcd). split; [lia|]. intros Hnet Heq. apply S5; auto. lia.
Qed.

(** * Extension of the tip *)

Inductive extend_outcome (c : cache) (tl : list header) (hd : header) (now : N) (ch : choice) :
    cache -> list header -> result import_result err -> Prop :=
| EO_unchanged : h_prev hd <> last_hash (H g) tl ->
    extend_outcome c tl hd now ch c tl (Ok TipUnchanged)
| EO_reject e : h_prev hd = last_hash (H g) tl -> e <> EStore ->
    c_validate H c (c_last c) hd now = Val (Some e) ->
    extend_outcome c tl hd now ch c tl (Err e)
| EO_extend c' r : h_prev hd = last_hash (H g) tl ->
    c_validate H c (c_last c) hd now = Val None ->
    s_tail (c_store c') = s_tail (c_store c) ++
       match ch_put ch with None => [hd] | Some k => take k [hd] end ->
    (forall k x, c_orphans c' !! k = Some x <-> c_orphans c !! k = Some x /\ k <> H hd) ->
    r = match ch_put ch with
        | None => Ok (TipChanged hd (H hd) (lenN tl + 1) [] [(lenN tl + 1, hd)])
        | Some _ => Err EStore
        end ->
    extend_outcome c tl hd now ch c' (tl ++ [hd]) r.

Theorem extend_tip_spec c tl hd now ch :
  INV c tl -> params_ok (c_params c) -> rk hd ->
  exists c' tl' r, extend_tip H c hd now ch = Val (c', r) /\
    INV c' tl' /\ same_cfg c c' /\ extend_outcome c tl hd now ch c' tl' r.
Proof.
  intros I Hp Hr. unfold extend_tip. rewrite (inv_tip_hash I).
  destruct (h_prev hd =? last_hash (H g) tl) eqn:E.
  - destruct (validate_val H rank g (c_params c) (c_checkpoints c) (c_chain c) (c_genesis c) (c_last c) hd now Hp) as [v Ev].
    { rewrite (inv_tip_hash I). lia. }
    unfold c_validate. rewrite Ev. cbn [mbind_M]. destruct v as [e|].
    { exists c, tl. eexists. split; [reflexivity|]. split; [done|]. split; [by split|].
      apply EO_reject; [lia| |done]. by eapply validate_not_store. }
    assert (h_prev hd = last_hash (H g) tl) as Hl by lia.
    assert (cb_height (c_last c) = lenN tl) as Hh by (rewrite (inv_last I); done). rewrite Hh.
    destruct (extend_spec H rank g c tl hd (lenN tl + 1) I Hl Hr eq_refl) as (c1 & E1 & I1 & S1 & St1 & O1).
    rewrite E1. cbn [mbind_M]. unfold store_put. destruct (ch_put ch) as [k|] eqn:Ep.
    + do 3 eexists. split; [reflexivity|]. split; [apply with_store_inv, I1|]. split; [exact S1|].
      apply EO_extend; auto; rewrite ?Ep; auto. cbn. by rewrite St1.
    + do 3 eexists. split; [reflexivity|]. split; [apply with_store_inv, I1|]. split; [exact S1|].
      apply EO_extend; auto; rewrite ?Ep; auto. cbn. by rewrite St1.
  - exists c, tl. eexists. split; [reflexivity|]. split; [done|]. split; [by split|].
    apply EO_unchanged. lia.
Qed.

End Import.
