(** Proofs about the block header cache: effect of each operation. *)
From Verif Require Import Base SortProofs PowModel BlockModel BlockSpec BlockProofs.
Open Scope N_scope.

Section Ops.
Context (H : header -> N) (rank : N -> nat) (g : header).
Notation linked_from := (linked_from H).
Notation last_hash := (last_hash H).
Notation rk := (rk H rank).
Notation INV := (INV H rank g).
Notation is_branch := (is_branch H g).
Notation branch_valid := (branch_valid H).

(** * Rollback *)

Lemma fold_drop_frame l c :
  let c' := foldl (drop_block H) c l in
  c_head c' = c_head c /\ c_tail c' = c_tail c /\ c_checkpoints c' = c_checkpoints c /\
  c_params c' = c_params c /\ c_store c' = c_store c /\
  c_chainwork c' = c_chainwork c - sum_work (map cb_header l).
Proof.
  revert c. induction l as [|b l IH]; intros c; cbn.
  - repeat split; auto. lia.
  - specialize (IH (drop_block H c b)). cbn in IH. destruct IH as (A&B&C&D&E&F).
    repeat split; auto. rewrite F. lia.
Qed.

Lemma fold_drop_index l c k :
  c_index (foldl (drop_block H) c l) !! k =
  if decide (k ∈ map (cb_hash H) l) then None else c_index c !! k.
Proof.
  revert c. induction l as [|b l IH]; intros c; cbn.
  - destruct (decide _) as [Hd|]; [by apply elem_of_nil in Hd|done].
  - rewrite IH. cbn. destruct (decide (k ∈ map (cb_hash H) l)) as [Hd|Hd];
      destruct (decide (k ∈ cb_hash H b :: map (cb_hash H) l)) as [He|He]; auto.
    + exfalso. apply He. by right.
    + apply elem_of_cons in He as [->|He]; [|done]. by rewrite lookup_delete.
    + apply lookup_delete_ne. intros <-. apply He. by left.
Qed.

Lemma fold_drop_orphans l c k hd : NoDup (map (cb_hash H) l) ->
  c_orphans (foldl (drop_block H) c l) !! k = Some hd <->
  (exists b, b ∈ l /\ cb_hash H b = k /\ cb_header b = hd) \/
  (k ∉ map (cb_hash H) l /\ c_orphans c !! k = Some hd).
Proof.
  revert c. induction l as [|b l IH]; intros c Hn; cbn.
  - split; [intros E; right; split; [apply not_elem_of_nil|done]|]. intros [(b & Hb & _)|[_ E]]; [by apply elem_of_nil in Hb|done].
  - apply NoDup_cons in Hn as [Hn1 Hn2]. rewrite (IH _ Hn2). cbn. split.
    + intros [(b' & A & B & C)|[A B]].
      * left. exists b'. split; [by right|done].
      * destruct (decide (k = cb_hash H b)) as [->|Hk].
        -- rewrite lookup_insert in B. injection B as <-. left. exists b. split; [by left|done].
        -- rewrite lookup_insert_ne in B by done. right. split; [|done].
           intros Hin. apply elem_of_cons in Hin as [|]; [done|]. by apply A.
    + intros [(b' & A & B & C)|[A B]].
      * apply elem_of_cons in A as [->|A]; [|left; eauto].
        right. subst. split; [done|]. by rewrite lookup_insert.
      * right. split; [intros Hin; apply A; by right|].
        rewrite lookup_insert_ne; [done|]. intros <-. apply A. by left.
Qed.

Lemma imap_mk_from (f : nat -> header -> N * header) n hs :
  imap (fun i b => f i (cb_header b)) (mk_from n hs) = imap f hs.
Proof.
  apply list_eq. intros i. rewrite !list_lookup_imap, mk_from_lookup.
  by destruct (hs !! i).
Qed.

Lemma map_hash_mk n hs : map (cb_hash H) (mk_from n hs) = map H hs.
Proof. revert n. induction hs as [|h t IH]; intros n; cbn; auto. by rewrite IH. Qed.

Lemma INV_take_nodup c tl n : INV c tl -> NoDup (map H (drop n tl)).
Proof.
  intros I. pose proof (inv_nodup I) as Hn. cbn in Hn. apply NoDup_cons in Hn as [_ Hn].
  rewrite <- (take_drop n tl), map_app in Hn. by apply NoDup_app in Hn as (_ & _ & ?).
Qed.

(** The list of stale blocks returned by a rollback to height [n]. *)
Definition stale_list (n : nat) (tl : list header) : list (N * header) :=
  imap (fun i h => (N.of_nat n + 1 + N.of_nat i, h)) (drop n tl).

Lemma rollback_spec c tl n ok : INV c tl -> (n <= length tl)%nat ->
  exists c', rollback H c (N.of_nat n) ok =
      Val (c', if ok then Ok (stale_list n tl) else Err EStore) /\
    INV c' (take n tl) /\ same_cfg c c' /\
    s_tail (c_store c') = (if ok then take n (s_tail (c_store c)) else s_tail (c_store c)) /\
    (forall k hd, c_orphans c' !! k = Some hd <->
       c_orphans c !! k = Some hd \/ (hd ∈ drop n tl /\ H hd = k)).
Proof.
  intros I Hn. unfold rollback. rewrite Nat2N.id, (i_tail I), mk_from_length.
  destruct (n <=? length tl)%nat eqn:E; [|lia]. cbn [negb].
  rewrite mk_from_drop, mk_from_take by done. rewrite (imap_mk_from (fun i h => (N.of_nat n + 1 + N.of_nat i, h))).
  set (c1 := mkCache _ _ _ _ _ _ _ _). set (dr := mk_from _ _). set (c2 := foldl _ _ _).
  destruct (fold_drop_frame dr c1) as (A1 & A2 & A3 & A4 & A5 & A6). fold c2 in A1, A2, A3, A4, A5, A6.
  cbn in A1, A2, A3, A4, A5, A6.
  assert (map (cb_hash H) dr = map H (drop n tl)) as Edr by apply map_hash_mk.
  assert (NoDup (map (cb_hash H) dr)) as Hnd by (rewrite Edr; eapply INV_take_nodup; eauto).
  assert (forall k, c_index c2 !! k =
    if decide (k ∈ map H (drop n tl)) then None else c_index c !! k) as Hidx.
  { intros k. unfold c2. by rewrite fold_drop_index, Edr. }
  assert (forall k hd, c_orphans c2 !! k = Some hd <->
       c_orphans c !! k = Some hd \/ (hd ∈ drop n tl /\ H hd = k)) as Horp.
  { intros k hd. unfold c2. rewrite fold_drop_orphans by done. rewrite Edr. cbn. split.
    - intros [(b & B1 & B2 & B3)|[B1 B2]]; [|by left]. right. subst. split; [|done].
      by eapply mk_from_elem.
    - intros [B|[B1 B2]].
      + right. split; [|done]. intros Hin. apply elem_of_list_fmap in Hin as (x & -> & Hx).
        apply (i_disj I) in B. assert (contains c (H x) = true) as Hc.
        { apply (inv_contains I). exists x. split; [|done]. right. rewrite <- (take_drop n tl). set_solver. }
        unfold contains in Hc. rewrite B in Hc. apply bool_decide_eq_true in Hc as [? ?]. done.
      + left. apply elem_of_list_lookup in B1 as [i Hi]. exists (mkCB (1 + N.of_nat n + N.of_nat i) hd).
        split; [|done]. apply elem_of_list_lookup. exists i. unfold dr. by rewrite mk_from_lookup, Hi. }
  assert (forall tls, INV (with_store c2 tls) (take n tl)) as I2.
  { intros tls. constructor; cbn.
    - rewrite A1. apply I.
    - rewrite A2. done.
    - pose proof (i_linked I) as Hl. rewrite <- (take_drop n tl) in Hl. by apply linked_app in Hl as [? _].
    - apply Forall_take, I.
    - intros k h. rewrite Hidx. destruct (decide _) as [Hd|Hd].
      + split; [done|]. intros (hd & Hl & Hk). exfalso.
        pose proof (inv_nodup I) as Hnod. rewrite <- (take_drop n tl) in Hnod.
        rewrite app_comm_cons, map_app in Hnod. apply NoDup_app in Hnod as (_ & Hdis & _).
        apply (Hdis k); [|done]. subst. apply elem_of_list_fmap. exists hd. split; [done|].
        by eapply elem_of_list_lookup_2.
      + rewrite (i_index I). split; intros (hd & Hl & Hk); exists hd; split; auto.
        * destruct (decide (N.to_nat h < S n)%nat).
          -- rewrite <- (take_drop n tl), app_comm_cons, lookup_app_l in Hl; [done|].
             cbn. rewrite take_length. lia.
          -- exfalso. apply Hd. apply elem_of_list_fmap. exists hd. split; [done|].
             apply elem_of_list_lookup. exists (N.to_nat h - S n)%nat. rewrite lookup_drop.
             rewrite <- Hl. replace (N.to_nat h) with (S (n + (N.to_nat h - S n))) at 2 by lia. reflexivity.
        * rewrite <- (take_drop n tl), app_comm_cons. by apply lookup_app_l_Some.
    - intros k hd Hk. apply Horp in Hk as [Hk|[Hk1 Hk2]]; [by apply (i_orph I)|].
      split; [done|]. pose proof (i_rk I) as Hr. rewrite <- (take_drop n tl) in Hr.
      apply Forall_app in Hr as [_ Hr]. rewrite Forall_forall in Hr. by apply Hr.
    - intros k hd Hk. rewrite Hidx. destruct (decide _) as [Hd|Hd]; [done|].
      apply Horp in Hk as [Hk|[Hk1 Hk2]]; [by apply (i_disj I) in Hk|].
      exfalso. apply Hd. apply elem_of_list_fmap. eauto.
    - rewrite A6. cbn. unfold dr. rewrite mk_from_headers, (i_work I). cbn.
      rewrite <- (take_drop n tl) at 1. rewrite sum_work_app. lia.
    - rewrite A5. apply I. }
  destruct ok.
  - eexists. split; [reflexivity|]. split; [apply I2|]. cbn. split; [by split|]. by split.
  - eexists. split; [reflexivity|]. split.
    { specialize (I2 (s_tail (c_store c2))). replace (with_store c2 _) with c2 in I2; [done|].
      unfold with_store. destruct c2 as [? ? ? ? ? ? ? []]; reflexivity. }
    split; [by split|]. split; [by rewrite A5|done].
Qed.

(** * Extension *)

Lemma extend_spec c tl hd h : INV c tl -> h_prev hd = last_hash (H g) tl -> rk hd ->
  h = lenN tl + 1 ->
  exists c', extend_chain H c h (H hd) hd = Val c' /\
    INV c' (tl ++ [hd]) /\ same_cfg c c' /\ c_store c' = c_store c /\
    (forall k x, c_orphans c' !! k = Some x <-> c_orphans c !! k = Some x /\ k <> H hd).
Proof.
  intros I Hp Hr Hh. unfold extend_chain, assertM. rewrite (inv_tip_hash I), Hp, N.eqb_refl.
  eexists. split; [reflexivity|].
  assert (contains c (H hd) = false) as Hc.
  { apply not_true_iff_false. intros Hc. apply (inv_contains I) in Hc as (x & Hx & E).
    unfold BlockProofs.rk in Hr. rewrite Hp in Hr.
    apply elem_of_cons in Hx as [->|Hx].
    - pose proof (linked_rank_last H rank _ _ (i_linked I) (i_rk I)). rewrite E in *. lia.
    - pose proof (linked_rank_elem H rank _ _ _ (i_linked I) (i_rk I) Hx). rewrite E in *. lia. }
  assert (c_index c !! H hd = None) as Hi.
  { unfold contains in Hc. apply bool_decide_eq_false in Hc. by apply eq_None_not_Some. }
  split; [|split; [by split|split; [done|]]].
  2:{ intros k x. cbn. rewrite lookup_delete_Some. split; intros [? ?]; split; auto. }
  constructor; cbn.
  - apply I.
  - rewrite (i_tail I), mk_from_app. cbn. do 3 f_equal. lia.
  - apply linked_app. split; [apply I|]. by split.
  - apply Forall_app. split; [apply I|]. by constructor.
  - intros k h'. destruct (decide (k = H hd)) as [->|Hk].
    + rewrite lookup_insert. split.
      * intros [= <-]. exists hd. split; [|done]. subst h.
        replace (N.to_nat (lenN tl + 1)) with (S (length tl)) by (unfold lenN; lia).
        change ((tl ++ [hd]) !! length tl = Some hd). by apply list_lookup_middle.
      * intros (x & Hl & E). f_equal. rewrite app_comm_cons in Hl.
        apply lookup_app_Some in Hl as [Hl|[Hlen Hl]].
        -- exfalso. assert (c_index c !! H hd = Some h') by (apply (i_index I); eauto). congruence.
        -- apply list_lookup_singleton_Some in Hl as [Hl _]. cbn in Hlen, Hl. unfold lenN in *. lia.
    + rewrite lookup_insert_ne by done. rewrite (i_index I). split; intros (x & Hl & E); exists x; split; auto.
      * rewrite app_comm_cons. by apply lookup_app_l_Some.
      * rewrite app_comm_cons in Hl. apply lookup_app_Some in Hl as [Hl|[Hlen Hl]]; [done|].
        apply list_lookup_singleton_Some in Hl as [_ <-]. congruence.
  - intros k x Hx. apply lookup_delete_Some in Hx as [_ Hx]. by apply (i_orph I).
  - intros k x Hx. apply lookup_delete_Some in Hx as [Hne Hx]. rewrite lookup_insert_ne by done.
    by apply (i_disj I) in Hx.
  - rewrite (i_work I). cbn. rewrite sum_work_app. cbn. lia.
  - apply I.
Qed.

Lemma extend_all_spec c tl hds h : INV c tl -> linked_from (last_hash (H g) tl) hds ->
  Forall rk hds -> h = lenN tl + 1 ->
  exists c', extend_all H c h hds = Val c' /\
    INV c' (tl ++ hds) /\ same_cfg c c' /\ c_store c' = c_store c /\
    (forall k x, c_orphans c' !! k = Some x <-> c_orphans c !! k = Some x /\ k ∉ map H hds).
Proof.
  revert c tl h. induction hds as [|hd hds IH]; intros c tl h I Hl Hr Hh; cbn [extend_all].
  - exists c. split; [done|]. rewrite app_nil_r. split; [done|]. split; [by split|]. split; [done|].
    intros k x. cbn. set_solver.
  - destruct Hl as [Hp Hl]. inversion Hr as [|?? Hr1 Hr2]; subst.
    destruct (extend_spec c tl hd (lenN tl + 1) I Hp Hr1 eq_refl) as (c1 & E & I1 & S1 & St1 & O1).
    rewrite E. cbn [mbind_M].
    destruct (IH c1 (tl ++ [hd]) (lenN tl + 1 + 1) I1) as (c2 & E2 & I2 & S2 & St2 & O2).
    { by rewrite last_hash_app. } { done. } { unfold lenN. rewrite app_length. cbn. lia. }
    exists c2. split; [done|]. rewrite <- app_assoc in I2. split; [done|].
    split; [by eapply same_cfg_trans|]. split; [congruence|].
    intros k x. rewrite O2, O1. cbn. set_solver.
Qed.

(** * Switching *)

Lemma is_branch_fork_le c tl cd : is_branch c tl cd ->
  (N.to_nat (cd_fork_height cd) <= length tl)%nat.
Proof. intros (A & _). apply lookup_lt_Some in A. cbn in A. lia. Qed.

Lemma take_last_hash tl n x : (g :: tl) !! n = Some x -> last_hash (H g) (take n tl) = H x.
Proof.
  intros E. destruct n as [|n]; [by injection E as ->|]. cbn in E.
  rewrite (take_S_r _ _ _ E), last_hash_app. reflexivity.
Qed.

Lemma opath_rk c tl base p tip : INV c tl -> opath H (c_orphans c) base p tip -> Forall rk p.
Proof.
  intros I (_ & _ & Hf). eapply Forall_impl; [exact Hf|]. cbn. intros h Hh.
  by apply (i_orph I) in Hh as [_ ?].
Qed.

(** Active chain above genesis after switching to [cd]. *)
Definition switched (tl : list header) (cd : candidate) : list header :=
  take (N.to_nat (cd_fork_height cd)) tl ++ cd_headers cd.

Definition store_after (ch : choice) (st tl : list header) (cd : candidate) : list header :=
  let n := N.to_nat (cd_fork_height cd) in
  if ch_rollback_ok ch then
    take n st ++ match ch_put ch with None => cd_headers cd | Some k => take k (cd_headers cd) end
  else st.

Lemma with_store_inv c tl st : INV c tl -> INV (with_store c st) tl.
Proof. intros []. constructor; cbn; auto. Qed.

(** Headers that are stale or active. *)
Definition known (c : cache) (tl : list header) (hd : header) : Prop :=
  c_orphans c !! H hd = Some hd \/ hd ∈ g :: tl.

Lemma switch_spec c tl cd ch : INV c tl -> is_branch c tl cd ->
  exists c' r, switch_to_fork H c cd ch = Val (c', r) /\ same_cfg c c' /\
    s_tail (c_store c') = store_after ch (s_tail (c_store c)) tl cd /\
    (r = if ch_rollback_ok ch then
           match ch_put ch with
           | None => Ok (stale_list (N.to_nat (cd_fork_height cd)) tl)
           | Some _ => Err EStore
           end
         else Err EStore) /\
    INV c' (if ch_rollback_ok ch then switched tl cd
            else take (N.to_nat (cd_fork_height cd)) tl) /\
    (forall hd, known c' (if ch_rollback_ok ch then switched tl cd
            else take (N.to_nat (cd_fork_height cd)) tl) hd <-> known c tl hd).
Proof.
  intros I B. pose proof (is_branch_fork_le _ _ _ B) as Hle.
  unfold switch_to_fork, store_after.
  set (n := N.to_nat (cd_fork_height cd)) in *.
  replace (cd_fork_height cd) with (N.of_nat n) by lia.
  destruct (rollback_spec c tl n (ch_rollback_ok ch) I Hle) as (c1 & E & I1 & S1 & St1 & O1).
  rewrite E. cbn [mbind_M].
  assert (forall hd, known c1 (take n tl) hd <-> known c tl hd) as K1.
  { intros hd. unfold known. rewrite O1.
    assert (hd ∈ g :: tl <-> hd ∈ g :: take n tl \/ hd ∈ drop n tl) as ->; [|set_solver].
    rewrite <- (take_drop n tl) at 1. set_solver. }
  destruct (ch_rollback_ok ch).
  - destruct B as (B1 & B2 & B3).
    destruct (extend_all_spec c1 (take n tl) (cd_headers cd) (N.of_nat n + 1)) as (c2 & E2 & I2 & S2 & St2 & O2); auto.
    { rewrite (take_last_hash tl n _ B1). apply B3. }
    { exact (opath_rk c tl _ _ _ I B3). }
    { unfold lenN. rewrite take_length. lia. }
    rewrite E2. cbn [mbind_M].
    assert (forall hd, known c2 (take n tl ++ cd_headers cd) hd <-> known c tl hd) as K2.
    { intros hd. rewrite <- K1. unfold known. rewrite O2. split.
      - intros [[? _]|Hin]; [by left|]. rewrite app_comm_cons in Hin.
        apply elem_of_app in Hin as [Hin|Hin]; [by right|]. left. apply O1. left.
        destruct B3 as (_ & _ & Hf). rewrite Forall_forall in Hf. by apply Hf.
      - intros [Hk|Hin].
        + destruct (decide (H hd ∈ map H (cd_headers cd))) as [Hin|Hin].
          * right. apply elem_of_list_fmap in Hin as (x & Ex & Hx).
            destruct B3 as (_ & _ & Hf). rewrite Forall_forall in Hf. pose proof (Hf x Hx) as Hox.
            assert (c_orphans c1 !! H x = Some x) as Ho1 by (apply O1; by left).
            rewrite Ex in Hk. assert (hd = x) by congruence. subst. set_solver.
          * left. done.
        + right. rewrite app_comm_cons. apply elem_of_app. by left. }
    unfold store_put. destruct (ch_put ch) as [k|]; cbn.
    + do 2 eexists. split; [reflexivity|]. split; [eapply same_cfg_trans; eauto|].
      split; [by rewrite St2, St1|]. split; [done|]. split; [by apply with_store_inv|].
      intros hd. rewrite <- K2. reflexivity.
    + do 2 eexists. split; [reflexivity|]. split; [eapply same_cfg_trans; eauto|].
      split; [by rewrite St2, St1|]. split; [done|]. split; [by apply with_store_inv|].
      intros hd. rewrite <- K2. reflexivity.
  - do 2 eexists. split; [reflexivity|]. split; [done|]. split; [done|]. split; [done|]. by split.
Qed.

End Ops.
