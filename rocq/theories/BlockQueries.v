(** Proofs about the read-only queries of the header cache. *)
From Verif Require Import Base SortProofs PowModel BlockModel BlockSpec BlockProofs BlockOps.
From Coq Require Import Sorted.
Open Scope N_scope.

(** * Locator heights *)

(** Distance of the [i]-th locator from the first one. *)
Definition loc_offset (i : nat) : N :=
  if (i <=? 8)%nat then N.of_nat i else 6 + 2 ^ N.of_nat (i - 7).
Definition loc_step (i : nat) : N := if (i <=? 8)%nat then 1 else 2 ^ N.of_nat (i - 8).

Lemma loc_step_next i :
  loc_step (S i) = if (8 <=? i)%nat then loc_step i * 2 else loc_step i.
Proof.
  unfold loc_step. destruct (S i <=? 8)%nat eqn:E1, (i <=? 8)%nat eqn:E2, (8 <=? i)%nat eqn:E3; try lia.
  - assert (i = 8%nat) as -> by lia. reflexivity.
  - replace (S i - 8)%nat with (S (i - 8)) by lia. rewrite Nat2N.inj_succ, N.pow_succ_r'. lia.
Qed.

Lemma loc_offset_next i : loc_offset (S i) = loc_offset i + loc_step (S i).
Proof.
  unfold loc_offset, loc_step. destruct (S i <=? 8)%nat eqn:E1, (i <=? 8)%nat eqn:E2; try lia.
  - assert (i = 8%nat) as -> by lia. reflexivity.
  - replace (S i - 7)%nat with (S (i - 7)) by lia. replace (S i - 8)%nat with (i - 7)%nat by lia.
    rewrite Nat2N.inj_succ, N.pow_succ_r'. lia.
Qed.

Lemma loc_step_pos i : 0 < loc_step i.
Proof. unfold loc_step. destruct (_ <=? _)%nat; [lia|]. apply N.neq_0_lt_0, N.pow_nonzero. lia. Qed.

Lemma loc_offset_mono i j : (i < j)%nat -> loc_offset i < loc_offset j.
Proof.
  induction 1 as [|j Hj IH]; rewrite loc_offset_next.
  - pose proof (loc_step_pos (S i)). lia.
  - pose proof (loc_step_pos (S j)). lia.
Qed.

Lemma loc_step_le i : (i <= 8)%nat \/ loc_step i + 6 <= loc_offset (i - 1).
Proof.
  destruct (decide (i <= 8)%nat) as [|Hi]; [by left|]. right. unfold loc_step, loc_offset.
  destruct (i <=? 8)%nat eqn:E1; [lia|]. destruct (i - 1 <=? 8)%nat eqn:E2.
  - assert (i = 9%nat) as -> by lia. cbn. lia.
  - replace (i - 1 - 7)%nat with (i - 8)%nat by lia. lia.
Qed.

Lemma locators_loop_spec from m : from < 2 ^ 64 -> from <= loc_offset m ->
  forall fuel count, (m < fuel + count)%nat -> (forall i, (i < count)%nat -> loc_offset i < from) ->
  exists n, ((count <= n <= m)%nat \/ n = count /\ from <= loc_offset count) /\
    (forall i, (i < n)%nat -> loc_offset i < from) /\ from <= loc_offset n /\
    locators_loop fuel (from - loc_offset count) (loc_step count) count =
      Val (map (fun i => from - loc_offset i) (seq count (n - count)) ++ [0]).
Proof.
  intros H64 Hm. induction fuel as [|fuel IH]; intros count Hf Hlt.
  - exfalso. assert (m < count)%nat as Hc by lia. specialize (Hlt m Hc). lia.
  - cbn [locators_loop]. destruct (from - loc_offset count =? 0) eqn:E.
    { exists count. split; [right; split; [done|lia]|]. split; [done|]. split; [lia|].
      by rewrite Nat.sub_diag. }
    assert (loc_offset count < from) as Hc by lia.
    assert (count < m)%nat as Hcm.
    { destruct (decide (count < m)%nat); [done|]. destruct (decide (count = m)) as [->|]; [lia|].
      assert (m < count)%nat as Hx by lia. apply loc_offset_mono in Hx. lia. }
    rewrite <- loc_step_next.
    destruct (2 ^ 64 <=? loc_step (S count)) eqn:Eo.
    { exfalso. destruct (loc_step_le (S count)) as [Hs|Hs].
      - unfold loc_step in Eo. destruct (S count <=? 8)%nat eqn:Ex; [lia|lia].
      - replace (S count - 1)%nat with count in Hs by lia. lia. }
    replace (from - loc_offset count - loc_step (S count)) with (from - loc_offset (S count))
      by (rewrite loc_offset_next; lia).
    destruct (IH (S count)) as (n & Hn & Hn1 & Hn2 & Hn3); [lia| |].
    { intros i Hi. destruct (decide (i = count)) as [->|]; [done|]. apply Hlt. lia. }
    rewrite Hn3. cbn [mbind_M]. exists n.
    assert (count < n)%nat as Hcn.
    { destruct Hn as [[? _]|[-> _]]; lia. }
    split; [left; destruct Hn as [[? ?]|[-> ?]]; lia|]. split; [done|]. split; [done|].
    replace (n - count)%nat with (S (n - S count)) by lia. done.
Qed.

Lemma size_nat_eq p : N.size (N.pos p) = N.of_nat (N.size_nat (N.pos p)).
Proof.
  induction p as [p IH|p IH|]; [| |done];
    change (N.succ (N.size (N.pos p)) = N.of_nat (S (N.size_nat (N.pos p)))); lia.
Qed.

Lemma offset_size from : from <= loc_offset (N.size_nat from + 8).
Proof.
  unfold loc_offset. destruct from as [|p]; [cbn; lia|].
  pose proof (N.size_gt (N.pos p)) as Hs.
  destruct (_ <=? 8)%nat eqn:E.
  { assert (N.size_nat (N.pos p) = 0)%nat as E0 by lia. destruct p; cbn in E0; lia. }
  pose proof (size_nat_eq p) as Esz.
  rewrite Esz in Hs.
  assert (2 ^ N.of_nat (N.size_nat (N.pos p)) <= 2 ^ N.of_nat (N.size_nat (N.pos p) + 8 - 7)).
  { apply N.pow_le_mono_r; lia. }
  lia.
Qed.

Lemma locators_indexes_spec from : from < 2 ^ 64 ->
  exists n, (n <= N.size_nat from + 8)%nat /\
    (forall i, (i < n)%nat -> loc_offset i < from) /\ from <= loc_offset n /\
    locators_indexes from = Val (map (fun i => from - loc_offset i) (seq 0 n) ++ [0]).
Proof.
  intros H64. unfold locators_indexes.
  destruct (locators_loop_spec from (N.size_nat from + 8) H64 (offset_size from)
    (N.size_nat from + 10) 0) as (n & Hn & H1 & H2 & H3); [lia|intros; lia|].
  exists n. replace (from - loc_offset 0) with from in H3 by (cbn; lia).
  change (loc_step 0) with 1 in H3. rewrite Nat.sub_0_r in H3.
  split; [destruct Hn as [?|[-> _]]; lia|]. done.
Qed.

Lemma size_nat_64 from : from < 2 ^ 64 -> (N.size_nat from <= 64)%nat.
Proof.
  intros Hf. destruct from as [|p]; [cbn; lia|].
  pose proof (size_nat_eq p) as Esz.
  assert (N.size (N.pos p) <= 64); [|lia].
  rewrite N.size_log2 by lia. apply N.log2_lt_pow2 in Hf; lia.
Qed.

Lemma map_seq_lookup {A} (f : nat -> A) n i : (i < n)%nat -> map f (seq 0 n) !! i = Some (f i).
Proof.
  intros Hi. change (map f (seq 0 n)) with (f <$> seq 0 n). rewrite list_lookup_fmap.
  rewrite lookup_seq_lt by done. done.
Qed.

Theorem locators_correct from : from < 2 ^ 64 ->
  exists l, locators_indexes from = Val l /\
    l !! 0%nat = Some from /\ List.last l 0 = 0 /\
    (forall i j a b, (i < j)%nat -> l !! i = Some a -> l !! j = Some b -> b < a) /\
    (forall i, (i <= 8)%nat -> N.of_nat i <= from -> l !! i = Some (from - N.of_nat i)) /\
    (forall i a, (8 <= i)%nat -> l !! i = Some a -> a <> 0 -> a = from - (6 + 2 ^ N.of_nat (i - 7))) /\
    (length l <= 9 + N.size_nat from)%nat /\ (length l <= 73)%nat.
Proof.
  intros H64. destruct (locators_indexes_spec from H64) as (n & Hn & H1 & H2 & ->).
  set (l := map _ _ ++ [0]). exists l. split; [done|].
  assert (length l = S n) as Hlen by (unfold l; rewrite app_length, map_length, seq_length; cbn; lia).
  assert (forall i, (i < n)%nat -> l !! i = Some (from - loc_offset i)) as Hlt.
  { intros i Hi. unfold l. rewrite lookup_app_l by (by rewrite map_length, seq_length). by apply (map_seq_lookup (fun i => from - loc_offset i)). }
  assert (l !! n = Some 0) as Hend.
  { unfold l. rewrite lookup_app_r by (by rewrite map_length, seq_length).
    by rewrite map_length, seq_length, Nat.sub_diag. }
  assert (forall i, (i <= n)%nat -> l !! i = Some (from - loc_offset i)) as Hle.
  { intros i Hi. destruct (decide (i = n)) as [->|]; [|apply Hlt; lia]. rewrite Hend. f_equal. lia. }
  assert (forall i a, l !! i = Some a -> (i <= n)%nat /\ a = from - loc_offset i) as Hinv.
  { intros i a E. pose proof (lookup_lt_Some _ _ _ E). split; [lia|]. rewrite Hle in E by lia. congruence. }
  assert (forall i, (i <= 8)%nat -> loc_offset i = N.of_nat i) as Hoff.
  { intros i Hi. unfold loc_offset. by destruct (i <=? 8)%nat eqn:E; [|lia]. }
  split; [rewrite Hle by lia; cbn; f_equal; lia|].
  split; [unfold l; by rewrite List.last_last|].
  split.
  { intros i j a b Hij Ha Hb. apply Hinv in Ha as [Hi ->]. apply Hinv in Hb as [Hj ->].
    pose proof (loc_offset_mono i j Hij). assert (loc_offset i < from) by (apply H1; lia). lia. }
  split.
  { intros i Hi Hif. rewrite <- Hoff by done. apply Hle.
    destruct (decide (i <= n)%nat); [done|]. assert (n < i)%nat as Hx by lia. apply loc_offset_mono in Hx.
    rewrite (Hoff i) in Hx by done. lia. }
  split.
  { intros i a Hi E Ha. apply Hinv in E as [_ ->]. f_equal. unfold loc_offset.
    destruct (i <=? 8)%nat eqn:Ei; [|done]. assert (i = 8%nat) as -> by lia. reflexivity. }
  split; [lia|]. pose proof (size_nat_64 from H64). lia.
Qed.

(** * Queries on the active chain *)

Section Queries.
Context (H : header -> N) (rank : N -> nat) (g : header).
Notation INV := (INV H rank g).
Notation linked_from := (linked_from H).
Notation last_hash := (last_hash H).

(** Locator heights that are not below [cp], as long as none is. *)
Fixpoint above (cp : N) (l : list N) : list N :=
  match l with [] => [] | h :: t => if h <? cp then [] else h :: above cp t end.

Lemma locator_loop_spec c tl cp idx : INV c tl -> Forall (fun h => h <= lenN tl) idx ->
  Forall2 (fun h k => exists x, (g :: tl) !! N.to_nat h = Some x /\ H x = k)
    (above cp idx) (locator_loop H c cp idx).
Proof.
  intros I. induction 1 as [|h idx Hh Hf IH]; cbn [above locator_loop]; [constructor|].
  destruct (h <? cp); [constructor|]. rewrite (inv_chain I), mk_from_lookup.
  destruct ((g :: tl) !! N.to_nat h) as [x|] eqn:E; cbn [fmap option_fmap option_map].
  - constructor; [|done]. exists x. done.
  - exfalso. apply lookup_ge_None in E. unfold lenN in Hh. cbn in E. lia.
Qed.

Lemma above_sub cp l : above cp l `prefix_of` l /\ Forall (fun h => cp <= h) (above cp l).
Proof.
  induction l as [|h l [IH1 IH2]]; cbn; [split; [done|constructor]|]. destruct (h <? cp) eqn:E.
  - split; [apply prefix_nil|constructor].
  - split; [by apply prefix_cons|]. constructor; [lia|done].
Qed.

(** Nothing that could have been listed is left out. *)
Lemma above_complete cp l h : StronglySorted (fun a b => b < a) l -> h ∈ l -> cp <= h -> h ∈ above cp l.
Proof.
  induction 1 as [|x l Hs IH Hf]; intros Hin Hcp; [done|]. cbn.
  destruct (x <? cp) eqn:E.
  - exfalso. apply elem_of_cons in Hin as [->|Hin]; [lia|]. rewrite Forall_forall in Hf.
    specialize (Hf h Hin). lia.
  - apply elem_of_cons in Hin as [->|Hin]; [by left|]. right. auto.
Qed.

Lemma lookup_sorted (l : list N) :
  (forall i j a b, (i < j)%nat -> l !! i = Some a -> l !! j = Some b -> b < a) ->
  StronglySorted (fun a b => b < a) l.
Proof.
  induction l as [|x l IH]; intros Hl; [constructor|]. constructor.
  - apply IH. intros i j a b Hij Ha Hb. apply (Hl (S i) (S j)); auto. lia.
  - apply Forall_forall. intros y Hy. apply elem_of_list_lookup in Hy as [j Hj].
    apply (Hl 0%nat (S j)); auto. lia.
Qed.

Lemma locator_hashes_spec c tl from : INV c tl -> from <= lenN tl -> from < 2 ^ 64 ->
  exists idx hs, locators_indexes from = Val idx /\ locator_hashes H c from = Val hs /\
    Forall2 (fun h k => exists x, (g :: tl) !! N.to_nat h = Some x /\ H x = k)
      (above (last_checkpoint c) idx) hs.
Proof.
  intros I Hf H64. destruct (locators_correct from H64) as (l & E & L1 & L2 & L3 & _).
  exists l. unfold locator_hashes, assertM. rewrite (inv_height I).
  destruct (from <=? lenN tl) eqn:Ef; [|lia]. rewrite E. cbn [mbind_M].
  eexists. split; [done|]. split; [reflexivity|]. apply locator_loop_spec; [done|].
  apply Forall_forall. intros h Hh. apply elem_of_list_lookup in Hh as [i Hi].
  destruct i as [|i]; [rewrite L1 in Hi; injection Hi as <-; done|].
  assert (h < from) by (apply (L3 0%nat (S i)); auto; lia). lia.
Qed.

(** * Headers served to a peer *)

Lemma locate_spec c tl locs stop max : INV c tl -> locs <> [] ->
  exists start, locate_headers c locs stop max = Val
      (let last := match get_block c stop with Some (h, _) => h | None => lenN tl end in
       take (N.to_nat (N.min max (last + 1 - (start + 1)))) (drop (S (N.to_nat start)) (g :: tl))) /\
    ((exists l1 k l2 x, locs = l1 ++ k :: l2 /\ Forall (fun k => contains c k = false) l1 /\
        (g :: tl) !! N.to_nat start = Some x /\ H x = k) \/
     (start = 0 /\ Forall (fun k => contains c k = false) locs)).
Proof.
  intros I Hne. unfold locate_headers. destruct locs as [|k0 ks] eqn:El; [done|]. rewrite <- El. clear Hne.
  assert (exists start, match List.find (contains c) locs with
       | Some h => match get_block c h with Some (height, _) => Val height | None => Panic (PAssert 781) end
       | None => Val 0 end = Val start /\
    ((exists l1 k l2 x, locs = l1 ++ k :: l2 /\ Forall (fun k => contains c k = false) l1 /\
        (g :: tl) !! N.to_nat start = Some x /\ H x = k) \/
     (start = 0 /\ Forall (fun k => contains c k = false) locs))) as (start & Es & Hs).
  { clear El. induction locs as [|k locs IH]; cbn.
    - exists 0. split; [done|]. right. split; [done|constructor].
    - destruct (contains c k) eqn:Ec.
      + apply (inv_contains I) in Ec as Ec'. destruct Ec' as (x & Hx & Ek).
        apply elem_of_list_lookup in Hx as [i Hi].
        assert (get_block c k = Some (N.of_nat i, x)) as Eg.
        { apply (inv_get_block I). by rewrite Nat2N.id. }
        rewrite Eg. exists (N.of_nat i). split; [done|]. left. exists [], k, locs, x.
        split; [done|]. split; [constructor|]. by rewrite Nat2N.id.
      + destruct IH as (start & Es & [(l1 & k' & l2 & x & -> & F & Hx)|[-> F]]).
        * exists start. split; [done|]. left. exists (k :: l1), k', l2, x. split; [done|]. split; [by constructor|done].
        * exists 0. split; [done|]. right. split; [done|]. by constructor. }
  exists start. split; [|done]. rewrite Es. cbn [mbind_M].
  rewrite (inv_height I). set (last := match get_block c stop with Some (h, _) => h | None => lenN tl end).
  destruct (_ <? _) eqn:E1.
  { replace (N.to_nat (N.min max (last + 1 - (start + 1)))) with 0%nat by lia. done. }
  unfold range_blocks, assertM. destruct (_ <=? _) eqn:E2; [|lia]. cbn [mbind_M].
  f_equal. change (map cb_header) with (fmap (M:=list) cb_header). rewrite fmap_take, fmap_drop.
  rewrite (inv_chain I). change (cb_header <$> mk_from 0 (g :: tl)) with (map cb_header (mk_from 0 (g :: tl))).
  rewrite mk_from_headers.
  replace (N.to_nat (start + 1)) with (S (N.to_nat start)) by lia. f_equal. lia.
Qed.

Lemma find_branch_spec c tl k : INV c tl ->
  exists r, find_branch c k = Val r /\
    match r with
    | Some (h, x :: path) =>
        (g :: tl) !! N.to_nat h = Some x /\ linked_from (H x) path /\ last_hash (H x) path = k /\
        Forall (fun y => c_orphans c !! H y = Some y) path
    | Some (_, []) => False
    | None => contains c k = false /\
        forall h x path, (g :: tl) !! N.to_nat h = Some x -> linked_from (H x) path ->
          Forall (fun y => c_orphans c !! H y = Some y) path -> last_hash (H x) path <> k
    end.
Proof.
  intros I. unfold find_branch. destruct (get_block c k) as [[h hd]|] eqn:Eg.
  { apply (inv_get_block I) in Eg as [E1 E2]. eexists. split; [reflexivity|]. cbn. done. }
  apply (inv_get_block_none I) in Eg.
  assert (contains c k = false) as Hc.
  { unfold contains. rewrite Eg. apply bool_decide_eq_false. by intros []. }
  assert (forall x h, (g :: tl) !! N.to_nat h = Some x -> H x <> k) as Hnk.
  { intros x h E Ek. assert (c_index c !! k = Some h) by (apply (i_index I); eauto). congruence. }
  destruct (fork_spec H rank g c tl k I Eg) as [F1 F2].
  destruct (c_orphans c !! k) as [o|] eqn:Eo.
  - destruct F1 as (r & Er & Hr); [done|]. rewrite Er. cbn [mbind_M]. destruct r as [cd|].
    + eexists. split; [reflexivity|]. destruct Hr as [(B1 & B2 & (B3 & B4 & B5)) <-]. done.
    + eexists. split; [reflexivity|]. split; [done|]. intros h x path Hx L F E.
      destruct path as [|y path]; [by apply (Hnk x h)|].
      apply (Hr (mkCand k (y :: path) h x)); [|done]. split; [done|]. split; [done|]. split; [done|]. done.
  - rewrite F2 by done. cbn [mbind_M]. eexists. split; [reflexivity|]. split; [done|].
    intros h x path Hx L F E. destruct (last_hash_in H (H x) path) as [[Hl ->]|(y & Hy & Ey)].
    + cbn in E. by apply (Hnk x h).
    + rewrite Forall_forall in F. specialize (F y Hy). rewrite Ey, E in F. congruence.
Qed.

(** * Median time past *)

Lemma list_filter_iff_all (P : N -> Prop) `{forall x, Decision (P x)} l : Forall P l -> filter P l = l.
Proof. induction 1; [done|]. rewrite filter_cons_True by done. by f_equal. Qed.

Definition count_le (t : N) (ts : list N) : nat := length (filter (fun x => x <= t) ts).
Definition count_ge (t : N) (ts : list N) : nat := length (filter (fun x => t <= x) ts).

Lemma median_counts ts t : sortN ts !! (length (sortN ts) / 2)%nat = Some t ->
  t ∈ ts /\ (length ts / 2 < count_le t ts)%nat /\ (length ts - length ts / 2 <= count_ge t ts)%nat.
Proof.
  intros E. rewrite sortN_length in E. set (m := (length ts / 2)%nat) in *.
  assert (count_le t ts = count_le t (sortN ts)) as -> by (unfold count_le; by rewrite sortN_perm).
  assert (count_ge t ts = count_ge t (sortN ts)) as -> by (unfold count_ge; by rewrite sortN_perm).
  split; [rewrite <- (sortN_perm ts); by eapply elem_of_list_lookup_2|].
  pose proof (sortN_strongly ts) as Hs. pose proof (sortN_length ts) as Hl.
  pose proof (lookup_lt_Some _ _ _ E) as Hm. rewrite Hl in Hm.
  assert (Forall (fun x => x <= t) (take (S m) (sortN ts))) as F1.
  { apply Forall_lookup. intros i x Hx. apply lookup_take_Some in Hx as [Hx Hi].
    destruct (decide (i = m)) as [->|]; [assert (x = t) by congruence; lia|].
    apply (strongly_lookup _ _ i m x t Hs); auto. lia. }
  assert (Forall (fun x => t <= x) (drop m (sortN ts))) as F2.
  { apply Forall_lookup. intros i x Hx. rewrite lookup_drop in Hx.
    destruct i as [|i]; [rewrite Nat.add_0_r in Hx; assert (x = t) by congruence; lia|].
    apply (strongly_lookup _ _ m (m + S i) t x Hs); auto. lia. }
  unfold count_le, count_ge. split.
  - rewrite <- (take_drop (S m) (sortN ts)), filter_app, app_length.
    rewrite (list_filter_iff_all _ _ F1). rewrite take_length. lia.
  - rewrite <- (take_drop m (sortN ts)), filter_app, app_length.
    rewrite (list_filter_iff_all _ _ F2). rewrite drop_length. lia.
Qed.

Lemma median_spec c tl h : INV c tl -> 1 <= h <= lenN tl + 1 ->
  exists t, median_time_past (c_chain c) h = Val t /\
    let ts := map h_time (take (N.to_nat (N.min h 11)) (drop (N.to_nat (h - 11)) (g :: tl))) in
    length ts = N.to_nat (N.min h 11) /\
    t ∈ ts /\ (length ts / 2 < count_le t ts)%nat /\ (length ts - length ts / 2 <= count_ge t ts)%nat.
Proof.
  intros I Hh. unfold median_time_past, assertM, MEDIAN_TIME_SPAN.
  destruct (negb (h =? 0)) eqn:E0; [|lia].
  unfold range_blocks, assertM. destruct (h - 11 <=? h) eqn:E1; [|lia]. cbn [mbind_M].
  set (ts := map h_time (take (N.to_nat (N.min h 11)) (drop (N.to_nat (h - 11)) (g :: tl)))).
  assert (map (fun b => h_time (cb_header b)) (take (N.to_nat (h - (h - 11))) (drop (N.to_nat (h - 11)) (c_chain c))) = ts) as ->.
  { unfold ts. rewrite (inv_chain I). rewrite <- (mk_from_headers 0 (g :: tl)) at 2.
    change (map ?f) with (fmap (M:=list) f). rewrite <- fmap_drop, <- fmap_take, <- list_fmap_compose.
    replace (h - (h - 11)) with (N.min h 11) by lia. done. }
  assert (length ts = N.to_nat (N.min h 11)) as Hlen.
  { unfold ts. rewrite map_length, take_length, drop_length. cbn. unfold lenN in Hh. lia. }
  rewrite Hlen. replace (N.to_nat (h - (h - 11)) - N.to_nat (N.min h 11))%nat with 0%nat by lia.
  cbn [replicate]. rewrite app_nil_r.
  destruct (sortN ts !! (length (sortN ts) / 2)%nat) as [t|] eqn:Et.
  - exists t. split; [done|]. apply median_counts in Et. rewrite Hlen in Et. done.
  - exfalso. apply lookup_ge_None in Et. rewrite sortN_length, Hlen in Et.
    assert (N.to_nat (N.min h 11) <> 0)%nat by lia.
    pose proof (Nat.div_lt (N.to_nat (N.min h 11)) 2). lia.
Qed.

End Queries.
