(** Proofs about the block header cache: batches of headers. *)
From Verif Require Import Base SortProofs PowModel BlockModel BlockSpec BlockProofs BlockOps BlockImport.
From Coq Require Import Sorting.Sorted.
Open Scope N_scope.

(** * Sorted association lists ([BTreeMap]) *)
Section BT.
Context {K V : Type} `{EqDecision K} (cmp : K -> K -> comparison).
Definition klt (a b : K * V) : Prop := cmp a.1 b.1 = Lt.
Context (cmp_eq : forall a b, cmp a b = Eq <-> a = b)
        (cmp_anti : forall a b, cmp a b = Gt <-> cmp b a = Lt)
        (cmp_trans : forall a b c, cmp a b = Lt -> cmp b c = Lt -> cmp a c = Lt).

Lemma bt_insert_elem k (v : V) l p : p ∈ bt_insert cmp k v l -> p = (k, v) \/ p ∈ l.
Proof.
  induction l as [|[k' v'] l IH]; cbn; intros Hp; [left; set_solver|].
  destruct (cmp k k'); set_solver.
Qed.

Lemma bt_insert_new k (v : V) l : (k, v) ∈ bt_insert cmp k v l.
Proof.
  induction l as [|[k' v'] l IH]; cbn; [set_solver|].
  destruct (cmp k k'); set_solver.
Qed.

Lemma bt_insert_old k (v : V) l p : p ∈ l -> p.1 <> k -> p ∈ bt_insert cmp k v l.
Proof.
  induction l as [|[k' v'] l IH]; cbn; intros Hp Hk; [set_solver|].
  destruct (cmp k k') eqn:E.
  - apply cmp_eq in E. subst. apply elem_of_cons in Hp as [->|Hp]; [done|set_solver].
  - set_solver.
  - set_solver.
Qed.

Lemma bt_insert_sorted k (v : V) l : StronglySorted klt l -> StronglySorted klt (bt_insert cmp k v l).
Proof.
  induction 1 as [|[k' v'] l Hs IH Hf]; cbn; [repeat constructor|].
  destruct (cmp k k') eqn:E.
  - apply cmp_eq in E. subst. by constructor.
  - constructor; [by constructor|]. constructor; [done|].
    eapply Forall_impl; [exact Hf|]. intros [k2 v2] Hlt. unfold klt in *. cbn in *. eauto.
  - constructor; [done|]. apply Forall_forall. intros p Hp.
    apply bt_insert_elem in Hp as [->|Hp].
    + unfold klt. cbn. by apply cmp_anti.
    + rewrite Forall_forall in Hf. by apply Hf.
Qed.

Context {A : Type} (fk : A -> K) (fv : A -> V).
Definition bt_extend (l : list (K * V)) (xs : list A) : list (K * V) :=
  foldl (fun m a => bt_insert cmp (fk a) (fv a) m) l xs.

Lemma bt_extend_sorted xs l : StronglySorted klt l -> StronglySorted klt (bt_extend l xs).
Proof.
  revert l. induction xs as [|a xs IH]; intros l Hs; cbn; [done|]. apply IH. by apply bt_insert_sorted.
Qed.

Lemma bt_extend_elem xs l p : p ∈ bt_extend l xs ->
  p ∈ l \/ exists a, a ∈ xs /\ p = (fk a, fv a).
Proof.
  revert l. induction xs as [|a xs IH]; intros l Hp; cbn in Hp; [by left|].
  apply IH in Hp as [Hp|(b & Hb & ->)].
  - apply bt_insert_elem in Hp as [->|Hp]; [right; exists a; split; [by left|done]|by left].
  - right. exists b. split; [by right|done].
Qed.

Lemma bt_extend_old xs l p : p ∈ l ->
  (forall a, a ∈ xs -> fk a = p.1 -> fv a = p.2) -> p ∈ bt_extend l xs.
Proof.
  revert l. induction xs as [|a xs IH]; intros l Hp Hx; cbn; [done|].
  apply IH; [|intros b Hb; apply Hx; by right].
  destruct (decide (fk a = p.1)) as [E|E].
  - destruct p as [pk pv]. cbn in *. rewrite <- (Hx a (elem_of_list_here _ _) E), <- E. apply bt_insert_new.
  - apply bt_insert_old; auto.
Qed.

Lemma bt_extend_new xs l a : a ∈ xs ->
  (forall b, b ∈ xs -> fk b = fk a -> fv b = fv a) -> (fk a, fv a) ∈ bt_extend l xs.
Proof.
  revert l. induction xs as [|b xs IH]; intros l Ha Hf; [by apply elem_of_nil in Ha|]. cbn.
  apply elem_of_cons in Ha as [->|Ha].
  - apply bt_extend_old; [apply bt_insert_new|]. cbn. intros c Hc. apply Hf. by right.
  - apply IH; [done|]. intros c Hc. apply Hf. by right.
Qed.

Lemma bt_extend_nil l xs : bt_extend l xs = [] -> l = [] /\ xs = [].
Proof.
  intros E. destruct xs as [|a xs]; [done|]. exfalso.
  assert (forall xs l, l <> [] -> bt_extend l xs <> []) as Hne.
  { clear. intros xs. induction xs as [|a xs IH]; intros l Hl; cbn; [done|]. apply IH.
    destruct l as [|[k v] l]; [done|]. cbn. by destruct (cmp _ _). }
  apply (Hne xs (bt_insert cmp (fk a) (fv a) l)); [|done].
  intros Hn. pose proof (bt_insert_new (fk a) (fv a) l) as Hi. rewrite Hn in Hi. by apply elem_of_nil in Hi.
Qed.
End BT.

Lemma Ncmp_eq a b : N.compare a b = Eq <-> a = b.
Proof. apply N.compare_eq_iff. Qed.
Lemma Ncmp_anti a b : N.compare a b = Gt <-> N.compare b a = Lt.
Proof. rewrite N.compare_gt_iff, N.compare_lt_iff. done. Qed.
Lemma Ncmp_trans a b c : N.compare a b = Lt -> N.compare b c = Lt -> N.compare a c = Lt.
Proof. rewrite !N.compare_lt_iff. lia. Qed.

Lemma hh_eq a b : cmp_hh a b = Eq <-> a = b.
Proof.
  destruct a as [a1 a2], b as [b1 b2]. unfold cmp_hh. cbn.
  destruct (N.compare_spec a1 b1); rewrite ?N.compare_eq_iff; split; intros; subst; try congruence; try lia.
  - injection H0. intros. subst. lia.
  - injection H0. intros. subst. lia.
Qed.
Lemma hh_lt a b : cmp_hh a b = Lt <-> a.1 < b.1 \/ a.1 = b.1 /\ a.2 < b.2.
Proof.
  unfold cmp_hh. destruct (N.compare_spec a.1 b.1); rewrite ?N.compare_lt_iff; split; intros; try lia; try done.
Qed.
Lemma hh_gt a b : cmp_hh a b = Gt <-> b.1 < a.1 \/ a.1 = b.1 /\ b.2 < a.2.
Proof.
  unfold cmp_hh. destruct (N.compare_spec a.1 b.1); rewrite ?N.compare_gt_iff; split; intros; try lia; try done.
Qed.
Lemma hh_anti a b : cmp_hh a b = Gt <-> cmp_hh b a = Lt.
Proof. rewrite hh_gt, hh_lt. lia. Qed.
Lemma hh_trans a b c : cmp_hh a b = Lt -> cmp_hh b c = Lt -> cmp_hh a c = Lt.
Proof. rewrite !hh_lt. lia. Qed.

Section Run.
Context (H : header -> N) (rank : N -> nat) (g : header).
Notation linked_from := (linked_from H).
Notation last_hash := (last_hash H).
Notation rk := (rk H rank).
Notation INV := (INV H rank g).
Notation is_branch := (is_branch H g).
Notation branch_valid := (branch_valid H).
Notation known := (known H g).
Notation import_outcome := (import_outcome H g).
Notation extend_outcome := (extend_outcome H g).

(** * Known headers are determined by their hash and have one depth *)

Lemma known_fun c tl x y : INV c tl -> known c tl x -> known c tl y -> H x = H y -> x = y.
Proof.
  intros I Kx Ky E. unfold BlockOps.known in *.
  assert (forall a b, c_orphans c !! H a = Some a -> b ∈ g :: tl -> H a = H b -> False) as Hd.
  { intros a b Ha Hb Eab. apply (i_disj I) in Ha.
    assert (contains c (H a) = true) as Hc by (apply (inv_contains I); eauto).
    unfold contains in Hc. rewrite Ha in Hc. apply bool_decide_eq_true in Hc as [??]. done. }
  destruct Kx as [Kx|Kx], Ky as [Ky|Ky].
  - rewrite E in Kx. congruence.
  - exfalso. eauto.
  - exfalso. eapply (Hd y x); eauto.
  - apply elem_of_list_lookup in Kx as [i Hi]. apply elem_of_list_lookup in Ky as [j Hj].
    pose proof (nodup_hash_inj H _ _ _ _ _ (inv_nodup I) Hi Hj E). subst. congruence.
Qed.

(** [x] sits at depth [i] above genesis through headers satisfying [Kn]. *)
Definition at_depth (Kn : header -> Prop) (i : N) (x : header) : Prop :=
  exists l, linked_from (H g) l /\ Forall rk l /\ Forall Kn l /\ (g :: l) !! N.to_nat i = Some x.

Lemma at_depth_mono (K1 K2 : header -> Prop) i x : (forall y, K1 y -> K2 y) ->
  at_depth K1 i x -> at_depth K2 i x.
Proof.
  intros Hm (l & A & R & B & C). exists l. split; [done|]. split; [done|]. split; [|done].
  eapply Forall_impl; eauto.
Qed.

Lemma linked_lookup_prev b l i x : linked_from b l -> l !! S i = Some x ->
  exists y, l !! i = Some y /\ h_prev x = H y.
Proof.
  revert b i. induction l as [|h t IH]; intros b i Hl Hx; [done|]. destruct Hl as [Hp Hl].
  cbn in Hx. destruct i as [|i].
  - destruct t as [|h2 t]; [done|]. cbn in Hx. injection Hx as ->. exists h. split; [done|]. apply Hl.
  - destruct (IH _ _ Hl Hx) as (y & Hy & E). eauto.
Qed.

Lemma linked_lookup_gprev l i x : linked_from (H g) l -> (g :: l) !! S i = Some x ->
  exists y, (g :: l) !! i = Some y /\ h_prev x = H y.
Proof.
  intros Hl Hx. cbn in Hx. destruct i as [|i].
  - destruct l as [|h t]; [done|]. cbn in Hx. injection Hx as ->. exists g. split; [done|]. apply Hl.
  - destruct (linked_lookup_prev _ _ _ _ Hl Hx) as (y & Hy & E). eauto.
Qed.

Lemma depth_unique (Kn : header -> Prop) i j x :
  (forall a b, Kn a -> Kn b -> H a = H b -> a = b) -> Kn g ->
  at_depth Kn i x -> at_depth Kn j x -> i = j.
Proof.
  intros Kf Kg (l1 & L1 & R1 & F1 & E1) (l2 & L2 & R2 & F2 & E2).
  assert (forall n m y, (g :: l1) !! n = Some y -> (g :: l2) !! m = Some y -> n = m) as Hg.
  2:{ assert (N.to_nat i = N.to_nat j) by eauto. lia. }
  clear E1 E2 x i j.
  assert (forall l m, linked_from (H g) l -> Forall rk l -> l !! m = Some g -> False) as Hno.
  { intros l m L R E. apply elem_of_list_lookup_2 in E.
    pose proof (linked_rank_elem H rank _ _ _ L R E). lia. }
  induction n as [|n IH]; intros m y Hn Hm.
  - cbn in Hn. injection Hn as <-. destruct m as [|m]; [done|]. exfalso. cbn in Hm. eauto.
  - destruct m as [|m].
    { cbn in Hm. injection Hm as <-. exfalso. cbn in Hn. eauto. }
    f_equal. destruct (linked_lookup_gprev _ _ _ L1 Hn) as (a & Ha & Ea).
    destruct (linked_lookup_gprev _ _ _ L2 Hm) as (b & Hb & Eb).
    apply (IH m a Ha). rewrite Hb. f_equal. symmetry.
    assert (forall l k z, Forall Kn l -> (g :: l) !! k = Some z -> Kn z) as Hk.
    { intros l [|k] z F E; cbn in E; [congruence|]. rewrite Forall_forall in F. apply F.
      by eapply elem_of_list_lookup_2. }
    apply Kf; eauto. congruence.
Qed.

Lemma known_g c tl : known c tl g.
Proof. right. by left. Qed.

Lemma depth_unique_inv c tl i j x : INV c tl ->
  at_depth (known c tl) i x -> at_depth (known c tl) j x -> i = j.
Proof.
  intros I. apply depth_unique; [|apply known_g]. intros a b. by apply (known_fun _ _ _ _ I).
Qed.

Lemma active_at_depth c tl i x : INV c tl -> (g :: tl) !! N.to_nat i = Some x ->
  at_depth (known c tl) i x.
Proof.
  intros I E. exists tl. split; [apply I|]. split; [apply I|]. split; [|done].
  apply Forall_forall. intros y Hy. right. by right.
Qed.

(** * The batch invariant *)

Record BINV (tl0 : list header) (Kn : header -> Prop) (tl : list header) (b : batch) : Prop := {
  bi_tip : b_hash b = last_hash (H g) tl /\ b_height b = lenN tl /\ b_header b = ne_last g tl;
  bi_csorted : StronglySorted (klt N.compare) (b_connected b);
  bi_rsorted : StronglySorted (klt cmp_hh) (b_reverted b);
  bi_con1 : forall i x, (i, x) ∈ b_connected b -> H x ∈ b_seen b /\ at_depth Kn i x;
  bi_con2 : forall i x, (g :: tl) !! N.to_nat i = Some x -> x ∉ g :: tl0 -> (i, x) ∈ b_connected b;
  bi_con3 : b_connected b <> [] -> (lenN tl, ne_last g tl) ∈ b_connected b;
  bi_rev1 : forall i k x, ((i, k), x) ∈ b_reverted b -> H x = k /\ at_depth Kn i x /\
              (k ∉ b_seen b -> (g :: tl0) !! N.to_nat i = Some x);
  bi_rev2 : forall i x, (g :: tl0) !! N.to_nat i = Some x -> x ∉ g :: tl ->
              ((i, H x), x) ∈ b_reverted b;
  bi_none : b_connected b = [] -> tl = tl0;
}.

Lemma BINV_mono tl0 (K1 K2 : header -> Prop) tl b : (forall y, K1 y -> K2 y) ->
  BINV tl0 K1 tl b -> BINV tl0 K2 tl b.
Proof.
  intros Hm []. constructor; auto.
  - intros i x Hx. destruct (bi_con4 i x Hx). split; [done|]. by eapply at_depth_mono.
  - intros i k x Hx. destruct (bi_rev3 i k x Hx) as (? & ? & ?). split; [done|]. split; [|done].
    by eapply at_depth_mono.
Qed.

Lemma BINV_init c tl : BINV tl (known c tl) tl
  (mkBatch ∅ [] [] (lenN tl) (last_hash (H g) tl) (ne_last g tl)).
Proof.
  constructor; cbn; auto; try (by constructor); try (intros; set_solver).
  - intros i x E Hn. exfalso. apply Hn. by eapply elem_of_list_lookup_2.
  - intros i x E Hn. exfalso. apply Hn. by eapply elem_of_list_lookup_2.
Qed.

Lemma stale_list_elem n tl i x : (i, x) ∈ stale_list n tl <->
  N.of_nat n < i /\ (g :: tl) !! N.to_nat i = Some x.
Proof.
  unfold stale_list. rewrite elem_of_lookup_imap. split.
  - intros (j & y & E & Hj). injection E as -> ->. rewrite lookup_drop in Hj. split; [lia|].
    replace (N.to_nat (N.of_nat n + 1 + N.of_nat j)) with (S (n + j)) by lia. done.
  - intros [Hi E]. exists (N.to_nat i - S n)%nat, x. split; [f_equal; lia|]. rewrite lookup_drop.
    replace (N.to_nat i) with (S (n + (N.to_nat i - S n))) in E by lia. done.
Qed.

Lemma connected_list_elem tl cd i x : fits tl cd -> (i, x) ∈ connected_list cd <->
  cd_fork_height cd < i /\ (g :: switched tl cd) !! N.to_nat i = Some x.
Proof.
  intros Hf. unfold fits in Hf. unfold connected_list, switched. rewrite elem_of_lookup_imap.
  assert (length (g :: take (N.to_nat (cd_fork_height cd)) tl) = S (N.to_nat (cd_fork_height cd))) as Hlen.
  { cbn. rewrite take_length. lia. }
  split.
  - intros (j & y & E & Hj). injection E as -> ->. split; [lia|]. rewrite app_comm_cons.
    rewrite lookup_app_r by lia. rewrite <- Hj. f_equal. lia.
  - intros [Hi E]. exists (N.to_nat i - S (N.to_nat (cd_fork_height cd)))%nat, x. split; [f_equal; lia|].
    rewrite app_comm_cons in E. rewrite lookup_app_r in E by lia. rewrite <- E. f_equal. lia.
Qed.

Lemma switched_low tl cd i : fits tl cd -> i <= cd_fork_height cd ->
  (g :: switched tl cd) !! N.to_nat i = (g :: tl) !! N.to_nat i.
Proof.
  intros Hf Hi. unfold fits in Hf. unfold switched. rewrite app_comm_cons.
  rewrite lookup_app_l by (cbn; rewrite take_length; lia).
  change (g :: take (N.to_nat (cd_fork_height cd)) tl) with (take (S (N.to_nat (cd_fork_height cd))) (g :: tl)).
  apply lookup_take. lia.
Qed.

Lemma switched_fits_len tl cd : fits tl cd -> lenN (switched tl cd) = cd_fork_height cd + lenN (cd_headers cd).
Proof. unfold fits, lenN, switched. intros. rewrite app_length, take_length. lia. Qed.

Lemma BINV_switch tl0 c tl b cd c' hd :
  INV c tl -> INV c' (switched tl cd) -> fits tl cd -> cd_headers cd <> [] ->
  (forall x, known c tl x -> known c' (switched tl cd) x) ->
  (forall x, x ∈ tl0 -> known c tl x) -> linked_from (H g) tl0 -> Forall rk tl0 ->
  BINV tl0 (known c tl) tl b -> hd = ne_last g (switched tl cd) ->
  BINV tl0 (known c' (switched tl cd)) (switched tl cd)
    (batch_add H b hd (last_hash (H g) (switched tl cd)) (lenN (switched tl cd))
       (stale_list (N.to_nat (cd_fork_height cd)) tl) (connected_list cd)).
Proof.
  intros I I' Hf Hne Km K0 L0 R0 B ->. set (tl' := switched tl cd) in *.
  set (f := cd_fork_height cd) in *.
  assert (forall i x, (i, x) ∈ connected_list cd <-> f < i /\ (g :: tl') !! N.to_nat i = Some x) as Hcon.
  { intros. by apply connected_list_elem. }
  assert (forall i x, (i, x) ∈ stale_list (N.to_nat f) tl <-> f < i /\ (g :: tl) !! N.to_nat i = Some x) as Hst.
  { intros. rewrite stale_list_elem. by replace (N.of_nat (N.to_nat f)) with f by lia. }
  assert (forall i, i <= f -> (g :: tl') !! N.to_nat i = (g :: tl) !! N.to_nat i) as Hlow.
  { intros. by apply switched_low. }
  assert (forall i x, (g :: tl) !! N.to_nat i = Some x -> at_depth (known c' tl') i x) as Dtl.
  { intros i x E. eapply at_depth_mono; [exact Km|]. by apply active_at_depth. }
  assert (forall i x, (g :: tl') !! N.to_nat i = Some x -> at_depth (known c' tl') i x) as Dtl'.
  { intros i x E. by apply active_at_depth. }
  assert (forall i x, (g :: tl0) !! N.to_nat i = Some x -> at_depth (known c' tl') i x) as D0.
  { intros i x E. exists tl0. split; [done|]. split; [done|]. split; [|done].
    apply Forall_forall. auto. }
  assert (forall i j x, at_depth (known c' tl') i x -> at_depth (known c' tl') j x -> i = j) as Du.
  { intros i j x. by apply depth_unique_inv. }
  change (b_connected (batch_add _ _ _ _ _ _ _)) with
    (bt_extend N.compare (@fst N header) snd (b_connected b) (connected_list cd)).
  assert (forall a b, a ∈ connected_list cd -> b ∈ connected_list cd -> a.1 = b.1 -> a.2 = b.2) as Cf.
  { intros [i x] [j y] Ha Hb E. cbn in E. subst j. apply Hcon in Ha as [_ Ha]. apply Hcon in Hb as [_ Hb].
    cbn. congruence. }
  constructor; cbn [batch_add b_hash b_height b_header b_seen b_reverted b_connected].
  - done.
  - apply (bt_extend_sorted _ Ncmp_eq Ncmp_anti Ncmp_trans fst snd), B.
  - apply (bt_extend_sorted _ hh_eq hh_anti hh_trans (fun p => (p.1, H p.2)) snd), B.
  - intros i x Hx. apply (bt_extend_elem _ Ncmp_eq Ncmp_anti Ncmp_trans fst snd) in Hx as [Hx|([j y] & Hy & E)].
    + destruct (bi_con1 _ _ _ _ B _ _ Hx) as [A1 A2]. split; [set_solver|]. by eapply at_depth_mono.
    + cbn in E. injection E as -> ->. split.
      * apply elem_of_union_r, elem_of_list_to_set, elem_of_list_fmap. by exists (j, y).
      * apply Hcon in Hy as [_ Hy]. auto.
  - intros i x E Hx. destruct (decide (f < i)) as [Hi|Hi].
    + apply (bt_extend_new _ Ncmp_eq Ncmp_anti Ncmp_trans fst snd _ _ (i, x)); [by apply Hcon|]. intros p Hp Ep.
      apply (Cf p (i, x)); auto. by apply Hcon.
    + rewrite Hlow in E by lia. apply (bt_extend_old _ Ncmp_eq Ncmp_anti Ncmp_trans fst snd).
      * by apply (bi_con2 _ _ _ _ B).
      * intros [j y] Hp Ep. cbn in Ep. subst. apply Hcon in Hp as [? _]. lia.
  - intros _. assert ((lenN tl', ne_last g tl') ∈ connected_list cd) as Hlast.
    { apply Hcon. split.
      - unfold tl'. rewrite switched_fits_len by done. fold f. unfold lenN. destruct (cd_headers cd); [done|cbn; lia].
      - unfold lenN. rewrite Nat2N.id. clear. destruct tl' as [|x t] using rev_ind; [done|].
        rewrite ne_last_app, app_length. cbn [length]. rewrite Nat.add_comm.
        change ((t ++ [x]) !! length t = Some x). by apply list_lookup_middle. }
    apply (bt_extend_new _ Ncmp_eq Ncmp_anti Ncmp_trans fst snd _ _ (lenN tl', ne_last g tl')); [done|]. intros p Hp Ep.
    by apply (Cf p (lenN tl', ne_last g tl')).
  - intros i k x Hx. apply (bt_extend_elem _ hh_eq hh_anti hh_trans (fun p => (p.1, H p.2)) snd) in Hx as [Hx|([j y] & Hy & E)].
    + destruct (bi_rev1 _ _ _ _ B _ _ _ Hx) as (A1 & A2 & A3). split; [done|].
      split; [by eapply at_depth_mono|]. intros Hn. apply A3. set_solver.
    + cbn in E. injection E as -> -> ->. apply Hst in Hy as [Hj Hy]. split; [done|]. split; [auto|].
      intros Hn. destruct (decide (y ∈ g :: tl0)) as [Hin|Hin].
      * apply elem_of_list_lookup in Hin as [m Hm]. rewrite <- Hm. f_equal.
        assert (j = N.of_nat m) as ->; [|lia]. eapply Du; [by apply Dtl|]. apply D0. by rewrite Nat2N.id.
      * exfalso. apply Hn. apply elem_of_union_l. eapply (bi_con1 _ _ _ _ B j y).
        by apply (bi_con2 _ _ _ _ B).
  - intros i x E Hx. destruct (decide (x ∈ g :: tl)) as [Hin|Hin].
    + apply elem_of_list_lookup in Hin as [m Hm].
      assert (i = N.of_nat m) as ->. { eapply Du; [by apply D0|]. apply Dtl. by rewrite Nat2N.id. }
      rewrite <- (Nat2N.id m) in Hm.
      destruct (decide (f < N.of_nat m)) as [Hi|Hi].
      * apply (bt_extend_new _ hh_eq hh_anti hh_trans (fun p => (p.1, H p.2)) snd _ _ (N.of_nat m, x)); [by apply Hst|].
        intros [j y] Hp Ep. cbn in *. injection Ep as -> Ey. apply Hst in Hp as [_ Hp]. congruence.
      * exfalso. apply Hx. rewrite <- Hlow in Hm by lia. by eapply elem_of_list_lookup_2.
    + apply (bt_extend_old _ hh_eq hh_anti hh_trans (fun p => (p.1, H p.2)) snd).
      * by apply (bi_rev2 _ _ _ _ B).
      * intros [j y] Hp Ep. cbn in *. injection Ep as -> Ey. apply Hst in Hp as [_ Hp].
        eapply (known_fun c' tl'); eauto; apply Km.
        -- right. by eapply elem_of_list_lookup_2.
        -- apply elem_of_list_lookup_2 in E. apply elem_of_cons in E as [->|E]; [apply known_g|auto].
  - intros E. apply (bt_extend_nil _ Ncmp_eq Ncmp_anti Ncmp_trans fst snd) in E as [_ E]. unfold connected_list in E.
    by destruct (cd_headers cd).
Qed.

(** * The final report *)

(** What the result of a batch says about the chain before ([tl0]) and after ([tl]). *)
Inductive batch_report (tl0 tl : list header) (b : batch) : import_result -> Prop :=
| BR_unchanged : tl = tl0 -> b_connected b = [] -> batch_report tl0 tl b TipUnchanged
| BR_changed rv cn :
    cn <> [] ->
    StronglySorted (fun p q : N * header => p.1 < q.1) cn ->
    StronglySorted (fun p q : N * header => q.1 < p.1) rv ->
    (forall i x, (i, x) ∈ cn -> (g :: tl) !! N.to_nat i = Some x) ->
    (forall i x, (g :: tl) !! N.to_nat i = Some x -> x ∉ g :: tl0 -> (i, x) ∈ cn) ->
    (forall i x, (i, x) ∈ cn -> (i, x) ∈ b_connected b) ->
    (forall i x, (i, x) ∈ rv -> (g :: tl0) !! N.to_nat i = Some x /\ x ∉ g :: tl) ->
    (forall i x, (g :: tl0) !! N.to_nat i = Some x -> x ∉ g :: tl -> H x ∉ b_seen b -> (i, x) ∈ rv) ->
    batch_report tl0 tl b (TipChanged (ne_last g tl) (last_hash (H g) tl) (lenN tl) rv cn).

Lemma strongly_filter {A} (R : A -> A -> Prop) (f : A -> bool) l :
  StronglySorted R l -> StronglySorted R (List.filter f l).
Proof.
  induction 1 as [|x l Hs IH Hf]; cbn; [constructor|]. destruct (f x); [|done].
  constructor; [done|]. apply Forall_forall. intros y Hy. rewrite Forall_forall in Hf. apply Hf.
  apply elem_of_list_In, List.filter_In in Hy as [Hy _]. by apply elem_of_list_In.
Qed.

Lemma strongly_map {A B} (R : A -> A -> Prop) (S : B -> B -> Prop) (f : A -> B) l :
  (forall x y, x ∈ l -> y ∈ l -> R x y -> S (f x) (f y)) ->
  StronglySorted R l -> StronglySorted S (map f l).
Proof.
  intros Hm Hs. revert Hm. induction Hs as [|x l Hs IH Hf]; intros Hm; cbn; [constructor|].
  constructor; [apply IH; intros; apply Hm; auto; by right|].
  apply Forall_forall. intros y Hy. apply elem_of_list_fmap in Hy as (z & -> & Hz).
  apply Hm; [by left|by right|]. rewrite Forall_forall in Hf. by apply Hf.
Qed.

Lemma strongly_rev {A} (R : A -> A -> Prop) l :
  StronglySorted R l -> StronglySorted (fun x y => R y x) (rev l).
Proof.
  induction 1 as [|x l Hs IH Hf]; cbn; [constructor|].
  clear Hs. revert IH Hf. generalize (rev l) (in_rev l). intros r Hr IH Hf.
  assert (forall y, y ∈ r -> R x y) as Hx.
  { intros y Hy. rewrite Forall_forall in Hf. apply Hf. apply elem_of_list_In, Hr. by apply elem_of_list_In. }
  clear Hf Hr. induction IH as [|y r Hs IH Hf]; cbn; [repeat constructor|].
  constructor; [apply IH; intros; apply Hx; by right|].
  apply Forall_app. split; [done|]. constructor; [|done]. apply Hx. by left.
Qed.

Lemma batch_finish_spec tl0 c tl b : INV c tl -> BINV tl0 (known c tl) tl b ->
  linked_from (H g) tl0 -> Forall rk tl0 -> (forall x, x ∈ tl0 -> known c tl x) ->
  exists r, batch_finish H c b = Val (Ok r) /\ batch_report tl0 tl b r.
Proof.
  intros I B L0 R0 K0. unfold batch_finish.
  destruct (b_connected b) as [|p0 ps0] eqn:Ec.
  { eexists. split; [reflexivity|]. constructor; [by apply (bi_none _ _ _ _ B)|done]. }
  rewrite <- Ec. set (cn := List.filter _ (b_connected b)).
  assert (forall i x, (i, x) ∈ cn <-> (i, x) ∈ b_connected b /\ contains c (H x) = true) as Hcn.
  { intros i x. unfold cn. rewrite !elem_of_list_In, List.filter_In. done. }
  assert ((lenN tl, ne_last g tl) ∈ cn) as Hlast.
  { apply Hcn. split; [apply (bi_con3 _ _ _ _ B); by rewrite Ec|]. apply (inv_contains I).
    exists (ne_last g tl). split; [|done]. clear. destruct tl as [|x t] using rev_ind; [by left|].
    rewrite ne_last_app. cbn. set_solver. }
  assert (forall i x, at_depth (known c tl) i x -> contains c (H x) = true ->
     (g :: tl) !! N.to_nat i = Some x) as Hact.
  { intros i x Hd Hc. apply (inv_contains I) in Hc as (y & Hy & E).
    assert (x = y) as <-.
    { eapply known_fun; eauto; [|by right]. destruct Hd as (l & _ & _ & Hk & Hl).
      destruct (N.to_nat i) as [|n] eqn:En; cbn in Hl; [injection Hl as <-; apply known_g|].
      rewrite Forall_forall in Hk. apply Hk. by eapply elem_of_list_lookup_2. }
    apply elem_of_list_lookup in Hy as [m Hm]. rewrite <- Hm. f_equal.
    assert (i = N.of_nat m) as ->; [|lia].
    eapply (depth_unique_inv c tl); [done|exact Hd|]. apply active_at_depth; [done|]. by rewrite Nat2N.id. }
  destruct cn as [|q qs] eqn:Ecn; [by apply elem_of_nil in Hlast|]. rewrite <- Ecn in *.
  eexists. split; [reflexivity|]. destruct (bi_tip _ _ _ _ B) as (-> & -> & ->).
  set (rv := map _ _).
  assert (forall i x, (i, x) ∈ rv <-> exists k, ((i, k), x) ∈ b_reverted b /\ k ∉ b_seen b /\ contains c k = false) as Hrv.
  { intros i x. unfold rv. rewrite elem_of_list_fmap. split.
    - intros ([[j k] y] & E & Hy). cbn in E. injection E as -> ->.
      apply elem_of_list_In, in_rev, List.filter_In in Hy as [Hy1 Hy2]. cbn in Hy2.
      apply andb_true_iff in Hy2 as [Hy2 Hy3]. apply negb_true_iff in Hy2, Hy3.
      apply bool_decide_eq_false in Hy2. exists k. split; [by apply elem_of_list_In|done].
    - intros (k & Hk1 & Hk2 & Hk3). exists ((i, k), x). split; [done|].
      apply elem_of_list_In, in_rev. rewrite rev_involutive. apply List.filter_In. split; [by apply elem_of_list_In|].
      cbn. rewrite Hk3, bool_decide_eq_false_2 by done. done. }
  assert (forall i x, (i, x) ∈ rv -> (g :: tl0) !! N.to_nat i = Some x /\ x ∉ g :: tl) as Hrv1.
  { intros i x Hx. apply Hrv in Hx as (k & Hk1 & Hk2 & Hk3).
    destruct (bi_rev1 _ _ _ _ B _ _ _ Hk1) as (E & _ & Hin). split; [auto|].
    intros Hx. assert (contains c k = true) as Hc by (apply (inv_contains I); eauto). congruence. }
  constructor.
  - by rewrite Ecn.
  - assert (StronglySorted (klt N.compare) cn) as Hs.
    { apply strongly_filter, B. }
    rewrite <- (List.map_id cn). eapply strongly_map; [|exact Hs].
    intros x y _ _. unfold klt. by rewrite N.compare_lt_iff.
  - unfold rv.
    eapply (strongly_map (fun p q : N * N * header => klt cmp_hh q p /\
       (g :: tl0) !! N.to_nat p.1.1 = Some p.2 /\ (g :: tl0) !! N.to_nat q.1.1 = Some q.2 /\ H p.2 = p.1.2 /\ H q.2 = q.1.2)).
    + intros [[i k] x] [[j k'] y] _ _ (Hlt & E1 & E2 & E3 & E4). unfold klt in Hlt. cbn in *. apply hh_lt in Hlt. cbn in Hlt.
      destruct Hlt as [?|[-> Hlt]]; [done|]. exfalso. rewrite E1 in E2. injection E2 as <-. lia.
    + set (l := rev _).
      assert (StronglySorted (fun p q => klt cmp_hh q p) l) as Hs.
      { apply strongly_rev. apply strongly_filter, B. }
      assert (Forall (fun p : N * N * header => (g :: tl0) !! N.to_nat p.1.1 = Some p.2 /\ H p.2 = p.1.2) l) as Hall.
      { apply Forall_forall. intros [[i k] x] Hp. cbn.
        assert ((i, x) ∈ rv) as Hx. { unfold rv. apply elem_of_list_fmap. by exists (i, k, x). }
        split; [by apply Hrv1|]. unfold l in Hp. apply elem_of_list_In, in_rev, List.filter_In in Hp as [Hp _].
        apply elem_of_list_In in Hp. by apply (bi_rev1 _ _ _ _ B) in Hp as [? _]. }
      clearbody l. clear -Hs Hall. induction Hs as [|p l Hs IH Hf]; [constructor|].
      inversion Hall as [|?? [Hp1 Hp2] Hl]; subst. constructor; [by apply IH|]. rewrite !Forall_forall in *.
      intros q Hq. destruct (Hl q Hq). auto.
  - intros i x Hx. apply Hcn in Hx as [Hx1 Hx2]. apply (bi_con1 _ _ _ _ B) in Hx1 as [_ Hd]. auto.
  - intros i x E Hx. apply Hcn. split; [by apply (bi_con2 _ _ _ _ B)|]. apply (inv_contains I).
    exists x. split; [by eapply elem_of_list_lookup_2|done].
  - intros i x Hx. by apply Hcn in Hx as [? _].
  - done.
  - intros i x E Hx Hs. apply Hrv. exists (H x). split; [by apply (bi_rev2 _ _ _ _ B)|]. split; [done|].
    apply not_true_iff_false. intros Hc. apply (inv_contains I) in Hc as (y & Hy & Ey).
    apply Hx. assert (x = y) as ->; [|done]. eapply (known_fun c tl); eauto; [|by right].
    apply elem_of_list_lookup_2 in E. apply elem_of_cons in E as [->|E]; [apply known_g|auto].
Qed.

(** * Steps *)

(** One header processed, with a witness that the invariant holds around it. *)
Inductive bstep (P : header -> choice -> N -> Prop) :
    cache * list header -> cache * list header -> Prop :=
| bstep_import c tl hd now ch c' tl' r :
    P hd ch now -> INV c tl -> INV c' tl' -> same_cfg c c' ->
    import_block H c hd now ch = Val (c', r) ->
    import_outcome c tl hd now ch c' tl' r -> bstep P (c, tl) (c', tl')
| bstep_extend c tl hd now ch c' tl' r :
    P hd ch now -> INV c tl -> INV c' tl' -> same_cfg c c' ->
    extend_tip H c hd now ch = Val (c', r) ->
    extend_outcome c tl hd now ch c' tl' r -> bstep P (c, tl) (c', tl').

Lemma known_with_orphan c tl hd x : is_known c (H hd) = false ->
  known (with_orphan c (H hd) hd) tl x <-> known c tl x \/ x = hd.
Proof.
  intros Hk. apply orb_false_iff in Hk as [Hc Ho]. unfold in_orphans in Ho.
  apply bool_decide_eq_false in Ho. apply eq_None_not_Some in Ho.
  unfold BlockOps.known. cbn. rewrite lookup_insert_Some. split.
  - intros [[[_ ->]|[_ ?]]|?]; auto.
  - intros [[Hx|?]| ->]; auto. left. right. split; [|done]. intros E. rewrite E in Ho. congruence.
Qed.

Lemma import_known c tl hd now ch c' tl' r x : import_outcome c tl hd now ch c' tl' r ->
  known c tl x -> known c' tl' x.
Proof.
  intros O Kx. inversion O; subst; auto;
    match goal with E : entered _ _ _ _ _ _ |- _ => destruct E as [Ek _] end.
  - apply known_with_orphan; auto.
  - apply known_with_orphan; auto.
  - match goal with Hx : forall x, known _ _ x <-> _ |- _ => apply Hx end. apply known_with_orphan; auto.
Qed.

Lemma import_keep c tl hd now ch c' tl' r : import_outcome c tl hd now ch c' tl' r ->
  r = Ok TipUnchanged \/ (exists e, r = Err e /\ e <> EStore) -> tl' = tl /\ c_store c' = c_store c.
Proof.
  intros O Hr. inversion O; subst; auto.
  destruct (ch_rollback_ok ch && bool_decide (ch_put ch = None)) eqn:E.
  - match goal with Hx : true = true -> _ |- _ => destruct (Hx eq_refl) as (? & _ & _ & ->) end.
    destruct Hr as [|(? & ? & ?)]; discriminate.
  - match goal with Hx : false = false -> _ |- _ => rewrite (Hx eq_refl) in Hr end.
    destruct Hr as [|(? & ? & ?)]; [discriminate|]. congruence.
Qed.

(** State of a batch: what is known between two headers of it. *)
Record loop_inv (tl0 : list header) (c : cache) (tl : list header) (b : batch) : Prop := {
  li_inv : INV c tl;
  li_b : BINV tl0 (known c tl) tl b;
  li_k0 : forall x, x ∈ tl0 -> known c tl x;
}.

Lemma import_tip_changed c tl hd now ch c' tl' h hash height rv cn :
  INV c tl -> import_outcome c tl hd now ch c' tl' (Ok (TipChanged h hash height rv cn)) ->
  exists cd, is_branch (with_orphan c (H hd) hd) tl cd /\
    tl' = switched tl cd /\ cd_headers cd <> [] /\ fits tl cd /\
    h = ne_last g tl' /\ hash = last_hash (H g) tl' /\ height = lenN tl' /\
    rv = stale_list (N.to_nat (cd_fork_height cd)) tl /\ cn = connected_list cd.
Proof.
  intros I O. inversion O as [| | |cd c2 tl2 r2 He Hk Hv Hle Heq Hbest Etl Hst Hkn Hf Ht]; subst.
  exists cd. destruct (ch_rollback_ok ch) eqn:Erb; cbn in Hf, Ht.
  2:{ specialize (Hf eq_refl). discriminate. }
  destruct (bool_decide (ch_put ch = None)) eqn:Ep; [|specialize (Hf eq_refl); discriminate].
  destruct (Ht eq_refl) as (hd' & E1 & E2 & Er). injection Er as -> -> -> -> ->.
  destruct Hv as [Hb Hv]. split; [done|]. split; [done|]. split; [apply Hb|].
  split; [by eapply (is_branch_fork_le H rank g)|]. split; [done|]. split; [|done].
  rewrite <- E1, <- E2. by rewrite last_hash_ne_last.
Qed.

Lemma import_loop_spec (P : header -> choice -> N -> Prop) tl0 now hds :
  forall c tl b i, loop_inv tl0 c tl b -> params_ok (c_params c) ->
  linked_from (H g) tl0 -> Forall rk tl0 ->
  Forall (fun x => fair_choice x.2 /\ rk x.1 /\ P x.1 x.2 now) hds ->
  exists c' tl' r, import_loop H c b i hds now = Val (c', r) /\ INV c' tl' /\ same_cfg c c' /\
    rtc (bstep P) (c, tl) (c', tl') /\
    match r with
    | Ok r => exists b', loop_inv tl0 c' tl' b' /\ batch_report tl0 tl' b' r /\
               (hds = [] -> b' = b)
    | Err (EAborted e _ h) => h = lenN tl' /\ (forall k, e <> EDuplicate k) /\ (forall k, e <> EMissing k)
    | Err _ => False
    end.
Proof.
  induction hds as [|[hd ch] hds IH]; intros c tl b i LI Hp L0 R0 Hall; cbn [import_loop].
  - destruct LI as [I B K0]. destruct (batch_finish_spec tl0 c tl b I B L0 R0 K0) as (r & E & Hr).
    rewrite E. cbn [mbind_M]. exists c, tl. eexists. split; [reflexivity|]. split; [done|]. split; [by split|].
    split; [apply rtc_refl|]. exists b. split; [done|]. by split.
  - inversion Hall as [|?? (Hf & Hr & HP) Hall']; subst. cbn in Hf, Hr, HP. destruct LI as [I B K0].
    destruct (import_block_spec H rank g c tl hd now ch I Hp Hf Hr) as (c1 & tl1 & r & E & I1 & S1 & O).
    rewrite E. cbn [mbind_M].
    assert (bstep P (c, tl) (c1, tl1)) as Hstep by by eapply bstep_import.
    assert (params_ok (c_params c1)) as Hp1 by (destruct S1 as [-> _]; done).
    assert (forall x, x ∈ tl0 -> known c1 tl1 x) as K1 by (intros; eapply import_known; eauto).
    assert (forall b1, BINV tl0 (known c1 tl1) tl1 b1 ->
      exists c' tl' r0, import_loop H c1 b1 (S i) hds now = Val (c', r0) /\ INV c' tl' /\ same_cfg c c' /\
        rtc (bstep P) (c, tl) (c', tl') /\
        match r0 with
        | Ok r1 => exists b', loop_inv tl0 c' tl' b' /\ batch_report tl0 tl' b' r1 /\
                   ((hd, ch) :: hds = [] -> b' = b)
        | Err (EAborted e _ h) => h = lenN tl' /\ (forall k, e <> EDuplicate k) /\ (forall k, e <> EMissing k)
        | Err _ => False
        end) as Hgo.
    { intros b1 B1. destruct (IH c1 tl1 b1 (S i)) as (c' & tl' & r0 & E0 & I' & S' & Hrtc & Hres); auto.
      { by constructor. }
      exists c', tl', r0. split; [done|]. split; [done|]. split; [by eapply same_cfg_trans|].
      split; [by eapply rtc_l|]. destruct r0 as [r0|e]; [|done].
      destruct Hres as (b' & A1 & A2 & _). exists b'. split; [done|]. by split. }
    assert (r = Ok TipUnchanged \/ (exists e, r = Err e /\ e <> EStore) -> BINV tl0 (known c1 tl1) tl1 b) as Hkeep.
    { intros Hr'. destruct (import_keep _ _ _ _ _ _ _ _ O Hr') as [-> _].
      eapply BINV_mono; [|exact B]. intros y. by eapply import_known. }
    assert (forall e, r = Err e -> (forall k, e <> EDuplicate k) -> (forall k, e <> EMissing k) ->
      exists c' tl' r0, @Val (cache * result import_result err) (c1, Err (EAborted e i (c_height c1))) = Val (c', r0) /\ INV c' tl' /\ same_cfg c c' /\
        rtc (bstep P) (c, tl) (c', tl') /\
        match r0 with
        | Ok r1 => exists b', loop_inv tl0 c' tl' b' /\ batch_report tl0 tl' b' r1 /\
                   ((hd, ch) :: hds = [] -> b' = b)
        | Err (EAborted e _ h) => h = lenN tl' /\ (forall k, e <> EDuplicate k) /\ (forall k, e <> EMissing k)
        | Err _ => False
        end) as Habort.
    { intros e Er Hd Hm. exists c1, tl1. eexists. split; [reflexivity|]. split; [done|]. split; [done|].
      split; [by apply rtc_once|]. cbn. split; [by rewrite (inv_height I1)|done]. }
    destruct r as [[h hash height rv cn|]|e].
    + apply Hgo. destruct (import_tip_changed _ _ _ _ _ _ _ _ _ _ _ _ I O) as (cd & Hb & -> & Hne & Hfit & -> & -> & -> & -> & ->).
      eapply BINV_switch with (c := with_orphan c (H hd) hd); auto.
      * inversion O; subst. match goal with E : entered _ _ _ _ _ _ |- _ => destruct E as [Ek _] end.
        apply with_orphan_inv; auto.
      * intros x Hx. inversion O; subst.
        match goal with Hx : forall x, known _ _ x <-> _ |- _ => by apply Hx end.
      * intros x Hx. inversion O; subst. match goal with E : entered _ _ _ _ _ _ |- _ => destruct E as [Ek _] end.
        apply known_with_orphan; auto.
      * eapply BINV_mono; [|exact B]. intros x Hx. inversion O; subst.
        match goal with E : entered _ _ _ _ _ _ |- _ => destruct E as [Ek _] end.
        apply known_with_orphan; auto.
    + apply Hgo, Hkeep. by left.
    + destruct e; try (apply Habort; [done|intros; discriminate|intros; discriminate]).
      * apply Hgo, Hkeep. right. eexists. split; [reflexivity|discriminate].
      * apply Hgo, Hkeep. right. eexists. split; [reflexivity|discriminate].
Qed.

Lemma loop_inv_init c tl : INV c tl -> loop_inv tl c tl
  (mkBatch ∅ [] [] (c_height c) (cb_hash H (c_last c)) (cb_header (c_last c))).
Proof.
  intros I. rewrite (inv_height I), (inv_tip_hash I), (inv_last I). cbn. constructor; [done| |].
  - apply BINV_init.
  - intros x Hx. right. by right.
Qed.

Theorem import_blocks_spec (P : header -> choice -> N -> Prop) c tl hds now :
  INV c tl -> params_ok (c_params c) ->
  Forall (fun x => fair_choice x.2 /\ rk x.1 /\ P x.1 x.2 now) hds ->
  exists c' tl' r, import_blocks H c hds now = Val (c', r) /\ INV c' tl' /\ same_cfg c c' /\
    rtc (bstep P) (c, tl) (c', tl') /\
    match r with
    | Ok r => exists b', loop_inv tl c' tl' b' /\ batch_report tl tl' b' r
    | Err (EAborted e _ h) => h = lenN tl' /\ (forall k, e <> EDuplicate k) /\ (forall k, e <> EMissing k)
    | Err _ => False
    end.
Proof.
  intros I Hp Hall. unfold import_blocks.
  destruct (import_loop_spec P tl now hds c tl _ 0 (loop_inv_init c tl I) Hp (i_linked I) (i_rk I) Hall)
    as (c' & tl' & r & E & I' & S' & Hrtc & Hres).
  exists c', tl', r. split; [done|]. split; [done|]. split; [done|]. split; [done|].
  destruct r as [r|e]; [|done]. destruct Hres as (b' & A1 & A2 & _). eauto.
Qed.

(** * Histories *)

Definition presented_at (os : list op) (hd : header) (ch : choice) (now : N) : Prop :=
  exists o, o ∈ os /\ (hd, ch) ∈ op_inputs o /\ clock_of o = now.

Lemma bstep_mono (P Q : header -> choice -> N -> Prop) x y :
  (forall a b c, P a b c -> Q a b c) -> bstep P x y -> bstep Q x y.
Proof. intros Hpq []; [eapply bstep_import|eapply bstep_extend]; eauto. Qed.

Lemma rtc_bstep_mono (P Q : header -> choice -> N -> Prop) x y :
  (forall a b c, P a b c -> Q a b c) -> rtc (bstep P) x y -> rtc (bstep Q) x y.
Proof.
  intros Hpq. induction 1; [apply rtc_refl|]. eapply rtc_l; [|done]. by eapply bstep_mono.
Qed.

Theorem step_spec c tl o : INV c tl -> params_ok (c_params c) ->
  Forall (fun x => fair_choice x.2 /\ rk x.1) (op_inputs o) ->
  exists c' tl' r, step H c o = Val (c', r) /\ INV c' tl' /\ same_cfg c c' /\
    rtc (bstep (presented_at [o])) (c, tl) (c', tl').
Proof.
  intros I Hp Hall. destruct o as [hds now|hd now ch]; cbn in Hall.
  - destruct (import_blocks_spec (presented_at [OImport hds now]) c tl hds now I Hp) as (c' & tl' & r & E & I' & S' & Hrtc & _).
    { apply Forall_forall. intros [hd ch] Hin. rewrite Forall_forall in Hall. destruct (Hall _ Hin).
      split; [done|]. split; [done|]. exists (OImport hds now). split; [by left|]. split; [|done].
      exact Hin. }
    exists c', tl', r. split; [done|]. done.
  - inversion Hall as [|?? [Hf Hr] _]; subst.
    destruct (extend_tip_spec H rank g c tl hd now ch I Hp Hr) as (c' & tl' & r & E & I' & S' & O).
    exists c', tl', r. split; [done|]. split; [done|]. split; [done|]. apply rtc_once.
    eapply bstep_extend; eauto. exists (OExtend hd now ch). split; [by left|]. split; [|done]. by left.
Qed.

Theorem run_spec c tl os : INV c tl -> params_ok (c_params c) -> fair os -> Forall rk (presented os) ->
  exists c' tl' rs, run H c os = Val (c', rs) /\ INV c' tl' /\ same_cfg c c' /\
    rtc (bstep (presented_at os)) (c, tl) (c', tl').
Proof.
  revert c tl. induction os as [|o os IH]; intros c tl I Hp Hf Hr; cbn [run].
  { exists c, tl, []. split; [done|]. split; [done|]. split; [by split|apply rtc_refl]. }
  unfold fair, presented, inputs in *. cbn in Hf, Hr. rewrite map_app in Hr.
  apply Forall_app in Hf as [Hf1 Hf2]. apply Forall_app in Hr as [Hr1 Hr2].
  destruct (step_spec c tl o I Hp) as (c1 & tl1 & r & E & I1 & S1 & T1).
  { apply Forall_forall. intros x Hx. split; [exact (proj1 (Forall_forall _ _) Hf1 x Hx)|]. apply (proj1 (Forall_forall _ _) Hr1).
    by apply elem_of_list_fmap_1. }
  rewrite E. cbn [mbind_M].
  destruct (IH c1 tl1 I1) as (c2 & tl2 & rs & E2 & I2 & S2 & T2); auto.
  { destruct S1 as [-> _]. done. }
  rewrite E2. cbn [mbind_M]. exists c2, tl2, (r :: rs). split; [done|]. split; [done|].
  split; [by eapply same_cfg_trans|]. transitivity (c1, tl1).
  - eapply rtc_bstep_mono; [|exact T1]. intros a b d (o' & Ho & Hx). exists o'. split; [|done].
    apply elem_of_list_singleton in Ho as ->. by left.
  - eapply rtc_bstep_mono; [|exact T2]. intros a b d (o' & Ho & Hx). exists o'. split; [|done]. by right.
Qed.

(** * Loading *)

Lemma load_loop_eq c h hds : exists c', load_loop c (fun _ => false) h hds = Ok c' /\
  c_head c' = c_head c /\ c_tail c' = c_tail c ++ mk_from h hds /\ c_index c' = c_index c /\
  c_orphans c' = c_orphans c /\ c_checkpoints c' = c_checkpoints c /\ c_params c' = c_params c /\
  c_chainwork c' = c_chainwork c + sum_work hds /\ c_store c' = c_store c.
Proof.
  revert c h. induction hds as [|hd hds IH]; intros c h; cbn [load_loop mk_from sum_work].
  { exists c. rewrite app_nil_r. repeat split; auto. lia. }
  set (c1 := mkCache _ _ _ _ _ _ _ _).
  destruct (IH c1 (h + 1)) as (c' & E & A1 & A2 & A3 & A4 & A5 & A6 & A7 & A8).
  exists c'. split; [done|]. cbn in *. repeat split; auto.
  - by rewrite A2, <- app_assoc.
  - rewrite A7. lia.
Qed.

Definition idx_fold (tl : list header) : gmap N N :=
  foldl (fun m b => <[h_prev (cb_header b) := cb_height b - 1]> m) {[H g := 0]} (mk_from 1 tl).

Lemma idx_fold_spec tl : linked_from (H g) tl -> Forall rk tl ->
  forall k h, <[last_hash (H g) tl := lenN tl]> (idx_fold tl) !! k = Some h <->
    exists hd, (g :: tl) !! N.to_nat h = Some hd /\ H hd = k.
Proof.
  induction tl as [|x tl IH] using rev_ind; intros L R.
  { intros k h. cbn. rewrite lookup_insert_Some, lookup_singleton_Some. split.
    - intros [[<- <-]|[? [<- <-]]]; exists g; done.
    - intros (hd & E & <-). left. destruct (N.to_nat h) as [|n] eqn:En; [|done]. cbn in E. injection E as <-.
      split; [done|]. unfold lenN. cbn. lia. }
  apply linked_app in L as [L [Lp _]]. apply Forall_app in R as [R Rx]. inversion Rx as [|?? Rx' _]; subst.
  specialize (IH L R).
  assert (idx_fold (tl ++ [x]) = <[last_hash (H g) tl := lenN tl]> (idx_fold tl)) as ->.
  { unfold idx_fold. rewrite mk_from_app, foldl_app. cbn. rewrite Lp. f_equal. lia. }
  assert (forall hd, hd ∈ g :: tl -> H hd <> H x) as Hfresh.
  { intros hd Hin E. unfold BlockProofs.rk in Rx'. rewrite Lp in Rx'.
    apply elem_of_cons in Hin as [->|Hin].
    - pose proof (linked_rank_last H rank _ _ L R). rewrite E in *. lia.
    - pose proof (linked_rank_elem H rank _ _ _ L R Hin). rewrite E in *. lia. }
  rewrite last_hash_app. cbn [BlockSpec.last_hash foldl]. intros k h. rewrite lookup_insert_Some, IH.
  assert ((g :: tl ++ [x]) !! length (g :: tl) = Some x) as Hend.
  { rewrite app_comm_cons. by apply list_lookup_middle. }
  split.
  - intros [[<- <-]|[Hne (hd & E & <-)]].
    + exists x. split; [|done]. rewrite <- Hend. f_equal. unfold lenN. rewrite app_length. cbn. lia.
    + exists hd. split; [|done]. rewrite app_comm_cons. by apply lookup_app_l_Some.
  - intros (hd & E & <-). rewrite app_comm_cons in E. apply lookup_app_Some in E as [E|[Hl E]].
    + right. split; [intros Ex; apply (Hfresh hd); auto; by eapply elem_of_list_lookup_2|]. eauto.
    + left. apply list_lookup_singleton_Some in E as [E1 <-]. split; [done|].
      unfold lenN. rewrite app_length. cbn in *. lia.
Qed.

Lemma index_size tl (idx : gmap N N) : NoDup (map H (g :: tl)) ->
  (forall k h, idx !! k = Some h <-> exists hd, (g :: tl) !! N.to_nat h = Some hd /\ H hd = k) ->
  size idx = S (length tl).
Proof.
  intros Hn Hi. rewrite <- (size_dom (D:=gset N)).
  assert (dom idx = list_to_set (C:=gset N) (map H (g :: tl))) as ->.
  { apply set_eq. intros k. rewrite elem_of_dom, elem_of_list_to_set. split.
    - intros [h Hh]. apply Hi in Hh as (hd & E & <-). apply elem_of_list_fmap. exists hd. split; [done|].
      by eapply elem_of_list_lookup_2.
    - intros Hk. apply elem_of_list_fmap in Hk as (hd & -> & Hin). apply elem_of_list_lookup in Hin as [i Hi'].
      exists (N.of_nat i). apply Hi. exists hd. by rewrite Nat2N.id. }
  rewrite size_list_to_set by done. by rewrite map_length.
Qed.

Theorem from_store_spec ng s ps cps : s_genesis s = g ->
  linked_from (H g) (s_tail s) -> Forall rk (s_tail s) ->
  if bool_decide (s_tail s = []) || (ng (p_network ps) =? H g)
  then exists c, from_store H ng s ps cps = Val (Ok c) /\ INV c (s_tail s) /\
    c_orphans c = ∅ /\ c_store c = s /\ c_params c = ps /\
    c_checkpoints c = foldl (fun m kv => <[kv.1 := kv.2]> m) ∅ cps
  else from_store H ng s ps cps = Val (Err EGenesisMismatch).
Proof.
  intros Hg L R. unfold from_store, load_with.
  destruct (load_loop_eq (new_cache H s ps cps) 1 (s_tail s)) as (c & E & A1 & A2 & A3 & A4 & A5 & A6 & A7 & A8).
  change (c_store (new_cache H s ps cps)) with s. rewrite E. rewrite A8, A2, A6.
  cbn [new_cache c_tail app c_store c_params]. rewrite Hg.
  assert (match mk_from 1 (s_tail s) with
          | [] => false
          | b :: _ => negb (H g =? h_prev (cb_header b)) || negb (ng (p_network ps) =? H g)
          end = negb (bool_decide (s_tail s = []) || (ng (p_network ps) =? H g))) as ->.
  { destruct (s_tail s) as [|x t]; [done|]. destruct L as [Lp _]. cbn. rewrite Lp, N.eqb_refl. done. }
  destruct (bool_decide (s_tail s = []) || (ng (p_network ps) =? H g)) eqn:Em; cbn [negb]; [|done].
  set (idx := build_index H c).
  assert (c_head c = mkCB 0 g) as Hhead by (rewrite A1; cbn; by rewrite Hg).
  assert (c_tail c = mk_from 1 (s_tail s)) as Htail by (by rewrite A2).
  assert (c_last c = mkCB (lenN (s_tail s)) (ne_last g (s_tail s))) as Hlast.
  { unfold c_last. rewrite Hhead, Htail. clear. destruct (s_tail s) as [|x t] using rev_ind; [reflexivity|].
    rewrite mk_from_app. cbn. rewrite !ne_last_app. unfold ne_last. cbn.
    f_equal. unfold lenN. rewrite app_length. cbn. lia. }
  assert (idx = <[last_hash (H g) (s_tail s) := lenN (s_tail s)]> (idx_fold (s_tail s))) as Eidx.
  { unfold idx, build_index, c_height, cb_hash. rewrite Hlast. cbn. rewrite last_hash_ne_last, A3, Htail.
    cbn. by rewrite Hg. }
  assert (forall k h, idx !! k = Some h <-> exists hd, (g :: s_tail s) !! N.to_nat h = Some hd /\ H hd = k) as Hidx.
  { rewrite Eidx. by apply idx_fold_spec. }
  unfold assertM, c_chain. cbn [c_head c_tail c_index c_store].
  rewrite ?A8. cbn [new_cache c_store].
  rewrite (index_size _ _ (linked_hash_nodup H rank g _ L R) Hidx).
  cbn [length]. rewrite mk_from_length. rewrite Nat.eqb_refl.
  eexists. split; [reflexivity|]. split; [|cbn; repeat split; auto].
  constructor; cbn; auto.
  - rewrite A4. cbn. intros k hd Hk. by rewrite lookup_empty in Hk.
  - rewrite A4. cbn. intros k hd Hk. by rewrite lookup_empty in Hk.
  - rewrite A7. cbn. by rewrite Hg.
Qed.

End Run.
