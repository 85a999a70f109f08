(** Proofs about the block header cache: the state invariant. *)
From Verif Require Import Base SortProofs PowModel BlockModel BlockSpec.
Open Scope N_scope.

(** Blocks of a list of headers at consecutive heights from [n]. *)
Fixpoint mk_from (n : N) (hs : list header) : list cblock :=
  match hs with
  | [] => []
  | h :: t => mkCB n h :: mk_from (n + 1) t
  end.

Lemma mk_from_length n hs : length (mk_from n hs) = length hs.
Proof. revert n; induction hs as [|h t IH]; intros n; cbn; auto. Qed.

Lemma mk_from_app n l1 l2 :
  mk_from n (l1 ++ l2) = mk_from n l1 ++ mk_from (n + lenN l1) l2.
Proof.
  unfold lenN. revert n; induction l1 as [|h t IH]; intros n; cbn.
  - f_equal. lia.
  - rewrite IH. do 3 f_equal. lia.
Qed.

Lemma mk_from_lookup n hs i :
  mk_from n hs !! i = (fun h => mkCB (n + N.of_nat i) h) <$> hs !! i.
Proof.
  revert n i; induction hs as [|h t IH]; intros n [|i]; cbn; auto.
  - do 2 f_equal. lia.
  - rewrite IH. destruct (t !! i); cbn; auto. do 2 f_equal. lia.
Qed.

Lemma mk_from_take n hs k : take k (mk_from n hs) = mk_from n (take k hs).
Proof. revert n k; induction hs as [|h t IH]; intros n [|k]; cbn; auto. by rewrite IH. Qed.

Lemma mk_from_drop n hs k : (k <= length hs)%nat ->
  drop k (mk_from n hs) = mk_from (n + N.of_nat k) (drop k hs).
Proof.
  revert n k; induction hs as [|h t IH]; intros n [|k] Hk; cbn in *; auto.
  - by replace (n + 0) with n by lia.
  - rewrite IH by lia. f_equal. lia.
Qed.

Lemma mk_from_headers n hs : map cb_header (mk_from n hs) = hs.
Proof. revert n; induction hs as [|h t IH]; intros n; cbn; auto. by rewrite IH. Qed.

Lemma mk_from_elem n hs b : b ∈ mk_from n hs -> cb_header b ∈ hs.
Proof. intros Hb. rewrite <- (mk_from_headers n hs). by apply elem_of_list_fmap_1. Qed.

Lemma mk_from_pairs n hs :
  map (fun b => (cb_height b, cb_header b)) (mk_from n hs) =
  imap (fun i h => (n + N.of_nat i, h)) hs.
Proof.
  revert n; induction hs as [|h t IH]; intros n; cbn; auto. rewrite IH. f_equal.
  - f_equal. lia.
  - apply imap_ext. intros i x _. cbn. f_equal. lia.
Qed.

Lemma ne_last_cons {A} (x y : A) l : ne_last x (y :: l) = ne_last y l.
Proof.
  unfold ne_last. revert x y. induction l as [|a l IH]; intros x y; [reflexivity|].
  change (List.last (a :: l) x = List.last (a :: l) y). by rewrite !IH.
Qed.

Lemma ne_last_app {A} (x : A) l1 l2 y : ne_last x (l1 ++ y :: l2) = ne_last y l2.
Proof.
  revert x. induction l1 as [|a l IH]; intros x; cbn [app]; rewrite ne_last_cons; auto.
Qed.

Lemma branch_work_sum hs : branch_work hs = sum_work hs.
Proof. induction hs as [|h t IH]; cbn; auto. Qed.

Lemma sum_work_app l1 l2 : sum_work (l1 ++ l2) = sum_work l1 + sum_work l2.
Proof. induction l1 as [|h t IH]; cbn; auto. rewrite IH. lia. Qed.

Lemma iter_chain_from i n hs :
  imap (fun j b => (N.of_nat (i + j), cb_header b)) (mk_from n hs) =
  imap (fun j h => (N.of_nat (i + j), h)) hs.
Proof.
  revert n i; induction hs as [|h t IH]; intros n i; cbn; auto. f_equal.
  specialize (IH (n + 1) (S i)).
  replace (imap ((λ (j : nat) (b : cblock), (N.of_nat (i + j), cb_header b)) ∘ S) (mk_from (n + 1) t))
    with (imap (fun j b => (N.of_nat (S i + j), cb_header b)) (mk_from (n+1) t)).
  2:{ apply imap_ext. intros. cbn. f_equal. lia. }
  rewrite IH. apply imap_ext. intros. cbn. f_equal. lia.
Qed.

Section Proofs.
Context (H : header -> N).

Notation linked_from := (linked_from H).
Notation last_hash := (last_hash H).

Lemma linked_app b l1 l2 :
  linked_from b (l1 ++ l2) <-> linked_from b l1 /\ linked_from (last_hash b l1) l2.
Proof.
  revert b; induction l1 as [|h t IH]; intros b; cbn; [tauto|]. rewrite IH. tauto.
Qed.

Lemma last_hash_app b l1 l2 : last_hash b (l1 ++ l2) = last_hash (last_hash b l1) l2.
Proof. unfold BlockSpec.last_hash. by rewrite foldl_app. Qed.

Lemma last_hash_in b l : last_hash b l = b /\ l = [] \/ exists h, h ∈ l /\ H h = last_hash b l.
Proof.
  destruct l as [|h t] using rev_ind; [by left|]. right.
  rewrite last_hash_app. exists h. cbn. split; auto. set_solver.
Qed.

Lemma last_hash_ne_last x l : last_hash (H x) l = H (ne_last x l).
Proof.
  destruct l as [|h t] using rev_ind; cbn; auto.
  rewrite last_hash_app. by rewrite (ne_last_app x t [] h).
Qed.

(** Ranks. *)
Section Ranked.
Context (rank : N -> nat).
Definition rk (h : header) : Prop := (rank (h_prev h) < rank (H h))%nat.

Lemma linked_rank_last b l : linked_from b l -> Forall rk l -> (rank b <= rank (last_hash b l))%nat.
Proof.
  revert b; induction l as [|h t IH]; intros b Hl Hr; [reflexivity|].
  change (last_hash b (h :: t)) with (last_hash (H h) t).
  destruct Hl as [Hp Hl]. inversion Hr as [|?? Hh Ht]; subst. specialize (IH _ Hl Ht).
  unfold rk in Hh. lia.
Qed.

Lemma linked_rank_elem b l h : linked_from b l -> Forall rk l -> h ∈ l ->
  (rank b < rank (H h))%nat /\ (rank (H h) <= rank (last_hash b l))%nat.
Proof.
  intros Hl Hr Hin. apply elem_of_list_split in Hin as (l1 & l2 & ->).
  apply linked_app in Hl as [Hl1 [Hp Hl2]].
  apply Forall_app in Hr as [Hr1 Hr2]. inversion Hr2 as [|?? Hh Ht]; subst.
  pose proof (linked_rank_last _ _ Hl1 Hr1) as A.
  pose proof (linked_rank_last _ _ Hl2 Ht) as B.
  rewrite last_hash_app. change (last_hash ?b (h :: l2)) with (last_hash (H h) l2).
  unfold rk in Hh. rewrite Hp in Hh. split; [lia|exact B].
Qed.

Lemma linked_hash_lt b l i j x y : linked_from b l -> Forall rk l -> (i < j)%nat ->
  l !! i = Some x -> l !! j = Some y -> (rank (H x) < rank (H y))%nat.
Proof.
  intros Hl Hr Hij Hx Hy.
  pose proof (take_drop_middle l i x Hx) as E.
  rewrite <- E in Hl, Hr. apply linked_app in Hl as [_ [_ Hl]].
  apply Forall_app in Hr as [_ Hr]. inversion Hr; subst.
  eapply (proj1 (linked_rank_elem _ _ y Hl ltac:(done) _)).
  Unshelve. apply elem_of_list_lookup. exists (j - S i)%nat. rewrite lookup_drop.
  rewrite <- Hy. f_equal. lia.
Qed.

Lemma linked_hash_nodup x l : linked_from (H x) l -> Forall rk l -> NoDup (map H (x :: l)).
Proof.
  intros Hl Hr. cbn. apply NoDup_cons. split.
  - intros Hin. apply elem_of_list_fmap in Hin as (y & E & Hy).
    pose proof (linked_rank_elem _ _ _ Hl Hr Hy). rewrite E in *. lia.
  - apply NoDup_alt. intros i j h Hi Hj. change (map H l) with (H <$> l) in *.
    rewrite list_lookup_fmap in Hi, Hj.
    destruct (l !! i) as [a|] eqn:Ea; [|done]. destruct (l !! j) as [b|] eqn:Eb; [|done].
    cbn in *. injection Hi as Hi. injection Hj as Hj.
    destruct (decide (i < j)%nat) as [L|]; [pose proof (linked_hash_lt _ _ _ _ _ _ Hl Hr L Ea Eb); subst; rewrite <- Hj in *; lia|].
    destruct (decide (j < i)%nat) as [L|]; [pose proof (linked_hash_lt _ _ _ _ _ _ Hl Hr L Eb Ea); subst; rewrite <- Hj in *; lia|]. lia.
Qed.

Lemma nodup_hash_inj (l : list header) i j x y :
  NoDup (map H l) -> l !! i = Some x -> l !! j = Some y -> H x = H y -> i = j.
Proof.
  intros Hn Hx Hy E. eapply NoDup_lookup; [apply Hn| |].
  - change (map H l) with (H <$> l). by rewrite list_lookup_fmap, Hx.
  - change (map H l) with (H <$> l). rewrite list_lookup_fmap, Hy. cbn. by rewrite E.
Qed.

Context (g : header).

(** The state invariant; [tl] is the active chain above genesis. *)
Record INV (c : cache) (tl : list header) : Prop := {
  i_head : c_head c = mkCB 0 g;
  i_tail : c_tail c = mk_from 1 tl;
  i_linked : linked_from (H g) tl;
  i_rk : Forall rk tl;
  i_index : forall k h, c_index c !! k = Some h <->
              exists hd, (g :: tl) !! N.to_nat h = Some hd /\ H hd = k;
  i_orph : forall k hd, c_orphans c !! k = Some hd -> H hd = k /\ rk hd;
  i_disj : forall k hd, c_orphans c !! k = Some hd -> c_index c !! k = None;
  i_work : c_chainwork c = sum_work (g :: tl);
  i_sg : s_genesis (c_store c) = g;
}.

Definition same_cfg (c c' : cache) : Prop :=
  c_params c' = c_params c /\ c_checkpoints c' = c_checkpoints c.

Lemma same_cfg_refl c : same_cfg c c.
Proof. by split. Qed.
Lemma same_cfg_trans a b c : same_cfg a b -> same_cfg b c -> same_cfg a c.
Proof. unfold same_cfg. intros [] []. split; congruence. Qed.

Section Facts.
Context (c : cache) (tl : list header) (I : INV c tl).

Lemma inv_chain : c_chain c = mk_from 0 (g :: tl).
Proof. unfold c_chain. rewrite (i_head _ _ I), (i_tail _ _ I). reflexivity. Qed.

Lemma inv_nodup : NoDup (map H (g :: tl)).
Proof. apply linked_hash_nodup; apply I. Qed.

Lemma inv_last : c_last c = mkCB (lenN tl) (ne_last g tl).
Proof.
  unfold c_last. rewrite (i_head _ _ I), (i_tail _ _ I).
  destruct tl as [|x t] using rev_ind; [reflexivity|].
  rewrite mk_from_app. cbn. rewrite !ne_last_app. unfold ne_last. cbn.
  f_equal. unfold lenN. rewrite app_length. cbn. lia.
Qed.

Lemma inv_height : c_height c = lenN tl.
Proof. unfold c_height. by rewrite inv_last. Qed.

Lemma inv_tip_hash : cb_hash H (c_last c) = last_hash (H g) tl.
Proof. rewrite inv_last. unfold cb_hash. cbn. by rewrite last_hash_ne_last. Qed.

Lemma inv_get_by_height h : get_block_by_height c h = (g :: tl) !! N.to_nat h.
Proof.
  unfold get_block_by_height, get_by_height. rewrite inv_chain, mk_from_lookup.
  destruct ((g :: tl) !! N.to_nat h); reflexivity.
Qed.

Lemma inv_get_block k h hd : get_block c k = Some (h, hd) <->
  (g :: tl) !! N.to_nat h = Some hd /\ H hd = k.
Proof.
  unfold get_block. split.
  - intros E. destruct (c_index c !! k) as [h'|] eqn:Ei; [|done]. cbn in E.
    apply (i_index _ _ I) in Ei as (hd' & Hl & Hk).
    rewrite inv_chain, mk_from_lookup, Hl in E. cbn in E. injection E as E1 E2. subst.
    rewrite <- Hl. split; [|done]. f_equal. lia.
  - intros [Hl Hk]. assert (c_index c !! k = Some h) as -> by (apply (i_index _ _ I); eauto).
    cbn. rewrite inv_chain, mk_from_lookup, Hl. cbn. do 2 f_equal. lia.
Qed.

Lemma inv_get_block_none k : get_block c k = None <-> c_index c !! k = None.
Proof.
  split.
  - intros E. destruct (c_index c !! k) as [h|] eqn:Ei; [|done].
    apply (i_index _ _ I) in Ei as (hd & Hl & Hk).
    assert (get_block c k = Some (h, hd)) by (apply inv_get_block; auto). congruence.
  - intros E. unfold get_block. by rewrite E.
Qed.

Lemma inv_contains k : contains c k = true <-> exists hd, hd ∈ g :: tl /\ H hd = k.
Proof.
  unfold contains. rewrite bool_decide_eq_true. split.
  - intros [h E]. apply (i_index _ _ I) in E as (hd & Hl & Hk). exists hd. split; auto.
    by eapply elem_of_list_lookup_2.
  - intros (hd & Hin & Hk). apply elem_of_list_lookup in Hin as [i Hi].
    exists (N.of_nat i). apply (i_index _ _ I). exists hd. by rewrite Nat2N.id.
Qed.

Lemma inv_iter : c_iter c = imap (fun i h => (N.of_nat i, h)) (g :: tl).
Proof. unfold c_iter, iter_chain. rewrite inv_chain. apply (iter_chain_from 0). Qed.

Lemma inv_active : active c = g :: tl.
Proof.
  unfold active. rewrite inv_iter. change (map snd) with (fmap (M:=list) (@snd N header)).
  rewrite fmap_imap. apply list_eq. intros i. rewrite list_lookup_imap.
  by destruct ((g :: tl) !! i).
Qed.

Lemma inv_genesis : c_genesis c = g.
Proof. unfold c_genesis. by rewrite (i_head _ _ I). Qed.
End Facts.


(** * The ancestor walk *)

(** [path] is a chain of stale headers of [o] from [base] (excluded) to the
    block with hash [tip] (included). *)
Definition opath (o : gmap N header) (base : N) (path : list header) (tip : N) : Prop :=
  linked_from base path /\ last_hash base path = tip /\
  Forall (fun h => o !! H h = Some h) path.

Definition orph_ok (o : gmap N header) : Prop :=
  forall k hd, o !! k = Some hd -> H hd = k /\ rk hd.

Lemma walk_sound fuel o cur acc base path : orph_ok o ->
  walk fuel o cur acc = Val (base, path) ->
  exists p, path = p ++ acc /\ opath o base p cur /\ o !! base = None.
Proof.
  intros Ho. revert cur acc. induction fuel as [|f IH]; intros cur acc E; cbn in E; [done|].
  destruct (o !! cur) as [hd|] eqn:Ec.
  - apply IH in E as (p & -> & (Hl & Hla & Hf) & Hb). exists (p ++ [hd]).
    destruct (Ho _ _ Ec) as [Hk _]. split; [by rewrite <- app_assoc|]. split; [|done].
    split; [apply linked_app; split; [done|]; split; [by rewrite Hla|done]|].
    split; [by rewrite last_hash_app|]. apply Forall_app. split; [done|].
    constructor; [|done]. by rewrite Hk.
  - injection E as <- <-. exists []. split; [done|]. split; [|done]. by repeat constructor.
Qed.

Lemma walk_complete fuel o cur acc base p : opath o base p cur -> o !! base = None ->
  (length p < fuel)%nat -> walk fuel o cur acc = Val (base, p ++ acc).
Proof.
  revert cur acc p. induction fuel as [|f IH]; intros cur acc p (Hl & Hla & Hf) Hb Hlen; [lia|].
  destruct p as [|h p] using rev_ind.
  - cbn in Hla. subst. cbn. by rewrite Hb.
  - clear IHp. apply linked_app in Hl as [Hl [Hp _]]. apply Forall_app in Hf as [Hf Hh].
    inversion Hh as [|?? Hk _]; subst. rewrite last_hash_app. cbn. rewrite Hk.
    rewrite app_length in Hlen. cbn in Hlen.
    rewrite (IH (h_prev h) (h :: acc) p); [by rewrite <- app_assoc| | |]; auto; [|lia].
    split; [done|]. split; [by rewrite Hp|done].
Qed.

Definition below (o : gmap N header) (r : nat) : gmap N header :=
  filter (fun kv : N * header => (rank kv.1 <= r)%nat) o.

Lemma below_decr o cur hd : orph_ok o -> o !! cur = Some hd ->
  (size (below o (rank (h_prev hd))) < size (below o (rank cur)))%nat.
Proof.
  intros Ho E. destruct (Ho _ _ E) as [Hk Hr]. unfold rk in Hr. rewrite Hk in Hr.
  rewrite <- !(size_dom (D:=gset N)). apply subset_size. split.
  - intros k Hx. apply elem_of_dom in Hx as [x Hx]. apply elem_of_dom. exists x. unfold below in *.
    apply map_filter_lookup_Some in Hx as [Hx Hle]. cbn in Hle.
    apply map_filter_lookup_Some. split; [done|]. cbn. lia.
  - intros Hs. assert (cur ∈ dom (below o (rank cur))) as Hc.
    { apply elem_of_dom. exists hd. unfold below. apply map_filter_lookup_Some. split; [done|]. cbn. lia. }
    apply Hs, elem_of_dom in Hc as [x Hx]. apply map_filter_lookup_Some in Hx as [_ Hx]. cbn in Hx. lia.
Qed.

Lemma walk_total fuel o cur acc : orph_ok o ->
  (size (below o (rank cur)) < fuel)%nat -> exists r, walk fuel o cur acc = Val r.
Proof.
  intros Ho. revert cur acc. induction fuel as [|f IH]; intros cur acc Hs; [lia|].
  cbn. destruct (o !! cur) as [hd|] eqn:E; [|eauto].
  apply IH. pose proof (below_decr _ _ _ Ho E). lia.
Qed.

Lemma below_size o r : (size (below o r) <= size o)%nat.
Proof.
  rewrite <- !(size_dom (D:=gset N)). apply subseteq_size. intros k Hx.
  apply elem_of_dom in Hx as [x Hx]. apply map_filter_lookup_Some in Hx as [Hx _].
  apply elem_of_dom. eauto.
Qed.

Lemma walk_val o cur acc : orph_ok o -> exists r, walk (S (size o)) o cur acc = Val r.
Proof. intros Ho. apply walk_total; [done|]. pose proof (below_size o (rank cur)). lia. Qed.

Lemma opath_length o base p tip : orph_ok o -> opath o base p tip -> (length p <= size o)%nat.
Proof.
  intros Ho (Hl & _ & Hf).
  assert (Forall rk p) as Hr.
  { eapply Forall_impl; [exact Hf|]. cbn. intros h Hh. by apply Ho in Hh as [_ ?]. }
  assert (NoDup (map H p)) as Hn.
  { apply NoDup_alt. intros i j k Hi Hj. change (map H p) with (H <$> p) in *.
    rewrite list_lookup_fmap in Hi, Hj.
    destruct (p !! i) as [a|] eqn:Ea; [|done]. destruct (p !! j) as [b|] eqn:Eb; [|done].
    cbn in *. injection Hi as Hi. injection Hj as Hj.
    destruct (decide (i < j)%nat) as [L|]; [pose proof (linked_hash_lt _ _ _ _ _ _ Hl Hr L Ea Eb); subst; rewrite <- Hj in *; lia|].
    destruct (decide (j < i)%nat) as [L|]; [pose proof (linked_hash_lt _ _ _ _ _ _ Hl Hr L Eb Ea); subst; rewrite <- Hj in *; lia|]. lia. }
  rewrite <- (map_length H), <- (size_list_to_set (C:=gset N) (map H p)) by done.
  rewrite <- (size_dom (D:=gset N)). apply subseteq_size. intros k Hk.
  apply elem_of_list_to_set, elem_of_list_fmap in Hk as (h & -> & Hh).
  apply elem_of_dom. exists h. rewrite Forall_forall in Hf. by apply Hf.
Qed.

Lemma opath_unique o b1 p1 b2 p2 tip : orph_ok o ->
  opath o b1 p1 tip -> opath o b2 p2 tip -> o !! b1 = None -> o !! b2 = None ->
  b1 = b2 /\ p1 = p2.
Proof.
  intros Ho P1 P2 N1 N2.
  pose proof (opath_length _ _ _ _ Ho P1). pose proof (opath_length _ _ _ _ Ho P2).
  pose proof (walk_complete (S (size o)) o tip [] _ _ P1 N1 ltac:(lia)) as W1.
  pose proof (walk_complete (S (size o)) o tip [] _ _ P2 N2 ltac:(lia)) as W2.
  rewrite !app_nil_r in *. rewrite W1 in W2. by injection W2.
Qed.

(** * Validation does not panic *)

Lemma median_val chain h : h <> 0 -> exists t, median_time_past chain h = Val t.
Proof.
  intros Hh. unfold median_time_past, assertM.
  destruct (negb (h =? 0)) eqn:E; [|lia].
  unfold range_blocks, assertM. unfold MEDIAN_TIME_SPAN.
  destruct (h - 11 <=? h) eqn:E2; [|lia]. cbn [mbind_M].
  set (ts := map _ _). assert (length ts <= N.to_nat (h - (h - 11)))%nat.
  { unfold ts. rewrite map_length, take_length. lia. }
  match goal with |- context [?l !! (length ?l / 2)%nat] => destruct (l !! (length l / 2)%nat) eqn:E3 end; [eauto|].
  apply lookup_ge_None in E3. rewrite sortN_length, app_length, replicate_length in E3.
  set (n := (length ts + _)%nat) in *. assert (0 < n)%nat by lia.
  pose proof (Nat.div_lt n 2 ltac:(lia) ltac:(lia)). lia.
Qed.

Lemma adj_interval_pos ps : params_ok ps -> 0 < adj_interval ps /\ 0 < p_spacing ps.
Proof.
  intros [A B]. split; [|done]. unfold adj_interval.
  apply N.div_str_pos. lia.
Qed.

Lemma next_difficulty_val ps get gg a b t : params_ok ps ->
  exists r, next_difficulty_target ps get gg a b t = Val r.
Proof.
  intros Hp. destruct (adj_interval_pos _ Hp) as [A B]. unfold next_difficulty_target.
  destruct (p_spacing ps =? 0) eqn:E1; [lia|]. destruct (adj_interval ps =? 0) eqn:E2; [lia|].
  destruct (negb _); [eauto|]. destruct (p_no_retarget ps); eauto.
Qed.

Lemma required_bits_val ps chain gg tip hd : params_ok ps ->
  exists r, required_bits ps chain gg tip hd = Val r.
Proof.
  intros Hp. destruct (adj_interval_pos _ Hp) as [A B]. unfold required_bits.
  destruct (p_spacing ps =? 0) eqn:E1; [lia|]. destruct (adj_interval ps =? 0) eqn:E2; [lia|].
  cbn [orb]. rewrite andb_false_r.
  destruct (p_allow_min ps && _); [destruct (_ <? _); eauto|].
  by apply next_difficulty_val.
Qed.

Lemma validate_val ps cps chain gg tip hd now : params_ok ps -> cb_hash H tip = h_prev hd ->
  exists r, validate H ps cps chain gg tip hd now = Val r.
Proof.
  intros Hp Hl. unfold validate, assertM. rewrite Hl, N.eqb_refl.
  destruct (required_bits_val ps chain gg tip hd Hp) as [r ->]. cbn [mbind_M].
  destruct (validate_pow _ _ _) as [[]|]; eauto.
  match goal with |- context [if ?b then _ else _] => destruct b end; [eauto|].
  destruct (median_val chain (cb_height tip + 1) ltac:(lia)) as [t ->]. cbn [mbind_M].
  destruct (_ <=? t); eauto. destruct (_ <? _); eauto.
Qed.

Lemma validate_headers_val c tip hds now : params_ok (c_params c) ->
  linked_from (cb_hash H tip) hds -> exists r, validate_headers H c tip hds now = Val r.
Proof.
  intros Hp. revert tip. induction hds as [|hd hds IH]; intros tip Hl; cbn; [eauto|].
  destruct Hl as [Hl1 Hl2].
  destruct (validate_val (c_params c) (c_checkpoints c) (c_chain c) (c_genesis c) tip hd now Hp
              (eq_sym Hl1)) as [r E].
  unfold c_validate. rewrite E. cbn [mbind_M]. destruct r; [eauto|]. by apply IH.
Qed.

(** * Fork lookup and candidates *)

(** A branch of stale headers [cd_headers] from the active block at
    [cd_fork_height]. *)
Definition is_branch (c : cache) (tl : list header) (cd : candidate) : Prop :=
  (g :: tl) !! N.to_nat (cd_fork_height cd) = Some (cd_fork_header cd) /\
  cd_headers cd <> [] /\
  opath (c_orphans c) (H (cd_fork_header cd)) (cd_headers cd) (cd_tip cd).

Lemma fork_spec c tl tip : INV c tl -> c_index c !! tip = None ->
  (c_orphans c !! tip <> None ->
   exists r, fork c tip = Val r /\
     match r with
     | Some cd => is_branch c tl cd /\ cd_tip cd = tip
     | None => forall cd, is_branch c tl cd -> cd_tip cd <> tip
     end) /\
  (c_orphans c !! tip = None -> fork c tip = Val None).
Proof.
  intros I Hn.
  assert (contains c tip = false) as Hc.
  { unfold contains. rewrite Hn. apply bool_decide_eq_false. by intros []. }
  unfold fork, assertM. rewrite Hc. cbn [negb].
  assert (orph_ok (c_orphans c)) as Ho by (intros k hd; apply I).
  split.
  - intros Hin. destruct (walk_val (c_orphans c) tip [] Ho) as [[cur hds] E]. rewrite E. cbn [mbind_M].
    pose proof E as E'. apply walk_sound in E' as (p & -> & Hp & Hb); [|done]. rewrite app_nil_r in *.
    destruct (get_block c cur) as [[fh fhd]|] eqn:Eg.
    + apply (inv_get_block _ _ I) in Eg as [Eg Ek].
      destruct p as [|x p].
      { destruct Hp as (_ & Ht & _). cbn in Ht. subst. congruence. }
      eexists. split; [reflexivity|]. split; [|reflexivity]. unfold is_branch. cbn. split; [done|]. split; [done|].
      by rewrite Ek.
    + eexists. split; [reflexivity|]. intros cd (B1 & B2 & B3) <-.
      assert (c_orphans c !! H (cd_fork_header cd) = None) as Nb.
      { destruct (c_orphans c !! H (cd_fork_header cd)) eqn:Eo; [|done].
        apply (i_disj _ _ I) in Eo.
        assert (c_index c !! H (cd_fork_header cd) = Some (cd_fork_height cd)) by (apply (i_index _ _ I); eauto).
        congruence. }
      destruct (opath_unique _ _ _ _ _ _ Ho Hp B3 Hb Nb) as [-> _].
      apply (inv_get_block_none _ _ I) in Eg.
      assert (c_index c !! H (cd_fork_header cd) = Some (cd_fork_height cd)) by (apply (i_index _ _ I); eauto).
      congruence.
  - intros Hin. cbn [walk]. rewrite Hin. cbn [mbind_M].
    apply (inv_get_block_none _ _ I) in Hn. by rewrite Hn.
Qed.

Lemma branch_unique c tl cd1 cd2 : INV c tl -> is_branch c tl cd1 -> is_branch c tl cd2 ->
  cd_tip cd1 = cd_tip cd2 -> cd1 = cd2.
Proof.
  intros I (A1 & A2 & A3) (B1 & B2 & B3) E.
  assert (orph_ok (c_orphans c)) as Ho by (intros k hd; apply I).
  assert (forall cd, (g :: tl) !! N.to_nat (cd_fork_height cd) = Some (cd_fork_header cd) ->
    c_orphans c !! H (cd_fork_header cd) = None) as Nb.
  { intros cd Hcd. destruct (c_orphans c !! H (cd_fork_header cd)) eqn:Eo; [|done].
    apply (i_disj _ _ I) in Eo.
    assert (c_index c !! H (cd_fork_header cd) = Some (cd_fork_height cd)) by (apply (i_index _ _ I); eauto).
    congruence. }
  rewrite E in A3. destruct (opath_unique _ _ _ _ _ _ Ho A3 B3 (Nb _ A1) (Nb _ B1)) as [Eh Ep].
  destruct cd1, cd2; cbn in *. subst.
  assert (N.to_nat cd_fork_height = N.to_nat cd_fork_height0) as En.
  { eapply nodup_hash_inj; [apply (inv_nodup _ _ I)| | |]; eauto. }
  assert (cd_fork_height = cd_fork_height0) by lia. subst.
  f_equal; [congruence..].
Qed.

Lemma fork_total c tl t cd : INV c tl -> is_branch c tl cd -> cd_tip cd = t ->
  fork c t = Val (Some cd).
Proof.
  intros I B <-.
  assert (c_orphans c !! cd_tip cd <> None) as Ho.
  { destruct B as (B1 & B2 & (B3 & B4 & B5)).
    destruct (last_hash_in (H (cd_fork_header cd)) (cd_headers cd)) as [[_ ?]|(h & Hh & E)]; [done|].
    rewrite <- B4, <- E. rewrite Forall_forall in B5. by rewrite (B5 h Hh). }
  assert (c_index c !! cd_tip cd = None) as Hi.
  { destruct (c_orphans c !! cd_tip cd) eqn:E; [|done]. by apply (i_disj _ _ I) in E. }
  destruct (proj1 (fork_spec _ _ _ I Hi) Ho) as (r & E & Hr). rewrite E. destruct r as [cd'|].
  - destruct Hr as [B' Et]. by rewrite (branch_unique _ _ _ _ I B' B Et).
  - exfalso. eapply Hr; eauto.
Qed.

(** A branch passes validation in state [c]. *)
Definition branch_valid (c : cache) (now : N) (cd : candidate) : Prop :=
  validate_branch H c cd now = Val None.

Lemma candidates_spec c tl tips now : INV c tl -> params_ok (c_params c) ->
  Forall (fun t => c_orphans c !! t <> None) tips ->
  exists cds, candidates_of H c tips now = Val cds /\
    forall cd, cd ∈ cds <-> is_branch c tl cd /\ branch_valid c now cd /\ cd_tip cd ∈ tips.
Proof.
  intros I Hp. induction tips as [|t tips IH]; intros Hf; cbn [candidates_of].
  { exists []. split; [done|]. intros cd. set_solver. }
  inversion Hf as [|?? Ht Hf']; subst. destruct (IH Hf') as (cds & E & Hcds).
  assert (c_index c !! t = None) as Hi.
  { destruct (c_orphans c !! t) eqn:Et; [|done]. by apply (i_disj _ _ I) in Et. }
  destruct (proj1 (fork_spec _ _ _ I Hi) Ht) as (r & Ef & Hr). rewrite Ef. cbn [mbind_M].
  destruct r as [cd0|].
  - destruct Hr as [B Et]. unfold validate_branch.
    destruct (validate_headers_val c (mkCB (cd_fork_height cd0) (cd_fork_header cd0)) (cd_headers cd0) now Hp) as [v Ev].
    { unfold cb_hash. cbn. apply B. }
    rewrite Ev. cbn [mbind_M]. rewrite E. cbn [mbind_M].
    destruct v as [e|].
    + eexists. split; [reflexivity|]. intros cd. rewrite Hcds. split.
      * intros (A1 & A2 & A3). repeat split; try apply A1; auto. set_solver.
      * intros (A1 & A2 & A3). split; [done|]. split; [done|].
        apply elem_of_cons in A3 as [A3|A3]; [|done].
        rewrite <- Et in A3. pose proof (branch_unique _ _ _ _ I A1 B A3). subst.
        unfold branch_valid, validate_branch in A2. congruence.
    + eexists. split; [reflexivity|]. intros cd. rewrite elem_of_cons, Hcds. split.
      * intros [->|(A1 & A2 & A3)]; [|set_solver].
        split; [done|]. split; [done|]. set_solver.
      * intros (A1 & A2 & A3). apply elem_of_cons in A3 as [A3|A3]; [|set_solver].
        left. eapply branch_unique; eauto. congruence.
  - eexists. split; [exact E|]. intros cd. rewrite Hcds. split.
    + intros (A1 & A2 & A3). repeat split; try apply A1; auto. set_solver.
    + intros (A1 & A2 & A3). split; [done|]. split; [done|].
      apply elem_of_cons in A3 as [A3|A3]; [|done]. by apply Hr in A1.
Qed.

Lemma chain_candidates_spec c tl ch now : INV c tl -> params_ok (c_params c) -> fair_choice ch ->
  exists cds, chain_candidates H c ch now = Val cds /\
    forall cd, cd ∈ cds <-> is_branch c tl cd /\ branch_valid c now cd.
Proof.
  intros I Hp Hf. unfold chain_candidates.
  destruct (candidates_spec c tl (ch_perm ch (map_to_list (c_orphans c)).*1) now I Hp) as (cds & E & Hc).
  { apply Forall_forall. intros t Ht. rewrite (Hf _) in Ht.
    apply elem_of_list_fmap in Ht as ([k x] & -> & Hx). apply elem_of_map_to_list in Hx. cbn. congruence. }
  exists cds. split; [done|]. intros cd. rewrite Hc. split; [tauto|]. intros [A B]. split; [done|]. split; [done|].
  rewrite (Hf _). destruct A as (B1 & B2 & (B3 & B4 & B5)).
  destruct (last_hash_in (H (cd_fork_header cd)) (cd_headers cd)) as [[_ ?]|(h & Hh & E')]; [done|].
  rewrite Forall_forall in B5. pose proof (B5 h Hh) as Eh. rewrite E', B4 in Eh.
  apply elem_of_list_fmap. exists (cd_tip cd, h). split; [done|]. by apply elem_of_map_to_list.
Qed.

End Ranked.
End Proofs.

Arguments inv_chain {H rank g c tl} I.
Arguments inv_nodup {H rank g c tl} I.
Arguments inv_last {H rank g c tl} I.
Arguments inv_height {H rank g c tl} I.
Arguments inv_tip_hash {H rank g c tl} I.
Arguments inv_get_by_height {H rank g c tl} I.
Arguments inv_get_block {H rank g c tl} I.
Arguments inv_get_block_none {H rank g c tl} I.
Arguments inv_contains {H rank g c tl} I.
Arguments inv_iter {H rank g c tl} I.
Arguments inv_active {H rank g c tl} I.
Arguments inv_genesis {H rank g c tl} I.
Arguments i_head {H rank g c tl}.
Arguments i_tail {H rank g c tl}.
Arguments i_linked {H rank g c tl}.
Arguments i_rk {H rank g c tl}.
Arguments i_index {H rank g c tl}.
Arguments i_orph {H rank g c tl}.
Arguments i_disj {H rank g c tl}.
Arguments i_work {H rank g c tl}.
Arguments i_sg {H rank g c tl}.
