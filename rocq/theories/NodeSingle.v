(** Headers that come one at a time: every change of the chain is reported
    exactly. *)
From Coq Require Import Sorting.Sorted.
From stdpp Require Import sorting.
From Verif Require Import Base PowModel BlockModel BlockSpec BlockProofs BlockOps BlockImport BlockRun BlockMain UtilModel FeeModel AddrModel PeerModel
  DispModel DispSpec DispProofs LoadModel NodeModel NodeSpec NodeProofs.
From Verif Require SyncModel CbfModel CbfSpec.
Open Scope N_scope.

Section Single.
Context (H : header -> N) (ng : network -> N) (st : store) (ps : params) (cps : list (N * N)) (Hps : params_ok ps).
Notation g := (s_genesis st).

Lemma tree_inv rank c tl : INV H rank g c tl -> tree_of H c = CbfModel.Tree (H g) (map H tl) (max_checkpoint (c_checkpoints c)).
Proof.
  intros I. unfold tree_of. rewrite (i_head I). f_equal. rewrite (i_tail I).
  generalize 1 at 1. induction tl as [|x tl' IH] in |- *; intros n; cbn; [done|]. by rewrite IH.
Qed.

Definition desc (a b : N) : Prop := b < a.
Global Instance desc_antisymm : AntiSymm (=) desc.
Proof. intros a b. unfold desc. lia. Qed.

Lemma desc_seq n m : StronglySorted desc (N.of_nat <$> reverse (seq n m)).
Proof.
  revert n. induction m as [|m IH]; intros n; [constructor|]. rewrite seq_S, reverse_app. cbn. constructor; [apply IH|].
  apply Forall_forall. intros x Hx. apply elem_of_list_fmap in Hx as (y & -> & Hy). apply elem_of_reverse, elem_of_seq in Hy. unfold desc. lia.
Qed.
Lemma desc_nodup l : StronglySorted desc l -> NoDup l.
Proof.
  induction 1 as [|a l S IH F]; [constructor|]. constructor; [|done]. intros Ha. rewrite Forall_forall in F. specialize (F _ Ha). unfold desc in F. lia.
Qed.
Lemma desc_fst {A} (l : list (N * A)) : StronglySorted (fun p q => q.1 < p.1) l -> StronglySorted desc l.*1.
Proof.
  induction 1 as [|a l S IH F]; cbn; [constructor|]. constructor; [done|]. apply Forall_fmap. eapply Forall_impl; [exact F|]. done.
Qed.
Lemma desc_unique l l' : StronglySorted desc l -> StronglySorted desc l' -> (forall x, x ∈ l <-> x ∈ l') -> l = l'.
Proof.
  intros S S' E. apply (StronglySorted_unique desc); [done|done|]. apply NoDup_Permutation; [by apply desc_nodup|by apply desc_nodup|done].
Qed.

Lemma single_reorganises hist c hd ch now c' tip k h rv cn :
  transition H ng st ps cps hist c (OImport [(hd, ch)] now) c' (Ok (TipChanged tip k h rv cn)) ->
  CbfSpec.reorganises (tree_of H c) (tree_of H c') rv.*1.
Proof.
  intros T. destruct (one_import H ng st ps cps Hps _ _ _ _ _ _ _ T) as (rank & tl & tl' & r0 & I & I' & Ep & Ep' & E & O & M).
  destruct r0 as [[tip0 k0 ht0 rv0 cn0|]|e0]; [|done|by destruct e0]. destruct M as (rv' & cn' & [= -> -> -> -> ->] & (Sr & _ & Hr & _)).
  destruct (import_tip_changed H rank g _ _ _ _ _ _ _ _ _ _ _ _ I O) as (cd & Hbr & Etl & Hne & Hfit & _). unfold fits in Hfit.
  rewrite (tree_inv rank c tl I), (tree_inv rank c' tl' I'). split; [done|]. cbn [CbfModel.tr_chain].
  set (n := N.to_nat (cd_fork_height cd)) in *. exists n, (map H (cd_headers cd)). rewrite !map_length.
  split; [lia|]. split; [rewrite Etl; unfold switched; rewrite map_app; f_equal; symmetry; apply (firstn_map H)|].
  apply desc_unique; [by apply desc_fst|apply desc_seq|]. intros h1. rewrite elem_of_list_fmap. setoid_rewrite elem_of_list_fmap.
  assert (Hun : is_known c (H hd) = false).
  { inversion O; subst; match goal with X : entered _ _ _ _ _ _ |- _ => apply X end. }
  assert (Hnew : forall x, x ∈ g :: tl -> x ∉ cd_headers cd).
  { intros x Hin Hx. assert (contains c (H x) = true) as Hcon by (apply (inv_contains I); by exists x).
    destruct Hbr as (_ & _ & _ & _ & Hf). rewrite Forall_forall in Hf. specialize (Hf x Hx). cbn [with_orphan c_orphans] in Hf.
    destruct (decide (H hd = H x)) as [Eh|Eh].
    - unfold is_known in Hun. rewrite Eh, Hcon in Hun. done.
    - rewrite lookup_insert_ne in Hf by done. apply (i_disj I) in Hf. unfold contains in Hcon. rewrite Hf in Hcon.
      apply bool_decide_eq_true in Hcon as [? ?]. done. }
  assert (ND : NoDup (g :: tl)).
  { pose proof (inv_nodup I) as ND. change (map H) with (fmap H : list header -> list N) in ND. by eapply NoDup_fmap_1. }
  split.
  - intros ([h2 x] & -> & Hx). apply Hr in Hx as [Ha Hnin]. cbn [fst]. exists (N.to_nat h2). split; [lia|].
    apply elem_of_reverse, elem_of_seq. pose proof (lookup_lt_Some _ _ _ Ha) as Hlt. cbn [length] in Hlt.
    destruct (decide (N.to_nat h2 <= n)%nat) as [Hle|]; [|lia]. exfalso. apply Hnin. apply elem_of_cons.
    destruct (N.to_nat h2) as [|j]; [left; cbn in Ha; congruence|]. right. cbn in Ha. rewrite Etl. unfold switched. apply elem_of_app. left.
    apply (elem_of_list_lookup_2 _ j). rewrite lookup_take by lia. done.
  - intros (j & -> & Hj). apply elem_of_reverse, elem_of_seq in Hj. destruct ((g :: tl) !! j) as [x|] eqn:Ex.
    2: { apply lookup_ge_None in Ex. cbn [length] in Ex. lia. }
    exists (N.of_nat j, x). split; [done|]. apply Hr. rewrite Nat2N.id. split; [done|].
    rewrite Etl. unfold switched. rewrite elem_of_cons, elem_of_app. intros [->|[Hx|Hx]].
    + assert (j = 0%nat) by (eapply NoDup_lookup; [exact ND|exact Ex|done]). lia.
    + apply elem_of_list_lookup in Hx as [i Hi]. apply lookup_take_Some in Hi as [Hi Hlt].
      assert (j = S i) by (eapply NoDup_lookup; [exact ND|exact Ex|done]). lia.
    + eapply Hnew; [|exact Hx]. by eapply elem_of_list_lookup_2.
Qed.

Lemma tree_active hist c o c' r : transition H ng st ps cps hist c o c' r -> active c' = active c -> tree_of H c' = tree_of H c.
Proof.
  intros T E. destruct (trans_inv H ng st ps cps Hps _ _ _ _ _ T) as (rank & tl & tl' & I & I' & _ & [_ Ec] & _).
  rewrite (inv_active I), (inv_active I') in E. injection E as ->. by rewrite (tree_inv rank c tl I), (tree_inv rank c' tl I'), Ec.
Qed.

Lemma single_same hist c hds now c' r : transition H ng st ps cps hist c (OImport hds now) c' r -> (length hds <= 1)%nat -> io_ok [OImport hds now] ->
  match r with Ok (TipChanged _ _ _ _ _) => True | _ => tree_of H c' = tree_of H c end.
Proof.
  intros T L Hio. destruct r as [[|]|e]; [done|..].
  - eapply tree_active; [exact T|]. exact (batch_report_facts H ng st ps cps Hps _ _ _ _ _ _ T).
  - destruct hds as [|[hd ch] [|? ?]]; [| |cbn in L; lia].
    + pose proof (t_step _ _ _ _ _ _ _ _ _ _ T) as E. cbn [step] in E. unfold import_blocks in E. cbn in E. by injection E as -> _.
    + eapply tree_active; [exact T|]. apply (failed_import H ng st ps cps Hps _ _ _ _ _ _ _ T Hio).
Qed.

Context (scf : SyncModel.sconf) (P : CbfModel.params) (cap : N) (sock : N -> sockaddr) (env : nat -> nenv) (magic : N) (c0 : cache).
Context (E0 : from_store H ng st ps cps = Val (Ok c0)) (L0 : linked_from H (H (s_genesis st)) (s_tail st)).
Context (Fenv : fair_node env) (Io : block_io env).
Notation io := (DispModel.io nmsg nev).

Lemma single_step_reported o s hs s' t : NI H scf P cap c0 hs (f_state s) -> bounded H st (hs ++ headers_of o) -> presents o = true ->
  lenN (headers_of o) <= 1 -> node_step H scf P sock env magic o s = Val (s', t) -> reported H s s' t.
Proof.
  intros Ni B Pr L E. destruct (import_step H ng scf P cap sock env magic st ps cps c0 Hps E0 L0 Fenv o s hs Ni B Pr) as (s1 & l & t1 & E1 & T1 & Ni' & Ec & Eb & O).
  unfold nstep in E1. rewrite E in E1. injection E1 as <- ->.
  assert (Q : forall b k h rv cn, FQueued CSync (IoEvent (EvSync (SyncModel.SoImported b k h rv cn))) ∈ fqueued l ++ t1 <->
      (CSync, IoEvent (EvSync (SyncModel.SoImported b k h rv cn))) ∈ l).
  { intros b k h rv cn. rewrite elem_of_app. unfold fqueued. rewrite elem_of_list_fmap. split.
    - intros [([c x] & [= <- <-] & Hx)|Hx]; [done|by apply T1 in Hx].
    - intros Hx. left. eexists. split; [|exact Hx]. done. }
  set (w := with_choices env (f_state s) (headers_of o)) in *.
  assert (Lw : (length w <= 1)%nat). { unfold w, with_choices. rewrite imap_length. unfold lenN in L. lia. }
  assert (Iw : forall now, io_ok [OImport w now]).
  { intros now. unfold io_ok, inputs. cbn. rewrite app_nil_r. apply Forall_forall. intros [hd ch] Hx. apply elem_of_list_lookup in Hx as [i Hi].
    unfold w, with_choices in Hi. rewrite list_lookup_imap in Hi. destruct (headers_of o !! i); [|done]. injection Hi as <- <-. apply Io. }
  assert (Nc : Forall calm l -> forall b k h rv cn, (CSync, IoEvent (EvSync (SyncModel.SoImported b k h rv cn))) ∉ l).
  { intros F b k h rv cn Hx. rewrite Forall_forall in F. by destruct (F _ Hx). }
  destruct O as [[C F]|(hist & now & r & T & O)].
  { split; [intros b k h rv cn Hx%Q; by apply (Nc F) in Hx|]. intros _. by rewrite C. }
  pose proof (single_same _ _ _ _ _ _ T Lw (Iw now)) as Sm.
  destruct r as [[tip k h rv cn|]|]; [|(split; [intros b k h rv cn Hx%Q; by apply (Nc O) in Hx|done])..].
  destruct O as (y & -> & Fy).
  assert (Re : CbfSpec.reorganises (tree_of H (n_cache (f_state s))) (tree_of H (n_cache (f_state s'))) rv.*1).
  { destruct w as [|[hd ch] [|? ?]]; [|by eapply single_reorganises|cbn in Lw; lia].
    pose proof (t_step _ _ _ _ _ _ _ _ _ _ T) as Es. cbn [step] in Es. unfold import_blocks in Es. by cbn in Es. }
  split.
  - intros b k1 h1 rv1 cn1 Hx%Q. rewrite !elem_of_app, elem_of_cons in Hx.
    change (map (fun p : N * header => (CSync, @IoEvent nmsg _ (EvSync (SyncModel.SoDisconnected p.1 p.2)))) rv) with
      ((fun p : N * header => (CSync, @IoEvent nmsg _ (EvSync (SyncModel.SoDisconnected p.1 p.2)))) <$> rv) in Hx.
    change (map (fun p : N * header => (CSync, @IoEvent nmsg _ (EvSync (SyncModel.SoConnected p.1 p.2)))) cn) with
      ((fun p : N * header => (CSync, @IoEvent nmsg _ (EvSync (SyncModel.SoConnected p.1 p.2)))) <$> cn) in Hx.
    rewrite !elem_of_list_fmap in Hx. destruct Hx as [(? & ? & _)|[(? & ? & _)|[Heq|Hx]]]; [done|done|by injection Heq as -> -> -> -> ->|].
    rewrite Forall_forall in Fy. by destruct (Fy _ Hx).
  - intros Hno. exfalso. eapply Hno, Q. apply elem_of_app. right. apply elem_of_app. right. left.
Qed.

Context (Fi : filter_io env).
Notation nrun := (node_run H scf P sock env magic).
Notation nstep := (node_step H scf P sock env magic).

Lemma single_reported os : forall s hs s' t, weak H scf P cap c0 hs s -> bounded H st (hs ++ node_headers os) -> one_by_one os ->
  nrun os s = Val (s', t) -> settled nstep os s -> all_reported nstep H os s.
Proof.
  induction os as [|o os IH]; intros s hs s' t W B Ob; cbn [node_run settled all_reported]; [done|].
  apply Forall_cons in Ob as [L Ob]. destruct (nstep o s) as [[s1 t1]|] eqn:E; [cbn [mbind_M]|done].
  destruct (nrun os s1) as [[s2 t2]|] eqn:R; [cbn [mbind_M]|done]. intros [= <- <-] [D Se].
  unfold node_headers in B. cbn [map concat] in B. rewrite app_assoc in B.
  assert (B1 : bounded H st (hs ++ headers_of o)) by (by eapply bounded_prefix).
  assert (Rp : presents o = true -> reported H s s1 t1).
  { intros Pr. eapply (single_step_reported o s hs); try done. apply W. }
  split; [done|]. eapply IH; [|exact B|done|exact R|done].
  exact (step_settled H ng scf P cap sock env magic st ps cps c0 Hps E0 L0 Fenv Fi o s hs s1 t1 W B1 D E Rp).
Qed.
End Single.
