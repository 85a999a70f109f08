(** Proofs about starting the client. *)
From Verif Require Import Base PowModel BlockModel BlockSpec BlockProofs BlockOps BlockImport
  BlockRun BlockHistory BlockFacts BlockMain BlockQueries StoreModel StoreSpec StoreProofs LoadModel LoadSpec.
From Verif Require SyncModel SyncFacts CbfModel CbfSpec CbfStep CbfMain CbfFacts.
Open Scope N_scope.

Section Open.
Context {A : Type} (size : nat) (enc : A -> list N) (dec : list N -> option A)
  (Hc : codec size enc dec) (leaves : list N -> nat -> list N) (Hkp : keeps_partial leaves).

Lemma check_records (g : A) l : f_check size (File (encoded enc l) g) = Ok tt.
Proof. unfold f_check. by rewrite (len_ok size enc dec Hc (Memory g l)). Qed.

Lemma open_spec (g : A) l o : file_of size enc l o -> open_store size g o = File (encoded enc l) g.
Proof.
  intros [[-> ->]|(torn & Ht & ->)]; [done|]. unfold open_store.
  destruct (f_check size (File (encoded enc l ++ torn) g)) as [u|e] eqn:E; [|by apply (heal_records size enc dec Hc)].
  pose proof (mod_records size enc dec Hc l torn Ht) as Hm. unfold f_check, f_len in E. cbn [f_bytes] in E. rewrite Hm in E.
  destruct (Nat.eqb_spec (length torn) 0) as [E0|]; [|done]. apply nil_length_inv in E0 as ->. by rewrite app_nil_r.
Qed.

Lemma collect_nfrom (l : list A) : forall h, collect (nfrom h l) = Ok l.
Proof. induction l as [|x l IH]; intros h; [done|]. rewrite nfrom_cons. cbn [collect]. by rewrite IH. Qed.

Lemma read_spec (g : A) l : read_store size dec leaves (File (encoded enc l) g) = Val (Ok l).
Proof.
  unfold read_store. rewrite <- (app_nil_r (encoded enc l)).
  rewrite (f_iter_spec size enc dec Hc leaves Hkp g l []) by (cbn; apply (size_pos size enc dec Hc)).
  rewrite nfrom_cons. cbn [List.tl]. by rewrite collect_nfrom.
Qed.
End Open.

Section Load.
Context (H : header -> N) (ng : network -> N).
Context (hsize : nat) (henc : header -> list N) (hdec : list N -> option header) (Hh : codec hsize henc hdec).
Context (fsize : nat) (fenc : N * N -> list N) (fdec : list N -> option (N * N)) (Hf : codec fsize fenc fdec).
Context (leaves : list N -> nat -> list N) (Hkp : keeps_partial leaves).
Context (cf : lconf) (scf : SyncModel.sconf).
Notation P := (lc_filters cf).
Notation g := (lc_genesis cf).
Notation load := (load H ng hsize hdec fsize fdec leaves cf).
Notation start := (start H ng hsize hdec fsize fdec leaves cf scf).

Lemma load_spec rank fs hds st :
  file_of hsize henc hds (fl_headers fs) -> file_of fsize fenc st (fl_filters fs) ->
  linked_from H (H g) hds -> Forall (rk H rank) hds -> ng (p_network (lc_params cf)) = H g ->
  CbfSpec.chained P (CbfModel.genesis_entry P :: st) ->
  exists c, load fs = (Files (Some (encoded henc hds)) (Some (encoded fenc st)), Val (Ok (c, CbfModel.cbf0 (lc_capacity cf) st))) /\
    from_store H ng (mkStore g hds) (lc_params cf) (lc_checkpoints cf) = Val (Ok c) /\ INV H rank g c hds.
Proof.
  intros F1 F2 L R Hng C. unfold LoadModel.load.
  rewrite (open_spec hsize henc hdec Hh g hds _ F1), (open_spec fsize fenc fdec Hf _ st _ F2).
  rewrite (read_spec hsize henc hdec Hh leaves Hkp g hds), (read_spec fsize fenc fdec Hf leaves Hkp _ st). cbn [f_bytes mbind_M].
  pose proof (from_store_spec H rank g ng (mkStore g hds) (lc_params cf) (lc_checkpoints cf) eq_refl L R) as Hs.
  destruct (_ || _) eqn:E; [|apply orb_false_iff in E as [_ E]; lia].
  destruct Hs as (c & -> & I & _). exists c. split; [|done].
  rewrite (CbfMain.chained_verifies P (CbfModel.cbf0 (lc_capacity cf) st) C). by rewrite andb_false_r.
Qed.

Lemma tail_length rank c tl : INV H rank g c tl -> length (c_tail c) = length tl.
Proof. intros I. rewrite (i_tail I). by rewrite mk_from_length. Qed.

Lemma tree_height rank c tl : INV H rank g c tl -> CbfModel.tr_height (tree_of H c) = lenN tl.
Proof. intros I. unfold CbfModel.tr_height, tree_of, lenN. cbn [CbfModel.tr_chain]. by rewrite map_length, (tail_length rank c tl I). Qed.

Lemma tree_at rank c tl h : INV H rank g c tl -> h <= lenN tl -> is_Some (CbfModel.tr_at (tree_of H c) h).
Proof.
  intros I Hle. unfold CbfModel.tr_at, tree_of. cbn [CbfModel.tr_genesis CbfModel.tr_chain]. apply lookup_lt_is_Some. cbn [length].
  rewrite map_length, (tail_length rank c tl I). unfold lenN in *. lia.
Qed.

Lemma sync_start rank e c tl : INV H rank g c tl -> lenN tl < 2 ^ 64 -> exists r, SyncModel.idle H scf e c SyncModel.sync_init = Val r.
Proof.
  intros I Hb. apply SyncFacts.idle_total. rewrite (inv_height I).
  destruct (locator_hashes_spec H rank g c tl (lenN tl) I) as (idx & hs & _ & E & _); [lia|done|]. by exists hs.
Qed.

Lemma start_spec rank e k fs hds st :
  file_of hsize henc hds (fl_headers fs) -> file_of fsize fenc st (fl_filters fs) ->
  linked_from H (H g) hds -> Forall (rk H rank) hds -> ng (p_network (lc_params cf)) = H g ->
  CbfSpec.chained P (CbfModel.genesis_entry P :: st) -> lenN hds < 2 ^ 64 -> lenN st <= lenN hds ->
  exists rd, start e k fs = (Files (Some (encoded henc hds)) (Some (encoded fenc st)), Val (Ok rd)) /\
    from_store H ng (mkStore g hds) (lc_params cf) (lc_checkpoints cf) = Val (Ok (rd_cache rd)) /\
    INV H rank g (rd_cache rd) hds /\
    rd_tip rd = lenN hds /\ rd_filter_tip rd = lenN st /\ CbfModel.c_filters (rd_cbf rd) = st /\ CbfModel.c_store (rd_cbf rd) = st.
Proof.
  intros F1 F2 L R Hng C Hb Hle.
  destruct (load_spec rank fs hds st F1 F2 L R Hng C) as (c & El & Es & I). unfold LoadModel.start. rewrite El. cbn [mbind_M].
  destruct (sync_start rank e c hds I Hb) as [[sy xs] ->]. cbn [mbind_M].
  assert (exists s x, CbfModel.idle P k (SyncModel.se_now e) (tree_of H c) (CbfModel.cbf0 (lc_capacity cf) st) = Val (s, x) /\
    CbfModel.c_filters s = st /\ CbfModel.c_store s = st) as (s & x & -> & E1 & E2).
  { unfold CbfModel.idle, CbfModel.sync. set (s0 := CbfModel.cbf0 (lc_capacity cf) st).
    assert (CbfModel.f_height s0 = lenN st) as Eh by done.
    destruct (_ <=? _); [|by exists s0, []]. rewrite (tree_height rank c hds I), Eh.
    unfold assertM. destruct (lenN st <=? lenN hds) eqn:E; [|lia].
    change (CbfModel.r_active (CbfModel.c_rescan s0)) with false.
    destruct (match CbfModel.tr_checkpoint _ with Some _ => _ | None => _ end); [by eexists _, _|].
    destruct (lenN st <? lenN hds) eqn:E3; [|by eexists _, _]. apply N.ltb_lt in E3.
    unfold CbfModel.send_getcfheaders. destruct (lenN hds <? lenN st + 1) eqn:E4; [by eexists _, _|].
    set (h := lenN st + 1 + _ - 1). destruct (tree_at rank c hds h I) as [hash ->]. { subst h. lia. }
    unfold CbfModel.get_cfheaders. destruct (CbfModel.c_inflight s0 !! hash); [by eexists _, _|].
    change (CbfModel.c_peers s0) with (∅ : gmap N bool).
    destruct (CbfModel.sample_peer _ _) as [[? ?]|]; cbn [mbind_M]; by eexists _, _. }
  cbn [mbind_M]. eexists. split; [reflexivity|]. cbn [rd_cache rd_tip rd_filter_tip rd_cbf].
  rewrite (inv_height I). unfold CbfModel.f_height. by rewrite E1.
Qed.

Lemma start_ahead rank e k fs hds st :
  file_of hsize henc hds (fl_headers fs) -> file_of fsize fenc st (fl_filters fs) ->
  linked_from H (H g) hds -> Forall (rk H rank) hds -> ng (p_network (lc_params cf)) = H g ->
  CbfSpec.chained P (CbfModel.genesis_entry P :: st) -> lenN hds < 2 ^ 64 -> lenN hds < lenN st ->
  CbfModel.cbf_idle_timeout <= SyncModel.se_now e ->
  start e k fs = (Files (Some (encoded henc hds)) (Some (encoded fenc st)), Panic (PAssert 571)).
Proof.
  intros F1 F2 L R Hng C Hb Hlt Hnow.
  destruct (load_spec rank fs hds st F1 F2 L R Hng C) as (c & El & Es & I). unfold LoadModel.start. rewrite El. cbn [mbind_M].
  destruct (sync_start rank e c hds I Hb) as [[sy xs] ->]. cbn [mbind_M].
  unfold CbfModel.idle, CbfModel.sync. set (s0 := CbfModel.cbf0 (lc_capacity cf) st).
  assert (CbfModel.f_height s0 = lenN st) as Eh by done.
  change (CbfModel.c_idle s0) with (@None N). cbn [default]. rewrite N.sub_0_r.
  destruct (_ <=? _) eqn:E; [|lia]. rewrite (tree_height rank c hds I), Eh.
  unfold assertM. destruct (lenN st <=? lenN hds) eqn:E2; [lia|]. done.
Qed.

Lemma file_of_all {A} (size : nat) (enc : A -> list N) (l : list A) : (0 < size)%nat -> file_of size enc l (Some (encoded enc l)).
Proof. intros Hs. right. exists []. by rewrite app_nil_r. Qed.

(** After a history without storage errors. *)
Lemma restart_files st0 cps os c outs e k fs st : params_ok (lc_params cf) ->
  reachable H ng st0 (lc_params cf) cps os c outs -> io_ok os -> s_genesis st0 = g -> cps = lc_checkpoints cf ->
  ng (p_network (lc_params cf)) = H g ->
  file_of hsize henc (s_tail (c_store c)) (fl_headers fs) -> file_of fsize fenc st (fl_filters fs) ->
  CbfSpec.chained P (CbfModel.genesis_entry P :: st) -> c_height c < 2 ^ 64 -> lenN st <= c_height c ->
  exists rd, start e k fs = (Files (Some (encoded henc (s_tail (c_store c)))) (Some (encoded fenc st)), Val (Ok rd)) /\
    active (rd_cache rd) = active c /\ c_tip H (rd_cache rd) = c_tip H c /\ c_chainwork (rd_cache rd) = c_chainwork c /\
    c_checkpoints (rd_cache rd) = c_checkpoints c /\ s_tail (c_store (rd_cache rd)) = s_tail (c_store c) /\
    rd_tip rd = c_height c /\ rd_filter_tip rd = lenN st /\
    CbfModel.f_entries P (rd_cbf rd) = CbfModel.genesis_entry P :: st /\ CbfModel.c_store (rd_cbf rd) = st.
Proof.
  intros Hp R Io Hg -> Hng F1 F2 C Hb Hle.
  destruct (reload H ng st0 (lc_params cf) (lc_checkpoints cf) Hp os c outs R Io) as (c1 & E1 & A1 & A2 & A3 & A4 & A5 & A6 & A7 & A8); [by rewrite Hg|].
  pose proof (store_mirror H ng st0 (lc_params cf) (lc_checkpoints cf) Hp os c outs R Io) as Hm.
  apply reachable_history in R as (rank & c0 & tl & Hh' & _); [|done].
  pose proof (h_inv _ _ _ _ _ _ _ _ _ _ Hh') as I. rewrite Hg in I. rewrite (inv_active I), (i_sg I) in Hm. injection Hm as Hm.
  rewrite Hm in F1. pose proof (inv_height I) as Eh. rewrite Eh in Hb, Hle.
  destruct (start_spec rank e k fs tl st F1 F2 (i_linked I) (i_rk I) Hng C Hb Hle) as (rd & Es & Ef & I' & B1 & B2 & B3 & B4).
  assert (c_store c = mkStore g tl) as Ec.
  { pose proof (i_sg I) as X. destruct (c_store c) as [g' tl']. cbn in X, Hm. by subst. }
  rewrite Ec in E1. rewrite Ef in E1. injection E1 as E1. rewrite E1 in *.
  exists rd. rewrite Hm. split; [exact Es|]. rewrite E1, Eh, A7, Hm. unfold CbfModel.f_entries. rewrite B3. done.
Qed.
End Load.

(** Nothing but a matching [cfheaders] or a re-org changes the filter headers. *)
Lemma stuck P cap ins : forall s s' xs, CbfStep.cbf_ok P cap s -> CbfSpec.cbf_run P ins s = Val (s', xs) ->
  Forall (fun i =>
    (forall from ty stop prev hs, CbfSpec.i_op i = CbfModel.CCFHeaders from ty stop prev hs -> prev <> (CbfModel.f_tip P s).2) /\
    (forall rev h, CbfSpec.i_op i = CbfModel.CImported rev -> last rev = Some h -> CbfModel.f_height s < h)) ins ->
  CbfModel.c_filters s' = CbfModel.c_filters s.
Proof.
  induction ins as [|i ins IH]; intros s s' xs Ok; cbn [CbfSpec.cbf_run]; [by intros [= <- <-]|].
  destruct (CbfSpec.step_on P i s) as [[s1 x]|] eqn:E; [|done]. cbn [mbind_M].
  destruct (CbfSpec.cbf_run P ins s1) as [[s2 xs']|] eqn:E2; [|done]. intros [= <- <-] F. apply Forall_cons in F as [[F1 F2] F].
  assert (CbfModel.c_filters s1 = CbfModel.c_filters s) as Es.
  { destruct (CbfStep.step_spec P cap i s Ok) as [(s1' & x' & E' & Ef)|(p & E' & _)]; [|congruence].
    rewrite E in E'. injection E' as <- <-. destruct Ef as
      [s' x _ Q|from sh prev hashes stop st s' x Eo _ _ _ Ep|from hash height f s' x _ _ _ _ Q|from hash height f c b r' ms es s' x _ _ _ _ _ _ Ec
      |rev h c s' x ok Eo El Hl|from to watch start stop s1 r' ms es x y _ Q]; try exact Ec; try (apply Q).
    - by destruct (F1 _ _ _ _ _ Eo).
    - specialize (F2 _ _ Eo El). lia. }
  rewrite <- Es. eapply IH; [by eapply CbfMain.step_ok|exact E2|].
  assert (CbfModel.f_tip P s1 = CbfModel.f_tip P s) as -> by (unfold CbfModel.f_tip, CbfModel.f_entries; by rewrite Es).
  assert (CbfModel.f_height s1 = CbfModel.f_height s) as -> by (unfold CbfModel.f_height; by rewrite Es). done.
Qed.

Lemma restart_runs H ng hsize henc hdec fsize fenc fdec leaves cf scf e k
    st0 os c outs fst0 old ins s fouts fs :
  codec hsize henc hdec -> codec fsize fenc fdec -> keeps_partial leaves -> params_ok (lc_params cf) ->
  ng (p_network (lc_params cf)) = H (lc_genesis cf) -> s_genesis st0 = lc_genesis cf ->
  reachable H ng st0 (lc_params cf) (lc_checkpoints cf) os c outs -> io_ok os -> c_height c < 2 ^ 64 ->
  CbfSpec.chained (lc_filters cf) (CbfModel.genesis_entry (lc_filters cf) :: fst0) -> lenN fst0 <= CbfModel.tr_height old ->
  CbfSpec.cbf_reach (lc_filters cf) (lc_capacity cf) fst0 ins s fouts -> CbfSpec.faithful old ins -> Forall CbfSpec.io_ok ins ->
  CbfMain.final_tree old ins = tree_of H c ->
  file_of hsize henc (s_tail (c_store c)) (fl_headers fs) -> file_of fsize fenc (CbfModel.c_store s) (fl_filters fs) ->
  exists rd, start H ng hsize hdec fsize fdec leaves cf scf e k fs =
      (Files (Some (encoded henc (s_tail (c_store c)))) (Some (encoded fenc (CbfModel.c_store s))), Val (Ok rd)) /\
    active (rd_cache rd) = active c /\ c_tip H (rd_cache rd) = c_tip H c /\ c_chainwork (rd_cache rd) = c_chainwork c /\
    c_checkpoints (rd_cache rd) = c_checkpoints c /\ s_tail (c_store (rd_cache rd)) = s_tail (c_store c) /\
    rd_tip rd = c_height c /\ rd_filter_tip rd = CbfModel.f_height s /\
    CbfModel.f_entries (lc_filters cf) (rd_cbf rd) = CbfModel.f_entries (lc_filters cf) s /\
    CbfModel.c_store (rd_cbf rd) = CbfModel.c_store s.
Proof.
  intros Hh Hf Hkp Hp Hng Hg R Io Hb C0 L0 R' Fa Io' Et F1 F2.
  destruct (CbfMain.run_heights (lc_filters cf) (lc_capacity cf) ins old _ s fouts (CbfMain.cbf0_ok _ _ _ C0) eq_refl L0 Fa Io' R') as (Hle & Es & _).
  pose proof (CbfStep.ok_chain _ _ _ (CbfFacts.reach_ok _ _ _ _ _ _ C0 R')) as C. rewrite Et in Hle.
  assert (CbfModel.tr_height (tree_of H c) = c_height c) as Eh.
  { pose proof R as R2. apply reachable_history in R2 as (rank & c0 & tl & Hh' & _); [|done].
    pose proof (h_inv _ _ _ _ _ _ _ _ _ _ Hh') as I. rewrite Hg in I. rewrite (inv_height I).
    exact (tree_height H cf rank c tl I). }
  rewrite Eh in Hle.
  destruct (restart_files H ng hsize henc hdec Hh fsize fenc fdec Hf leaves Hkp cf scf st0 (lc_checkpoints cf) os c outs e k fs (CbfModel.c_store s))
    as (rd & E & A1 & A2 & A3 & A4 & A5 & A6 & A7 & A8 & A9); try done.
  { rewrite Es. exact C. }
  { rewrite Es. exact Hle. }
  exists rd. split; [exact E|]. unfold CbfModel.f_height, CbfModel.f_entries in *. rewrite A7, <- Es. done.
Qed.

Lemma fresh_start H ng hsize henc hdec fsize fenc fdec leaves cf scf e k fs :
  codec hsize henc hdec -> codec fsize fenc fdec -> keeps_partial leaves ->
  ng (p_network (lc_params cf)) = H (lc_genesis cf) ->
  fl_headers fs ∈ [None; Some []] -> fl_filters fs ∈ [None; Some []] ->
  exists rd, start H ng hsize hdec fsize fdec leaves cf scf e k fs = (Files (Some []) (Some []), Val (Ok rd)) /\
    active (rd_cache rd) = [lc_genesis cf] /\ rd_tip rd = 0 /\ rd_filter_tip rd = 0 /\
    CbfModel.f_entries (lc_filters cf) (rd_cbf rd) = [CbfModel.genesis_entry (lc_filters cf)].
Proof.
  intros Hh Hf Hkp Hng F1 F2.
  assert (file_of hsize henc [] (fl_headers fs)) as G1.
  { apply elem_of_cons in F1 as [->|F1]; [by left|]. apply elem_of_list_singleton in F1 as ->. apply file_of_all. apply Hh. }
  assert (file_of fsize fenc [] (fl_filters fs)) as G2.
  { apply elem_of_cons in F2 as [->|F2]; [by left|]. apply elem_of_list_singleton in F2 as ->. apply file_of_all. apply Hf. }
  destruct (start_spec H ng hsize henc hdec Hh fsize fenc fdec Hf leaves Hkp cf scf (fun _ => 0%nat) e k fs [] [] G1 G2)
    as (rd & E & _ & I & A1 & A2 & A3 & A4); try done.
  exists rd. split; [exact E|]. rewrite (inv_active I), A1, A2. unfold CbfModel.f_entries. by rewrite A3.
Qed.

Lemma ahead_panics H ng hsize henc hdec fsize fenc fdec leaves cf scf hds st fs e k e' k' :
  codec hsize henc hdec -> codec fsize fenc fdec -> keeps_partial leaves ->
  ng (p_network (lc_params cf)) = H (lc_genesis cf) ->
  file_of hsize henc hds (fl_headers fs) -> file_of fsize fenc st (fl_filters fs) ->
  linked_from H (H (lc_genesis cf)) hds -> acyclic H hds -> lenN hds < 2 ^ 64 ->
  CbfSpec.chained (lc_filters cf) (CbfModel.genesis_entry (lc_filters cf) :: st) ->
  lenN hds < lenN st -> 60000 <= SyncModel.se_now e -> 60000 <= SyncModel.se_now e' ->
  let start := start H ng hsize hdec fsize fdec leaves cf scf in
  (start e k fs).2 = Panic (PAssert 571) /\
  start e' k' (start e k fs).1 = ((start e k fs).1, Panic (PAssert 571)).
Proof.
  intros Hh Hf Hkp Hng F1 F2 L [rank Ac] Hb C Hlt N1 N2 start'. subst start'.
  rewrite (start_ahead H ng hsize henc hdec Hh fsize fenc fdec Hf leaves Hkp cf scf rank e k fs hds st F1 F2 L Ac Hng C Hb Hlt N1).
  split; [done|]. cbn [fst].
  apply (start_ahead H ng hsize henc hdec Hh fsize fenc fdec Hf leaves Hkp cf scf rank e' k' _ hds st); try done; apply file_of_all; [apply Hh|apply Hf].
Qed.
