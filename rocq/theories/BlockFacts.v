(** Facts about transitions of the header cache used by the property theorems. *)
From Verif Require Import Base PowModel BlockModel BlockSpec BlockProofs BlockOps BlockImport
  BlockRun BlockHistory.
Open Scope N_scope.

Section Facts.
Context (H : header -> N) (ng : network -> N).
Notation linked_from := (linked_from H).
Notation last_hash := (last_hash H).

(** * Transitions *)

Lemma params_of_reach s ps cps os c outs : params_ok ps -> reachable H ng s ps cps os c outs -> c_params c = ps.
Proof. intros Hp R. apply reachable_history in R as (rank & c0 & tl & Hh & _); [|done]. apply Hh. Qed.

Lemma presented_app os o : presented (os ++ [o]) = presented os ++ map fst (op_inputs o).
Proof. unfold presented, inputs. by rewrite map_app, concat_app, map_app; cbn; rewrite app_nil_r. Qed.

Lemma transition_inv s ps cps os c o c' r : params_ok ps ->
  transition H ng s ps cps os c o c' r ->
  exists rank c0 tl, history H ng rank s ps cps os c0 c tl /\
    Forall (fun x => fair_choice x.2 /\ rk H rank x.1) (op_inputs o).
Proof.
  intros Hp [(outs & [L _ F (c0 & E0 & Er)]) [rank R] Ff Es].
  rewrite presented_app, app_assoc in R. apply Forall_app in R as [R Ro].
  assert (Forall (rk H rank) (s_tail s)) as Rs by by apply Forall_app in R as [? _].
  assert (Forall (rk H rank) (presented os)) as Rp by by apply Forall_app in R as [_ ?].
  pose proof (from_store_spec H rank (s_genesis s) ng s ps cps eq_refl L Rs) as Hs.
  destruct (_ || _); [|congruence].
  destruct Hs as (c0' & E0' & I0 & O0 & S0 & P0 & C0). rewrite E0 in E0'. injection E0' as <-.
  destruct (run_spec H rank (s_genesis s) c0 (s_tail s) os I0) as (c1 & tl & rs & Er' & I & S & T); auto.
  { by rewrite P0. }
  rewrite Er in Er'. injection Er' as <- <-.
  exists rank, c0, tl. split.
  - destruct S as [S1 S2]. constructor; auto; [by rewrite S1|by rewrite S2].
  - apply Forall_forall. intros x Hx. unfold fair, inputs in Ff. cbn in Ff. rewrite app_nil_r in Ff.
    split; [exact (proj1 (Forall_forall _ _) Ff x Hx)|]. apply (proj1 (Forall_forall _ _) Ro).
    by apply elem_of_list_fmap_1.
Qed.

Lemma transition_reach s ps cps os c o c' r : params_ok ps ->
  transition H ng s ps cps os c o c' r ->
  exists outs, reachable H ng s ps cps (os ++ [o]) c' outs.
Proof.
  intros Hp [(outs & [L A F (c0 & E0 & Er)]) Ac Ff Es]. exists (outs ++ [r]). constructor; auto.
  - unfold fair, inputs in *. rewrite map_app, concat_app. apply Forall_app. by split.
  - exists c0. split; [done|]. clear -Er Es. revert c0 outs Er.
    induction os as [|o' os IH]; intros c0 outs Er; cbn [run app] in *.
    + injection Er as -> <-. rewrite Es. done.
    + destruct (step H c0 o') as [[c1 r1]|]; cbn [mbind_M] in *; [|done].
      destruct (run H c1 os) as [[c2 rs]|] eqn:E2; cbn [mbind_M] in *; [|done]. injection Er as -> <-.
      rewrite (IH _ _ E2). done.
Qed.

(** * One step: work, store, main-net rule *)

Section Steps.
Context (rank : N -> nat) (g : header).
Notation INV := (INV H rank g).
Notation rk := (rk H rank).
Notation bstep := (bstep H rank g).

Lemma sum_switched tl cd : sum_work (switched tl cd) + lost tl cd = sum_work tl + cwork cd.
Proof.
  unfold switched, lost, cwork. rewrite sum_work_app.
  rewrite <- (take_drop (N.to_nat (cd_fork_height cd)) tl) at 3. rewrite sum_work_app. lia.
Qed.

Definition main_rel (tl tl' : list header) : Prop :=
  tl `prefix_of` tl' \/ sum_work tl < sum_work tl'.

Lemma bstep_io (P : header -> choice -> N -> Prop) c tl c' tl' : (forall hd ch now, P hd ch now -> io_ok_choice ch) ->
  bstep P (c, tl) (c', tl') ->
  sum_work tl <= sum_work tl' /\
  (s_tail (c_store c) = tl -> s_tail (c_store c') = tl') /\
  (p_network (c_params c) = Bitcoin -> main_rel tl tl').
Proof.
  intros Hio S. inversion S as [?? hd now ch ?? r HP I I' Sc E O|?? hd now ch ?? r HP I I' Sc E O]; subst.
  - destruct (Hio _ _ _ HP) as [Hrb Hput].
    inversion O as [| | |cd c2 tl2 r2 He Hk Hv Hle Heq Hbest Etl Hst Hkn Hf Ht]; subst.
    1-3: split; [done|]; split; [done|]; intros _; by left.
    rewrite Hrb in *. unfold store_after in Hst. rewrite Hrb, Hput in Hst.
    pose proof (sum_switched tl cd) as Hs. split; [lia|]. split.
    + intros <-. by rewrite Hst.
    + intros Hb. right. destruct (decide (cwork cd = lost tl cd)) as [Eq|Ne]; [|lia].
      by destruct (Heq Eq).
  - destruct (Hio _ _ _ HP) as [Hrb Hput].
    inversion O; subst.
    + split; [done|]. split; [done|]. intros _. by left.
    + split; [done|]. split; [done|]. intros _. by left.
    + rewrite Hput in *. rewrite sum_work_app. split; [lia|]. split; [congruence|]. intros _. left. by exists [hd].
Qed.

Lemma prefix_work l1 l2 : l1 `prefix_of` l2 -> sum_work l1 <= sum_work l2.
Proof. intros [k ->]. rewrite sum_work_app. lia. Qed.

Lemma main_rel_trans a b c : main_rel a b -> main_rel b c -> main_rel a c.
Proof.
  unfold main_rel. intros [Hp|Hl] [Hp'|Hl'].
  - left. by transitivity b.
  - right. apply prefix_work in Hp. lia.
  - right. apply prefix_work in Hp'. lia.
  - right. lia.
Qed.

Lemma rtc_io (P : header -> choice -> N -> Prop) c tl c' tl' : (forall hd ch now, P hd ch now -> io_ok_choice ch) ->
  rtc (bstep P) (c, tl) (c', tl') ->
  sum_work tl <= sum_work tl' /\
  (s_tail (c_store c) = tl -> s_tail (c_store c') = tl') /\
  (p_network (c_params c) = Bitcoin -> main_rel tl tl').
Proof.
  intros Hio R. remember (c, tl) as x eqn:Ex. remember (c', tl') as y eqn:Ey.
  revert c tl Ex. induction R as [x|x [c1 tl1] y S R IH]; intros c tl Ex; subst.
  - injection Ex as -> ->. split; [done|]. split; [done|]. intros _. by left.
  - destruct (bstep_io P c tl c1 tl1 Hio S) as (A1 & A2 & A3).
    destruct (IH eq_refl c1 tl1 eq_refl) as (B1 & B2 & B3). split; [lia|]. split; [auto|].
    intros Hb. assert (p_network (c_params c1) = Bitcoin) as Hb1.
    { inversion S; subst; match goal with Hc : same_cfg _ _ |- _ => destruct Hc as [-> _] end; done. }
    eapply main_rel_trans; eauto.
Qed.

End Steps.

Lemma presented_io os hd ch now : io_ok os -> presented_at os hd ch now -> io_ok_choice ch.
Proof.
  intros Hio (o & Ho & Hin & _). unfold io_ok, inputs in Hio. rewrite Forall_forall in Hio.
  apply (Hio (hd, ch)). apply elem_of_list_In, in_concat. exists (op_inputs o). split.
  - apply in_map. by apply elem_of_list_In.
  - by apply elem_of_list_In.
Qed.

(** * Best branch *)

Lemma branch_off_iff rank g c tl hd h f path : INV H rank g c tl -> is_known c (H hd) = false ->
  branch_off H c hd h f path <->
  is_branch H g (with_orphan c (H hd) hd) tl (mkCand (last_hash (H f) path) path h f).
Proof.
  intros I Hk. unfold branch_off, is_branch. rewrite (inv_active I). cbn [with_orphan c_orphans cd_tip cd_headers cd_fork_height cd_fork_header].
  assert (forall x, (stale H c x \/ x = hd) <-> <[H hd:=hd]> (c_orphans c) !! H x = Some x) as Hx.
  { intros x. unfold stale. rewrite lookup_insert_Some. apply orb_false_iff in Hk as [_ Ho].
    unfold in_orphans in Ho. apply bool_decide_eq_false in Ho. apply eq_None_not_Some in Ho.
    split.
    - intros [Hs| ->]; [|by left]. right. split; [|done]. intros E. rewrite E in Ho. congruence.
    - intros [[_ ->]|[_ ?]]; auto. }
  unfold opath. split.
  - intros (A & B & C & D). repeat split; auto. eapply Forall_impl; [exact D|]. intros x. apply Hx.
  - intros (A & B & C & _ & D). repeat split; auto. eapply Forall_impl; [exact D|]. intros x. apply Hx.
Qed.

Lemma valid_path_orphan c k x now h f path :
  valid_path H (with_orphan c k x) now h f path <-> valid_path H c now h f path.
Proof.
  revert h f. induction path as [|y path IH]; intros h f; [done|]. cbn [valid_path].
  by rewrite (IH (h + 1) y).
Qed.

Definition best_after (s_net : network) (c : cache) (hd : header) (now : N) (c' : cache) : Prop :=
  c_chainwork c <= c_chainwork c' /\
  (forall h f path, branch_off H c hd h f path -> valid_path H c now h f path ->
     sum_work (take (S (N.to_nat h)) (active c)) + sum_work path <= c_chainwork c') /\
  (active c' = active c \/
   exists h f path, branch_off H c hd h f path /\ valid_path H c now h f path /\
     active c' = take (S (N.to_nat h)) (active c) ++ path).

(** Ties (other than on main-net) go to the smaller tip hash. *)
Definition tie_after (c : cache) (hd : header) (now : N) (c' : cache) : Prop :=
  (forall h f path, branch_off H c hd h f path -> valid_path H c now h f path ->
     sum_work (take (S (N.to_nat h)) (active c)) + sum_work path = c_chainwork c' ->
     (c_tip H c').1 <= last_hash (H f) path) /\
  (c_chainwork c = c_chainwork c' -> (c_tip H c').1 <= (c_tip H c).1).

Lemma best_lemma rank g c tl hd now ch c' tl' r : INV H rank g c tl -> INV H rank g c' tl' ->
  params_ok (c_params c) -> io_ok_choice ch ->
  is_known c (H hd) = false -> is_known c (h_prev hd) = true ->
  import_outcome H g c tl hd now ch c' tl' (Ok r) ->
  best_after (p_network (c_params c)) c hd now c' /\
  (p_network (c_params c) <> Bitcoin -> tie_after c hd now c').
Proof.
  intros I I' Hp [Hrb Hput] Hk Hpk O.
  assert (forall h f path, branch_off H c hd h f path -> valid_path H c now h f path ->
    valid_branches H g (with_orphan c (H hd) hd) tl now (mkCand (last_hash (H f) path) path h f)) as Hvb.
  { intros h f path Hb Hv. split; [by apply (branch_off_iff rank)|].
    unfold branch_valid, validate_branch. cbn. apply validate_headers_iff; [done|apply Hb|]. by apply valid_path_orphan. }
  assert (forall n, sum_work (take (S n) (active c)) + sum_work (drop n tl) = c_chainwork c) as Htd.
  { intros n. rewrite (inv_active I), (i_work I). cbn. rewrite <- (take_drop n tl) at 3.
    rewrite sum_work_app. lia. }
  assert (forall x cc (II : INV H rank g cc x), (c_tip H cc).1 = last_hash (H g) x) as Htip.
  { intros x cc II. unfold c_tip. cbn. apply (inv_tip_hash II). }
  inversion O as [| |He Hpk' Hle|cd c2 tl2 r2 He Hk' Hv Hle Heq Hbest Etl Hst Hkn Hf Ht]; subst.
  - split.
    + split; [by cbn|]. split; [|by left]. intros h f path Hb Hv.
      destruct (Hle _ (Hvb _ _ _ Hb Hv)) as [Hl _]. unfold cwork, lost in Hl. cbn [cd_headers cd_fork_height] in Hl.
      change (c_chainwork (with_orphan c (H hd) hd)) with (c_chainwork c).
      specialize (Htd (N.to_nat h)). lia.
    + intros Hnet. split.
      * intros h f path Hb Hv Heq. destruct (Hle _ (Hvb _ _ _ Hb Hv)) as [Hl Htie].
        rewrite (Htip _ _ I'). apply Htie; auto. unfold cwork, lost. cbn [cd_headers cd_fork_height].
        change (c_chainwork (with_orphan c (H hd) hd)) with (c_chainwork c) in Heq.
        specialize (Htd (N.to_nat h)). lia.
      * intros _. by rewrite (Htip _ _ I'), (Htip _ _ I).
  - rewrite Hrb in *.
    assert (c_chainwork c' = c_chainwork c + cwork cd - lost tl cd /\ lost tl cd <= c_chainwork c + cwork cd) as [Hw Hw'].
    { rewrite (i_work I), (i_work I'). cbn. pose proof (sum_switched rank g tl cd). lia. }
    assert (cd = mkCand (last_hash (H (cd_fork_header cd)) (cd_headers cd)) (cd_headers cd) (cd_fork_height cd) (cd_fork_header cd)) as Ecd.
    { destruct Hv as [(_ & _ & (_ & Ht' & _)) _]. rewrite Ht'. by destruct cd. }
    assert (branch_off H c hd (cd_fork_height cd) (cd_fork_header cd) (cd_headers cd)) as Hb.
    { apply (branch_off_iff rank g c tl); auto. rewrite <- Ecd. apply Hv. }
    assert (last_hash (H g) (switched tl cd) = cd_tip cd) as Hnt.
    { destruct (ch_put ch); [done|]. destruct (Ht eq_refl) as (hd' & E1 & E2 & _).
      rewrite last_hash_ne_last. congruence. }
    split.
    + split; [lia|]. split.
      * intros h f path Hb' Hv'. destruct (Hbest _ (Hvb _ _ _ Hb' Hv')) as [Hl _].
        unfold cwork, lost in Hl. cbn [cd_headers cd_fork_height] in Hl. specialize (Htd (N.to_nat h)). rewrite Hw. unfold cwork, lost in *. lia.
      * right. exists (cd_fork_height cd), (cd_fork_header cd), (cd_headers cd). split; [done|]. split.
        -- destruct Hv as [_ Hv]. unfold branch_valid, validate_branch in Hv.
           apply validate_headers_iff in Hv; [|done|apply Hb]. by apply valid_path_orphan in Hv.
        -- rewrite (inv_active I), (inv_active I'). unfold switched. by cbn.
    + intros Hnet. split.
      * intros h f path Hb' Hv' Heq'. destruct (Hbest _ (Hvb _ _ _ Hb' Hv')) as [Hl Htie].
        rewrite (Htip _ _ I'), Hnt. apply Htie; auto.
        unfold cwork, lost in *. cbn [cd_headers cd_fork_height] in *. specialize (Htd (N.to_nat h)). lia.
      * intros Heq'. rewrite (Htip _ _ I'), (Htip _ _ I), Hnt.
        destruct (Heq ltac:(lia)) as [_ ?]. lia.
Qed.

(** * Accepted blocks *)

(** [hist] is a list of single-header operations from [c0]; the block [x] above
    [parent] at height [h] was validated at one of the states on the way. *)
Definition accepted (c0 : cache) (hist : list op) (h : N) (parent x : header) : Prop :=
  exists l1 o l2 c1 outs1, hist = l1 ++ o :: l2 /\ run H c0 l1 = Val (c1, outs1) /\
    valid_at H c1 (clock_of o) h parent x.

Lemma run_app c l1 l2 : run H c (l1 ++ l2) =
  ('(c1, r1) <-- run H c l1 ;; '(c2, r2) <-- run H c1 l2 ;; Val (c2, r1 ++ r2)).
Proof.
  revert c. induction l1 as [|o l1 IH]; intros c; cbn [app run mbind_M].
  - by destruct (run H c l2) as [[]|].
  - destruct (step H c o) as [[c1 r1]|]; cbn [mbind_M]; [|done]. rewrite IH.
    destruct (run H c1 l1) as [[c2 r2]|]; cbn [mbind_M]; [|done].
    by destruct (run H c2 l2) as [[]|].
Qed.

Lemma accepted_app c0 l1 l2 h p x : accepted c0 l1 h p x -> accepted c0 (l1 ++ l2) h p x.
Proof.
  intros (a & o & b & c1 & outs1 & -> & E & V). exists a, o, (b ++ l2), c1, outs1.
  split; [by rewrite <- app_assoc|]. done.
Qed.

Section Acc.
Context (rank : N -> nat) (g : header).
Notation INV := (INV H rank g).
Notation rk := (rk H rank).

(** Every active block is from the store at its place or was accepted. *)
Definition all_accepted (c0 : cache) (hist : list op) (st tl : list header) : Prop :=
  forall h x, tl !! N.to_nat h = Some x ->
    st !! N.to_nat h = Some x \/
    exists p, (g :: tl) !! N.to_nat h = Some p /\ accepted c0 hist h p x.

Lemma take_app_lookup_l (tl path : list header) n m x :
  (take n tl ++ path) !! m = Some x -> (m < n)%nat -> (n <= length tl)%nat -> tl !! m = Some x.
Proof.
  intros E Hm Hn. rewrite lookup_app_l in E by (rewrite take_length; lia). by rewrite lookup_take in E.
Qed.

Lemma acc_import c0 hist outs c st tl hd now ch c' tl' r :
  run H c0 hist = Val (c, outs) -> INV c tl -> params_ok (c_params c) ->
  import_outcome H g c tl hd now ch c' tl' r ->
  all_accepted c0 hist st tl -> all_accepted c0 (hist ++ [OImport [(hd, ch)] now]) st tl'.
Proof.
  intros Er I Hp O A.
  assert (all_accepted c0 (hist ++ [OImport [(hd, ch)] now]) st tl) as A'.
  { intros h x E. destruct (A h x E) as [?|(p & Ep & Ha)]; [by left|]. right. exists p. split; [done|].
    by apply accepted_app. }
  inversion O as [| | |cd c2 tl2 r2 He Hk' Hv Hle Heq Hbest Etl Hst Hkn Hf Ht]; subst; auto.
  pose proof (is_branch_fork_le H rank g _ _ _ (proj1 Hv)) as Hle'.
  set (n := N.to_nat (cd_fork_height cd)) in *.
  assert (forall h x p path, (take n tl ++ path) !! N.to_nat h = Some x -> (N.to_nat h < n)%nat ->
     (g :: tl) !! N.to_nat h = Some p -> (g :: take n tl ++ path) !! N.to_nat h = Some p) as Hkeep.
  { intros h x p path E Hh Ep. destruct (N.to_nat h) as [|m] eqn:Em; [done|].
    change (tl !! m = Some p) in Ep. change ((take n tl ++ path) !! m = Some p).
    rewrite lookup_app_l by (rewrite take_length; lia). rewrite lookup_take by lia. done. }
  destruct (ch_rollback_ok ch).
  - intros h x E. unfold switched in *. fold n in E |- *.
    destruct (decide (N.to_nat h < n)%nat) as [Hlt|Hge].
    + pose proof (take_app_lookup_l _ _ _ _ _ E Hlt Hle') as E'.
      destruct (A' h x E') as [?|(p & Ep & Ha)]; [by left|]. right. exists p. split; [|done]. eauto.
    + right. assert (cd_headers cd !! (N.to_nat h - n)%nat = Some x) as E'.
      { rewrite lookup_app_r in E by (rewrite take_length; lia). rewrite take_length in E.
        rewrite <- E. f_equal. lia. }
      destruct Hv as [(B1 & B2 & (B3 & B4 & B5)) Hv]. unfold branch_valid, validate_branch in Hv.
      apply validate_headers_iff in Hv; [|done|done]. apply valid_path_orphan in Hv.
      destruct (valid_path_lookup H _ _ _ _ _ _ _ Hv E') as (p & Ep & Hva).
      exists p. split.
      * destruct (N.to_nat h - n)%nat as [|m] eqn:Em.
        -- cbn in Ep. injection Ep as <-. assert (N.to_nat h = n) as -> by lia.
           fold n in B1. destruct n as [|n']; [exact B1|]. change (tl !! n' = Some (cd_fork_header cd)) in B1.
           change ((take (S n') tl ++ cd_headers cd) !! n' = Some (cd_fork_header cd)). rewrite lookup_app_l by (rewrite take_length; lia).
           by rewrite lookup_take by lia.
        -- cbn in Ep. destruct (N.to_nat h) as [|k] eqn:Ek; [lia|].
           change ((take n tl ++ cd_headers cd) !! k = Some p).
           rewrite lookup_app_r by (rewrite take_length; lia). rewrite take_length.
           rewrite <- Ep. f_equal. lia.
      * exists hist, (OImport [(hd, ch)] now), [], c, outs. split; [done|]. split; [done|].
        cbn [clock_of]. replace h with (cd_fork_height cd + N.of_nat (N.to_nat h - n)) by lia.
        exact Hva.
  - intros h x E. fold n in E |- *.
    assert (N.to_nat h < n)%nat as Hlt.
    { apply lookup_lt_Some in E. rewrite take_length in E. lia. }
    assert (tl !! N.to_nat h = Some x) as E' by (by rewrite lookup_take in E).
    destruct (A' h x E') as [?|(p & Ep & Ha)]; [by left|]. right. exists p. split; [|done].
    rewrite <- (app_nil_r (take n tl)). eapply Hkeep; eauto. by rewrite app_nil_r.
Qed.

Lemma acc_extend c0 hist outs c st tl hd now ch c' tl' r :
  run H c0 hist = Val (c, outs) -> INV c tl -> params_ok (c_params c) ->
  extend_outcome H g c tl hd now ch c' tl' r ->
  all_accepted c0 hist st tl -> all_accepted c0 (hist ++ [OExtend hd now ch]) st tl'.
Proof.
  intros Er I Hp O A.
  assert (all_accepted c0 (hist ++ [OExtend hd now ch]) st tl) as A'.
  { intros h x E. destruct (A h x E) as [?|(p & Ep & Ha)]; [by left|]. right. exists p. split; [done|].
    by apply accepted_app. }
  inversion O as [| |c2 r2 Hprev Hv Hst Ho Hr]; subst; auto.
  intros h x E. destruct (decide (N.to_nat h < length tl)%nat) as [Hlt|Hge].
  - rewrite lookup_app_l in E by done. destruct (A' h x E) as [?|(p & Ep & Ha)]; [by left|]. right.
    exists p. split; [|done]. rewrite app_comm_cons. by apply lookup_app_l_Some.
  - apply lookup_app_Some in E as [E|[_ E]]; [apply lookup_lt_Some in E; lia|].
    apply list_lookup_singleton_Some in E as [E1 <-]. right. exists (ne_last g tl).
    assert (N.to_nat h = length tl) as Eh by lia. split.
    + rewrite Eh. clear. destruct tl as [|y t] using rev_ind; [done|]. rewrite ne_last_app, app_length.
      rewrite Nat.add_comm. cbn. rewrite <- app_assoc. by apply list_lookup_middle.
    + exists hist, (OExtend hd now ch), [], c, outs. split; [done|]. split; [done|]. cbn [clock_of].
      replace h with (lenN tl) by (unfold lenN; lia).
      apply validate_iff; [done| |by rewrite <- (inv_last I)]. by rewrite <- last_hash_ne_last.
Qed.

(** A batch is a sequence of single imports, cut short by an error. *)
Lemma loop_singles c0 st now hds : forall c tl hist outs b i c' r,
  INV c tl -> params_ok (c_params c) -> Forall (fun x => fair_choice x.2 /\ rk x.1) hds ->
  run H c0 hist = Val (c, outs) -> all_accepted c0 hist st tl ->
  import_loop H c b i hds now = Val (c', r) ->
  exists l outs' tl', l `sublist_of` map (fun x => OImport [x] now) hds /\
    run H c0 (hist ++ l) = Val (c', outs') /\ INV c' tl' /\ same_cfg c c' /\
    all_accepted c0 (hist ++ l) st tl'.
Proof.
  induction hds as [|[hd ch] hds IH]; intros c tl hist outs b i c' r I Hp Hall Er A E; cbn [import_loop] in E.
  - destruct (batch_finish H c b); cbn [mbind_M] in E; [|done]. injection E as <- <-.
    exists [], outs, tl. rewrite app_nil_r. split; [constructor|]. split; [done|]. split; [done|]. by split.
  - inversion Hall as [|?? [Hf Hr] Hall']; subst. cbn in Hf, Hr.
    destruct (import_one_spec H rank g c tl hd now ch I Hp Hf Hr) as (c1 & tl1 & r1 & r2 & E1 & E2 & I1 & S1 & O & _).
    rewrite E1 in E. cbn [mbind_M] in E.
    pose proof (acc_import c0 hist outs c st tl hd now ch c1 tl1 r1 Er I Hp O A) as A1.
    assert (run H c0 (hist ++ [OImport [(hd, ch)] now]) = Val (c1, outs ++ [r2])) as Er1.
    { rewrite run_app, Er. cbn [mbind_M run step]. rewrite E2. done. }
    assert (params_ok (c_params c1)) as Hp1 by (destruct S1 as [-> _]; done).
    assert (forall b' i', import_loop H c1 b' i' hds now = Val (c', r) ->
      exists l outs' tl', l `sublist_of` map (fun x => OImport [x] now) ((hd, ch) :: hds) /\
       run H c0 (hist ++ l) = Val (c', outs') /\ INV c' tl' /\ same_cfg c c' /\
       all_accepted c0 (hist ++ l) st tl') as Hgo.
    { intros b' i' E'. destruct (IH _ _ _ _ _ _ _ _ I1 Hp1 Hall' Er1 A1 E') as (l & outs' & tl' & Hs & Er' & I' & S' & A').
      exists (OImport [(hd, ch)] now :: l), outs', tl'.
      change (OImport [(hd, ch)] now :: l) with ([OImport [(hd, ch)] now] ++ l). rewrite app_assoc.
      split; [cbn; by constructor|]. split; [done|]. split; [done|]. split; [by eapply same_cfg_trans|done]. }
    assert (forall e, Val (c1, Err (EAborted e i (c_height c1))) = Val (c', r) ->
      exists l outs' tl', l `sublist_of` map (fun x => OImport [x] now) ((hd, ch) :: hds) /\
       run H c0 (hist ++ l) = Val (c', outs') /\ INV c' tl' /\ same_cfg c c' /\
       all_accepted c0 (hist ++ l) st tl') as Hab.
    { intros e [= <- <-]. exists [OImport [(hd, ch)] now], (outs ++ [r2]), tl1.
      split; [cbn; constructor; apply sublist_nil_l|]. done. }
    destruct r1 as [[]|e]; [by eapply Hgo|by eapply Hgo|]. destruct e; eauto.
Qed.

Lemma step_singles c0 st c tl hist outs o c' r :
  INV c tl -> params_ok (c_params c) -> Forall (fun x => fair_choice x.2 /\ rk x.1) (op_inputs o) ->
  run H c0 hist = Val (c, outs) -> all_accepted c0 hist st tl -> step H c o = Val (c', r) ->
  exists l outs' tl', l `sublist_of` single o /\
    run H c0 (hist ++ l) = Val (c', outs') /\ INV c' tl' /\ same_cfg c c' /\
    all_accepted c0 (hist ++ l) st tl'.
Proof.
  intros I Hp Hall Er A E. destruct o as [hds now|hd now ch]; cbn [step single op_inputs] in *.
  - by eapply loop_singles.
  - inversion Hall as [|?? [Hf Hr] _]; subst. cbn in Hf, Hr.
    destruct (extend_tip_spec H rank g c tl hd now ch I Hp Hr) as (c1 & tl1 & r1 & E1 & I1 & S1 & O).
    rewrite E in E1. injection E1 as <- <-.
    exists [OExtend hd now ch], (outs ++ [r]), tl1. split; [done|]. split.
    { rewrite run_app, Er. cbn [mbind_M run step]. rewrite E. done. }
    split; [done|]. split; [done|]. by eapply acc_extend.
Qed.

Lemma run_singles c0 st os : forall c tl hist outs c' rs,
  INV c tl -> params_ok (c_params c) -> fair os -> Forall rk (presented os) ->
  run H c0 hist = Val (c, outs) -> all_accepted c0 hist st tl -> run H c os = Val (c', rs) ->
  exists l outs' tl', l `sublist_of` singles os /\
    run H c0 (hist ++ l) = Val (c', outs') /\ INV c' tl' /\
    all_accepted c0 (hist ++ l) st tl'.
Proof.
  induction os as [|o os IH]; intros c tl hist outs c' rs I Hp Hf Hr Er A E; cbn [run] in E.
  { injection E as <- <-. exists [], outs, tl. rewrite app_nil_r. split; [constructor|]. done. }
  unfold fair, presented, inputs in *. cbn in Hf, Hr. rewrite map_app in Hr.
  apply Forall_app in Hf as [Hf1 Hf2]. apply Forall_app in Hr as [Hr1 Hr2].
  destruct (step H c o) as [[c1 r1]|] eqn:E1; cbn [mbind_M] in E; [|done].
  destruct (run H c1 os) as [[c2 rs2]|] eqn:E2; cbn [mbind_M] in E; [|done]. injection E as <- <-.
  destruct (step_singles c0 st c tl hist outs o c1 r1 I Hp) as (l1 & outs1 & tl1 & Hs1 & Er1 & I1 & S1 & A1); auto.
  { apply Forall_forall. intros x Hx. split; [exact (proj1 (Forall_forall _ _) Hf1 x Hx)|].
    apply (proj1 (Forall_forall _ _) Hr1). by apply elem_of_list_fmap_1. }
  destruct (IH c1 tl1 (hist ++ l1) outs1 c2 rs2) as (l2 & outs2 & tl2 & Hs2 & Er2 & I2 & A2); auto.
  { destruct S1 as [-> _]. done. }
  exists (l1 ++ l2), outs2, tl2. rewrite app_assoc. split; [|done].
  unfold singles. cbn. by apply sublist_app.
Qed.

End Acc.

Theorem active_accepted s ps cps os c outs : params_ok ps ->
  reachable H ng s ps cps os c outs ->
  exists c0 hist outs', from_store H ng s ps cps = Val (Ok c0) /\
    hist `sublist_of` singles os /\ run H c0 hist = Val (c, outs') /\
    forall h p x, get_block_by_height c h = Some p -> get_block_by_height c (h + 1) = Some x ->
      s_tail s !! N.to_nat h = Some x \/ accepted c0 hist h p x.
Proof.
  intros Hp R. destruct (reachable_history H ng s ps cps os c outs Hp R) as (rank & c0 & tl & Hh & Er).
  destruct (run_singles rank (s_genesis s) c0 (s_tail s) os c0 (s_tail s) [] [] c outs) as (l & outs' & tl' & Hs & Er' & I' & A); auto.
  - apply Hh.
  - destruct (rtc_cfg H rank _ _ _ _ _ _ (h_steps _ _ _ _ _ _ _ _ _ _ Hh)) as [E _].
    rewrite <- E, (h_params _ _ _ _ _ _ _ _ _ _ Hh). done.
  - apply R.
  - pose proof (h_rk _ _ _ _ _ _ _ _ _ _ Hh) as Hr. by apply Forall_app in Hr as [_ ?].
  - intros h x E. by left.
  - exists c0, l, outs'. split; [apply Hh|]. split; [done|]. split; [done|].
    intros h p x Ep Ex. rewrite (inv_get_by_height I') in Ep, Ex.
    replace (N.to_nat (h + 1)) with (S (N.to_nat h)) in Ex by lia. cbn in Ex.
    destruct (A h x Ex) as [?|(p' & Ep' & Ha)]; [by left|]. right. assert (p = p') as -> by congruence; done.
Qed.

End Facts.
