(** Invariants and facts about histories of the compact filter manager. *)
From Coq Require Import Sorting.Sorted.
From Verif Require Import Base UtilModel UtilSpec UtilProofs CbfModel CbfSpec CbfProofs CbfStep.
Open Scope N_scope.

Lemma authentic_ext P s s' h f : (forall j, (j <= N.to_nat h)%nat -> f_entries P s' !! j = f_entries P s !! j) ->
  authentic P s h f -> authentic P s' h f.
Proof.
  intros E (hash & header & H1 & H2). exists hash, header. split; [by rewrite E|].
  destruct H2 as [?|(e & L & H2 & H3)]; [by left|]. right. exists e. split; [done|]. split; [|done]. rewrite E by lia. done.
Qed.

Lemma chain_headers_length P prev hashes : length (chain_headers P prev hashes) = length hashes.
Proof. revert prev. induction hashes; intros; cbn; [done|]. by rewrite IHhashes. Qed.
Lemma chain_headers_fst P prev hashes : (chain_headers P prev hashes).*1 = hashes.
Proof. revert prev. induction hashes; intros; cbn; [done|]. by rewrite IHhashes. Qed.

Lemma chained_snoc P l e e' : chained P l -> last l = Some e -> e'.2 = p_header P e'.1 e.2 -> chained P (l ++ [e']).
Proof.
  intros [H1 H2] L E. split.
  - destruct l; [done|]. done.
  - intros i a b Ha Hb. destruct (decide (Datatypes.S i < length l)%nat) as [D|D].
    + rewrite lookup_app_l in Ha, Hb by lia. by apply (H2 i).
    + assert (Datatypes.S i = length l) as Hi.
      { apply lookup_lt_Some in Hb. rewrite app_length in Hb. cbn in Hb. lia. }
      rewrite lookup_app_r, <- Hi, Nat.sub_diag in Hb by lia. injection Hb as <-.
      rewrite lookup_app_l in Ha by lia. rewrite last_lookup, <- Hi in L. cbn in L. rewrite L in Ha. by injection Ha as <-.
Qed.
Lemma chained_headers P hashes : forall l e, chained P l -> last l = Some e -> chained P (l ++ chain_headers P e.2 hashes).
Proof.
  induction hashes as [|h hashes IH]; intros l e C L; cbn [chain_headers]; [by rewrite app_nil_r|].
  rewrite cons_middle, app_assoc.
  apply (IH (l ++ [(h, p_header P h e.2)]) (h, p_header P h e.2)).
  - by apply (chained_snoc P l e).
  - by rewrite last_snoc.
Qed.
Lemma chained_take P l n : chained P l -> (0 < n)%nat -> chained P (take n l).
Proof.
  intros [H1 H2] L. split.
  - destruct n; [lia|]. by destruct l.
  - intros i a b Ha Hb. apply lookup_take_Some in Ha as [Ha _]. apply lookup_take_Some in Hb as [Hb _]. by apply (H2 i).
Qed.
Lemma last_entries P s : last (f_entries P s) = Some (f_tip P s).
Proof.
  unfold f_entries, f_tip, ne_last. destruct (c_filters s) as [|x l _] using rev_ind; [done|].
  rewrite List.last_last, app_comm_cons. apply last_snoc.
Qed.

Lemma entries_same P s s' : c_filters s' = c_filters s -> f_entries P s' = f_entries P s.
Proof. unfold f_entries. by intros ->. Qed.

Lemma quiet_entries P t s s' o : quiet t s s' o -> f_entries P s' = f_entries P s.
Proof. intros Q. apply entries_same. apply Q. Qed.

Lemma import_entries P hs st stop s : f_entries P (after_import hs st stop s) = f_entries P s ++ hs.
Proof. done. Qed.
Lemma rolled_entries P h c s : f_entries P (rolled_back true h c s) = take (Datatypes.S (N.to_nat h)) (f_entries P s).
Proof. done. Qed.

Lemma ok_transfer P cap s s' : cbf_ok P cap s -> f_entries P s' = f_entries P s -> r_cache (c_rescan s') = r_cache (c_rescan s) -> cbf_ok P cap s'.
Proof.
  intros [O1 O2 O3] E C. split.
  - by rewrite C.
  - by rewrite E.
  - intros h f H. rewrite C in H. eapply authentic_ext; [|by apply O3]. intros. by rewrite E.
Qed.

Lemma entries_len P s : length (f_entries P s) = Datatypes.S (N.to_nat (f_height s)).
Proof. unfold f_entries, f_height, lenN. cbn. lia. Qed.
Lemma authentic_height P s h f : authentic P s h f -> h <= f_height s.
Proof. intros (x & y & H & _). apply lookup_lt_Some in H. rewrite entries_len in H. lia. Qed.

Lemma step_ok P cap i s s' x : cbf_ok P cap s -> step_on P i s = Val (s', x) -> cbf_ok P cap s'.
Proof.
  intros Ok E. apply (step_effect P cap) in E; [|done].
  destruct E as [s' x _ Q|from sh prev hs stop st s' x _ _ _ _ Ep _ _ _ Q|from hash height f s' x _ _ _ R Q|
    from hash height f c b r' ms es s' x _ _ A _ Ec Pr E1 E2 E3 E4 _|rev h c s' x ok _ _ L -> Ec Q|from to w start stop s1 r' ms es x y _ Q Pr _].
  - eapply ok_transfer; [exact Ok|by eapply quiet_entries|apply Q].
  - set (s1 := after_import _ _ _ s) in Q. apply (ok_transfer _ _ s1); [|by eapply quiet_entries|apply Q].
    assert (E1 : f_entries P s1 = f_entries P s ++ chain_headers P prev hs) by done.
    split.
    + apply Ok.
    + rewrite E1, Ep. apply chained_headers; [apply Ok|apply last_entries].
    + intros h f H. assert (A : authentic P s h f) by (by apply Ok). eapply authentic_ext; [|exact A].
      intros j Hj. rewrite E1. apply lookup_app_l. rewrite entries_len. apply authentic_height in A. lia.
  - eapply ok_transfer; [exact Ok|by eapply quiet_entries|apply Q].
  - assert (Ce : r_cache (c_rescan s') = c). { rewrite E4. by destruct (ps_same _ _ _ _ _ Pr) as (_ & _ & -> & _). }
    destruct (push_total cap (r_cache (c_rescan s)) height f (ok_cache _ _ _ Ok)) as (c' & b' & Ec' & I' & G).
    rewrite Ec in Ec'. injection Ec' as <- <-. split.
    + by rewrite Ce.
    + rewrite (entries_same P s s' E1). apply Ok.
    + intros h g. rewrite Ce. intros H. eapply (authentic_ext P s); [intros; by rewrite (entries_same P s s' E1)|].
      destruct (G _ _ H) as [[-> ->]|?]; [done|by apply Ok].
  - destruct (rollback_ok lenN cap (r_cache (c_rescan s)) (h - 1) (ok_cache _ _ _ Ok)) as (c' & Ec' & I' & G & _).
    rewrite Ec in Ec'. injection Ec' as <-.
    set (s1 := rolled_back _ _ c s) in Q. apply (ok_transfer _ _ s1); [|by eapply quiet_entries|apply Q].
    assert (Ce : r_cache (c_rescan s1) = c) by (unfold s1, rolled_back; by destruct (k_rollback_ok _)).
    split.
    + by rewrite Ce.
    + unfold s1. destruct (k_rollback_ok (i_k i)); [|apply Ok]. rewrite rolled_entries. apply chained_take; [apply Ok|lia].
    + intros k0 f. rewrite Ce, G. destruct (N.ltb_spec (h - 1) k0); [done|]. intros Hg.
      eapply authentic_ext; [|by apply Ok]. intros j Hj. unfold s1. destruct (k_rollback_ok (i_k i)); [|done].
      rewrite rolled_entries. apply lookup_take. lia.
  - assert (Ce : r_cache r' = r_cache (c_rescan s1)). { destruct Pr as [(-> & _)|Pr]; [done|]. by destruct (ps_same _ _ _ _ _ Pr) as (_ & _ & ? & _). }
    apply (ok_transfer _ _ s); [done|exact (quiet_entries P _ _ _ _ Q)|].
    cbn. rewrite Ce. destruct (q_scan _ _ _ _ Q) as (_ & _ & _ & _ & ->). done.
Qed.

Lemma cbf0_ok P cap st : chained P ((p_genesis P, p_header P (p_genesis P) 0) :: st) -> cbf_ok P cap (cbf0 cap st).
Proof. intros C. split; [apply fc_new_inv|exact C|done]. Qed.

Lemma run_ok P cap ins : forall s s' xs, cbf_ok P cap s -> cbf_run P ins s = Val (s', xs) -> cbf_ok P cap s'.
Proof.
  induction ins as [|i ins IH]; intros s s' xs Ok; cbn [cbf_run]; [by intros [= <- <-]|].
  destruct (step_on P i s) as [[s1 x]|] eqn:E; [|done]. cbn [mbind_M].
  destruct (cbf_run P ins s1) as [[s2 xs']|] eqn:E2; [|done]. intros [= <- <-].
  eapply IH; [|exact E2]. by eapply step_ok.
Qed.

(** ** Verification of the chain *)
Lemma verify_from_spec P l : forall prev,
  verify_from P prev l = true <->
  (forall e, head l = Some e -> e.2 = p_header P e.1 prev) /\ (forall i e e', l !! i = Some e -> l !! Datatypes.S i = Some e' -> e'.2 = p_header P e'.1 e.2).
Proof.
  induction l as [|[h d] l IH]; intros prev; cbn [verify_from].
  - split; [intros _; split; done|done].
  - rewrite andb_true_iff, N.eqb_eq, IH. split.
    + intros (-> & H1 & H2). split; [by intros e [= <-]|]. intros [|i] a b Ha Hb; cbn in Ha, Hb.
      * injection Ha as <-. apply H1. by destruct l.
      * by apply (H2 i).
    + intros (H1 & H2). split; [exact (H1 (h, d) eq_refl)|]. split.
      * intros e He. apply (H2 0%nat (h, d) e); [done|]. destruct l; [done|]. done.
      * intros i. apply (H2 (Datatypes.S i)).
Qed.
Lemma chained_verifies P s : chained P (f_entries P s) -> f_verify P s = true.
Proof.
  intros [H1 H2]. unfold f_verify. cbn [f_entries genesis_entry]. rewrite N.eqb_refl. cbn [andb].
  apply verify_from_spec. split; [|exact H2]. intros e He. unfold f_entries, genesis_entry in H1. cbn in H1, He. injection He as <-. done.
Qed.

(** ** Heights *)
Fixpoint final_tree (old : tree) (ins : list input) : tree :=
  match ins with [] => old | i :: ins' => final_tree (i_tree i) ins' end.

Lemma reverted_last (n m : nat) rev h : rev = N.of_nat <$> reverse (seq (Datatypes.S n) m) -> last rev = Some h -> h = N.of_nat n + 1.
Proof.
  intros -> L. destruct m as [|m]; [done|]. cbn [seq] in L. rewrite reverse_cons, fmap_app in L. cbn in L.
  rewrite last_snoc in L. injection L as <-. lia.
Qed.
Lemma reverted_nil (n m : nat) : last (N.of_nat <$> reverse (seq (Datatypes.S n) m)) = None -> m = 0%nat.
Proof. destruct m as [|m]; [done|]. cbn [seq]. rewrite reverse_cons, fmap_app. cbn. by rewrite last_snoc. Qed.

Definition env_ok (old : tree) (i : input) : Prop :=
  match i_op i with CImported reverted => reorganises old (i_tree i) reverted | _ => i_tree i = old end.

(** A faithful change keeps the blocks up to the reported fork. *)
Lemma env_cases old i s : env_ok old i -> f_height s <= tr_height old ->
  (f_height s <= tr_height (i_tree i)) \/
  exists reverted h, i_op i = CImported reverted /\ last reverted = Some h /\ h - 1 < f_height s /\ h - 1 <= tr_height (i_tree i).
Proof.
  unfold env_ok. intros E L. destruct (i_op i) as [| | | | |rev| | | | | | | | | |] eqn:Eo; try (left; by rewrite E).
  destruct E as (_ & n & added & Hn & Hc & Hr). unfold tr_height in *. rewrite Hc. unfold lenN in *. rewrite app_length, take_length, Nat.min_l by done.
  destruct (last rev) as [h|] eqn:El.
  - pose proof (reverted_last _ _ _ _ Hr El). destruct (N.le_gt_cases (f_height s) (h - 1)); [left; lia|].
    right. exists rev, h. repeat split; try done; lia.
  - rewrite Hr in El. apply reverted_nil in El. left. lia.
Qed.
Lemma env_fork old i reverted h : env_ok old i -> i_op i = CImported reverted -> last reverted = Some h -> h - 1 <= tr_height (i_tree i) /\ 0 < h.
Proof.
  unfold env_ok. intros E Eo El. rewrite Eo in E. destruct E as (_ & n & added & Hn & Hc & Hr). unfold tr_height. rewrite Hc.
  unfold lenN. rewrite app_length, take_length, Nat.min_l by done. pose proof (reverted_last _ _ _ _ Hr El). lia.
Qed.

Lemma import_height P s sh prev hashes stop st t :
  tr_get t sh = Some stop -> f_height s < stop -> stop - f_height s = lenN hashes ->
  f_height (after_import (chain_headers P prev hashes) st sh s) = stop /\ stop <= tr_height t.
Proof.
  intros T L E. split; [|by eapply tr_get_height].
  unfold f_height, after_import, lenN in *. cbn. rewrite app_length, chain_headers_length. lia.
Qed.

Lemma step_heights P cap old i s s' x : cbf_ok P cap s -> step_on P i s = Val (s', x) -> env_ok old i -> k_rollback_ok (i_k i) = true ->
  f_height s <= tr_height old -> f_height s' <= tr_height (i_tree i).
Proof.
  intros Ok E V K L. apply (step_effect P cap) in E; [|done]. pose proof (env_cases _ _ s V L) as W.
  assert (F : forall s s' t o, quiet t s s' o -> f_height s' = f_height s) by (intros ? ? ? ? Q; unfold f_height; by rewrite (q_filters _ _ _ _ Q)).
  destruct E as [s' x NR Q|from sh prev hs stop st s' x _ _ T L1 Ep _ L2 _ Q|from hash height f s' x Eo _ _ R Q|
    from hash height f c b r' ms es s' x Eo _ A _ Ec Pr E1 E2 E3 E4 _|rev h c s' x ok Eo El L2 -> Ec Q|from to w start stop s1 r' ms es x y Eo Q Pr _].
  - rewrite (F _ _ _ _ Q). destruct W as [?|(rev & h & H1 & H2 & H3 & H4)]; [done|]. specialize (NR _ _ H1 H2). lia.
  - rewrite (F _ _ _ _ Q). destruct (import_height P s sh prev hs stop st _ T L1 L2) as (-> & ?). done.
  - rewrite (F _ _ _ _ Q). destruct W as [?|(rev & h & H1 & _)]; [done|congruence].
  - unfold f_height. rewrite E1. fold (f_height s). destruct W as [?|(rev & h & H1 & _)]; [done|congruence].
  - rewrite (F _ _ _ _ Q), K. destruct (env_fork _ _ _ _ V Eo El). unfold f_height. cbn. unfold lenN. rewrite take_length. lia.
  - change (f_height (set_rescan r' s1)) with (f_height s1). rewrite (F _ _ _ _ Q). change (f_height (set_rescan _ s)) with (f_height s).
    destruct W as [?|(rev & h & H1 & _)]; [done|congruence].
Qed.

Lemma step_store P cap i s s' x : cbf_ok P cap s -> step_on P i s = Val (s', x) -> k_put (i_k i) = None -> c_store s = c_filters s -> c_store s' = c_filters s'.
Proof.
  intros Ok E K L. apply (step_effect P cap) in E; [|done].
  destruct E as [s' x NR Q|from sh prev hs stop st s' x _ _ T L1 Ep _ L2 Est Q|from hash height f s' x Eo _ _ R Q|
    from hash height f c b r' ms es s' x Eo _ A _ Ec Pr E1 E2 E3 E4 _|rev h c s' x ok Eo El L2 -> Ec Q|from to w start stop s1 r' ms es x y Eo Q Pr _].
  - by rewrite (q_store _ _ _ _ Q), (q_filters _ _ _ _ Q).
  - rewrite (q_store _ _ _ _ Q), (q_filters _ _ _ _ Q). cbn. by rewrite Est, L.
  - by rewrite (q_store _ _ _ _ Q), (q_filters _ _ _ _ Q).
  - by rewrite E1, E2.
  - rewrite (q_store _ _ _ _ Q), (q_filters _ _ _ _ Q). unfold rolled_back. destruct (k_rollback_ok _); cbn; by rewrite L.
  - cbn. by rewrite (q_store _ _ _ _ Q), (q_filters _ _ _ _ Q).
Qed.

Lemma run_heights P cap ins : forall old s s' xs, cbf_ok P cap s -> c_store s = c_filters s -> f_height s <= tr_height old ->
  faithful old ins -> Forall io_ok ins -> cbf_run P ins s = Val (s', xs) ->
  f_height s' <= tr_height (final_tree old ins) /\ c_store s' = c_filters s' /\ cbf_ok P cap s'.
Proof.
  induction ins as [|i ins IH]; intros old s s' xs Ok St L Fa Io; cbn [cbf_run]; [by intros [= <- <-]|].
  destruct (step_on P i s) as [[s1 x]|] eqn:E; [|done]. cbn [mbind_M].
  destruct (cbf_run P ins s1) as [[s2 xs']|] eqn:E2; [|done]. intros [= <- <-].
  destruct Fa as [V Fa]. inversion Io as [|? ? [I1 I2] Io']; subst. cbn [final_tree].
  eapply (IH (i_tree i) s1); try done.
  - by eapply step_ok.
  - by eapply step_store.
  - by eapply (step_heights P cap old).
Qed.

Lemma step_panic P cap old i s p : cbf_ok P cap s -> c_store s = c_filters s -> f_height s <= tr_height old ->
  env_ok old i -> io_ok i -> step_on P i s = Panic p ->
  (p = PAssert 449 /\ exists a b, i_op i = CRequestFilters a b /\ f_height s < b) \/
  (p = PAssert 707 /\ (exists from stop_hash prev hashes, i_op i = CCFHeaders from 0 stop_hash prev hashes /\ is_Some (c_inflight s !! stop_hash)) /\
   r_active (c_rescan s) = true /\ c_peers s = ∅).
Proof.
  intros Ok St L V [I1 I2] E. destruct (step_spec P cap i s Ok) as [(s1 & x & E1 & _)|(p' & E1 & C)]; rewrite E1 in E; [done|].
  injection E as ->. pose proof (env_cases _ _ s V L) as W.
  destruct C as [[NR C]|[(rev & h & Eo & El & _ & C)|[(rev & h & _ & _ & C)|[(a & b & Eo & -> & C)|
    (from & sh & prev & hs & stop & Eo & H1 & H2 & H3 & H4 & H5 & _ & C)]]]].
  - destruct W as [?|(rev & h & H1 & H2 & H3 & H4)]; [lia|]. specialize (NR _ _ H1 H2). lia.
  - destruct (env_fork _ _ _ _ V Eo El). lia.
  - congruence.
  - left. split; [done|]. by exists a, b.
  - right. pose proof (tr_get_height _ _ _ H2) as T.
    assert (Le : lenN (c_filters s ++ chain_headers P prev hs) = stop).
    { unfold lenN in *. rewrite app_length, chain_headers_length. unfold f_height, lenN in H3, H5. lia. }
    rewrite St in C. cbn in C. rewrite Le in C.
    destruct C as [(-> & A & B)|[(h & C1 & C2)|[C|C]]]; [|exfalso; apply tr_at_none in C2; lia|lia|lia].
    split; [done|]. split; [|done]. by exists from, sh, prev, hs.
Qed.

(** ** Imports *)
Lemma step_grows P cap i s s' x : cbf_ok P cap s -> step_on P i s = Val (s', x) -> f_height s < f_height s' ->
  exists from stop_hash prev hashes stop,
    i_op i = CCFHeaders from 0 stop_hash prev hashes /\ is_Some (c_inflight s !! stop_hash) /\
    tr_get (i_tree i) stop_hash = Some stop /\ f_height s < stop /\ prev = (f_tip P s).2 /\ 1 <= lenN hashes <= 2000 /\ stop - f_height s = lenN hashes /\
    c_filters s' = c_filters s ++ chain_headers P prev hashes /\
    (has s' stop_hash <= count (asks_headers stop_hash) x)%nat.
Proof.
  intros Ok E L. apply (step_effect P cap) in E; [|done].
  assert (F : forall s s' t o, quiet t s s' o -> f_height s' = f_height s) by (intros ? ? ? ? Q; unfold f_height; by rewrite (q_filters _ _ _ _ Q)).
  destruct E as [s' x NR Q|from sh prev hs stop st s' x Eo Ei T L1 Ep Lh L2 Est Q|from hash height f s' x Eo _ _ R Q|
    from hash height f c b r' ms es s' x Eo _ A _ Ec Pr E1 E2 E3 E4 _|rev h c s' x ok Eo El L2 -> Ec Q|from to w start stop s1 r' ms es x y Eo Q Pr _].
  - rewrite (F _ _ _ _ Q) in L. lia.
  - exists from, sh, prev, hs, stop. do 7 (split; [done|]). split; [by rewrite (q_filters _ _ _ _ Q)|].
    pose proof (q_inflight _ _ _ _ Q sh) as X. unfold has in X at 2. cbn in X. rewrite lookup_delete in X. lia.
  - rewrite (F _ _ _ _ Q) in L. lia.
  - unfold f_height in L. rewrite E1 in L. lia.
  - rewrite (F _ _ _ _ Q) in L. unfold rolled_back, f_height in L. destruct (k_rollback_ok _); cbn in L; [|lia].
    unfold lenN in L. rewrite take_length in L. lia.
  - change (f_height (set_rescan r' s1)) with (f_height s1) in L. rewrite (F _ _ _ _ Q) in L. change (f_height (set_rescan _ s)) with (f_height s) in L. lia.
Qed.

Lemma count_quiet_cons f x (l : list cout) : f x = false -> count f (x :: l) = count f l.
Proof. unfold count. cbn. by intros ->. Qed.

Lemma step_inflight P cap i s s' x h : cbf_ok P cap s -> step_on P i s = Val (s', x) -> (has s' h <= has s h + count (asks_headers h) x)%nat.
Proof.
  intros Ok E. apply (step_effect P cap) in E; [|done].
  destruct E as [s' x NR Q|from sh prev hs stop st s' x Eo Ei T L1 Ep Lh L2 Est Q|from hash height f s' x Eo _ _ R Q|
    from hash height f c b r' ms es s' x Eo _ A _ Ec Pr E1 E2 E3 E4 _|rev h' c s' x ok Eo El L2 -> Ec Q|from to w start stop s1 r' ms es x y Eo Q Pr _].
  - apply Q.
  - pose proof (q_inflight _ _ _ _ Q h) as X. unfold has in X at 2. cbn in X. unfold has at 2.
    destruct (decide (sh = h)) as [->|N]; [rewrite lookup_delete in X|rewrite lookup_delete_ne in X by done]; lia.
  - rewrite count_quiet_cons by done. apply Q.
  - unfold has. rewrite E3. lia.
  - pose proof (q_inflight _ _ _ _ Q h) as X. unfold rolled_back in X. by destruct (k_rollback_ok (i_k i)).
  - rewrite count_quiet_cons by done. rewrite !count_app. pose proof (q_inflight _ _ _ _ Q h) as X.
    change (has (set_rescan r' s1) h) with (has s1 h). change (has (set_rescan _ s) h) with (has s h) in X. lia.
Qed.

Lemma run_imports P cap ins : forall s s' xs h, cbf_ok P cap s -> cbf_run P ins s = Val (s', xs) ->
  (imports P h ins s + has s' h <= has s h + count (asks_headers h) (concat xs))%nat.
Proof.
  induction ins as [|i ins IH]; intros s s' xs h Ok; cbn [cbf_run imports]; [intros [= <- <-]; cbn; lia|].
  destruct (step_on P i s) as [[s1 x]|] eqn:E; [|done]. cbn [mbind_M].
  destruct (cbf_run P ins s1) as [[s2 xs']|] eqn:E2; [|done]. intros [= <- <-]. cbn [concat]. rewrite count_app.
  specialize (IH s1 s2 xs' h (step_ok _ _ _ _ _ _ Ok E) E2). pose proof (step_inflight P cap i s s1 x h Ok E) as I1.
  enough (X : ((match i_op i with CCFHeaders _ _ h0 _ _ => if ((h0 =? h) && (f_height s <? f_height s1))%N then 1 else 0 | _ => 0 end) + has s1 h
               <= has s h + count (asks_headers h) x)%nat) by lia.
  destruct (N.ltb_spec (f_height s) (f_height s1)) as [L|L].
  - destruct (step_grows P cap i s s1 x Ok E L) as (from & sh & prev & hs & stop & Eo & [v Ei] & _ & _ & _ & _ & _ & _ & X).
    rewrite Eo, andb_true_r. destruct (N.eqb_spec sh h) as [->|]; [|lia]. unfold has at 2. rewrite Ei. lia.
  - destruct (i_op i); try lia. rewrite andb_false_r. lia.
Qed.

Lemma step_shrinks P cap i s s' x : cbf_ok P cap s -> step_on P i s = Val (s', x) ->
  f_height s < f_height s' \/ (exists n, c_filters s' = take n (c_filters s)).
Proof.
  intros Ok E. pose proof E as E0. apply (step_effect P cap) in E; [|done].
  destruct E as [s' x NR Q|from sh prev hs stop st s' x Eo Ei T L1 Ep Lh L2 Est Q|from hash height f s' x Eo _ _ R Q|
    from hash height f c b r' ms es s' x Eo _ A _ Ec Pr E1 E2 E3 E4 _|rev h' c s' x ok Eo El L2 -> Ec Q|from to w start stop s1 r' ms es x y Eo Q Pr _].
  - right. exists (length (c_filters s)). rewrite (q_filters _ _ _ _ Q). by rewrite take_ge by lia.
  - left. unfold f_height at 2. rewrite (q_filters _ _ _ _ Q). fold (f_height (after_import (chain_headers P prev hs) st sh s)).
    destruct (import_height P s sh prev hs stop st _ T L1 L2) as (-> & _). done.
  - right. exists (length (c_filters s)). rewrite (q_filters _ _ _ _ Q). by rewrite take_ge by lia.
  - right. exists (length (c_filters s)). rewrite E1. by rewrite take_ge by lia.
  - right. rewrite (q_filters _ _ _ _ Q). unfold rolled_back. destruct (k_rollback_ok _); cbn; [by eexists|].
    exists (length (c_filters s)). by rewrite take_ge by lia.
  - right. exists (length (c_filters s)). cbn. rewrite (q_filters _ _ _ _ Q). cbn. by rewrite take_ge by lia.
Qed.
