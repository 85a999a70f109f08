(** Awaited blocks and reports of progress, seen from outside. *)
From Verif Require Import Base UtilModel CbfModel CbfSpec CbfProofs CbfStep CbfMain CbfScan CbfFacts.
Open Scope N_scope.

(** Outputs that say nothing about filters, blocks and scans. *)
Definition plain (o : cout) : Prop :=
  match o with
  | CoFilterReceived _ _ _ _ | CoFilterProcessed _ _ _ _ _ | CoRescanStarted _ _ | CoRescanStopped _ | CoBlockMatched _ _ | CoScanned _ | CoGetBlock _ => False
  | _ => True
  end.
Lemma cfilters_plain o a b t s s' x e : get_cfilters o a b t s = Val (s', x, e) -> Forall plain x.
Proof.
  intros E. destruct (get_cfilters_spec o a b t s) as [[E' _]|(r & o' & e' & E' & _ & _ & _ & _ & F & _)]; rewrite E' in E; [done|].
  injection E as <- <- <-. eapply Forall_impl; [exact F|]. by intros ? (? & ? & ? & ->).
Qed.
Lemma sync_plain P k i now t s s' x : sync P k i now t s = Val (s', x) -> Forall plain x.
Proof.
  unfold sync, assertM. destruct (_ <=? _); [|done]. destruct (match tr_checkpoint t with Some _ => _ | None => _ end); [intros [= <- <-]; constructor|].
  destruct (if f_height s <? tr_height t then _ else _) as [[s1 o]|] eqn:E; [|done]. cbn [mbind_M].
  assert (E1 : Forall plain o).
  { destruct (f_height s <? tr_height t); [|injection E as <- <-; constructor]. unfold send_getcfheaders in E.
    destruct (_ <? _); [injection E as <- <-; constructor|]. destruct (tr_at _ _) as [hash|]; [|done].
    unfold get_cfheaders in E. destruct (c_inflight s !! hash); [injection E as <- <-; constructor|].
    destruct (sample_peer _ _) as [[]|]; injection E as <- <-; by repeat constructor. }
  destruct (r_active (c_rescan s1)); [|by intros [= <- <-]].
  destruct (get_cfilters _ _ _ _ _) as [[[s2 o'] e]|] eqn:G; [|done]. cbn [mbind_M]. intros [= <- <-]. apply cfilters_plain in G. by apply Forall_app.
Qed.
Lemma idle_plain P k now t s s' x : idle P k now t s = Val (s', x) -> Forall plain x.
Proof.
  unfold idle. destruct (_ <=? _); [|intros [= <- <-]; constructor]. destruct (sync _ _ _ _ _ _) as [[s1 o]|] eqn:E; [|done]. cbn [mbind_M].
  intros [= <- <-]. apply sync_plain in E. apply Forall_app. split; [done|]. by repeat constructor.
Qed.
Lemma expire_plain P k now hs : forall i s, Forall plain (expire P k now i hs s).2.
Proof.
  induction hs as [|h hs IH]; intros i s; cbn [expire]; [constructor|].
  assert (X : forall s1 o, Forall plain o -> Forall plain (let '(s, o') := expire P k now (Datatypes.S i) hs s1 in (s, o ++ o')).2).
  { intros s1 o E. specialize (IH (Datatypes.S i) s1). destruct (expire _ _ _ _ _ s1). cbn in *. by apply Forall_app. }
  destruct (c_inflight s !! h) as [[[start addr] expiry]|]; [|apply X; constructor]. destruct (_ <=? _); [|apply X; constructor].
  destruct (sample_peer _ _) as [[a persistent]|]; [|apply X; constructor]. apply X. destruct (_ && _); by repeat constructor.
Qed.

Lemma step_same P i s s' x : step_on P i s = Val (s', x) ->
  match i_op i with CCFilter _ _ _ _ | CBlockProcessed _ _ | CBlockDisconnected _ => False | _ => True end ->
  c_pending s' = c_pending s /\ (match i_op i with CRescan _ _ _ => forall o, o ∈ x -> (forall b h, o <> CoBlockMatched b h) /\ (forall k, o <> CoScanned k) | _ => Forall plain x end).
Proof.
  destruct i as [k now t o]. unfold step_on. cbn [i_k i_now i_tree i_op]. intros E B.
  destruct o; cbn [cbf_step] in E; try done.
  - pose proof (idle_plain _ _ _ _ _ _ _ E). apply idle_pending in E. done.
  - unfold cbf_negotiated in E. destruct (_ && _); [|injection E as <- <-; by repeat constructor]. pose proof (sync_plain _ _ _ _ _ _ _ _ E). apply sync_pending in E. done.
  - injection E as <- <-. by repeat constructor.
  - destruct (match last reverted with Some _ => _ | None => _ end) as [[s1 o1]|] eqn:E1; [|done]. cbn [mbind_M] in E.
    destruct (sync _ _ _ _ _ _) as [[s2 o2]|] eqn:E2; [|done]. cbn [mbind_M] in E. injection E as <- <-. pose proof (sync_plain _ _ _ _ _ _ _ _ E2) as F. apply sync_pending in E2. rewrite E2.
    assert (X : c_pending s1 = c_pending s /\ Forall plain o1); [|split; [apply X|apply Forall_app; split; [apply X|done]]].
    destruct (last reverted) as [hh|]; [|injection E1 as <- <-; by repeat constructor]. unfold cbf_rollback in E1.
    destruct (_ <=? _); [injection E1 as <- <-; by repeat constructor|]. unfold r_rollback in E1. destruct (fc_rollback _ _ _) as [c|]; [|done]. cbn [mbind_M] in E1.
    unfold f_rollback in E1. destruct (k_rollback_ok k); [|injection E1 as <- <-; by repeat constructor].
    destruct (_ && _); injection E1 as <- <-; by repeat constructor.
  - injection E as <- <-. by repeat constructor.
  - injection E as <- <-. by repeat constructor.
  - unfold received_cfheaders in E. destruct (c_inflight s !! stop_hash); [|injection E as <- <-; by repeat constructor].
    destruct (negb _); [injection E as <- <-; by repeat constructor|]. destruct (tr_get _ _); [|injection E as <- <-; by repeat constructor]. destruct (_ <=? _); [injection E as <- <-; by repeat constructor|].
    destruct (negb _); [injection E as <- <-; by repeat constructor|]. destruct (_ <? _); [injection E as <- <-; by repeat constructor|]. destruct (_ =? 0); [injection E as <- <-; by repeat constructor|].
    destruct (negb _); [injection E as <- <-; by repeat constructor|]. unfold f_import in E. destruct (k_put k); [injection E as <- <-; by repeat constructor|].
    destruct (headers_imported _ _ _ _ _) as [[[s1 o1] e]|] eqn:E1; [|done]. cbn [mbind_M] in E.
    assert (X : c_pending s1 = c_pending s /\ Forall plain o1).
    { unfold headers_imported in E1. destruct (r_active _); [|injection E1 as <- <- _; by repeat constructor]. destruct (_ <? _); [injection E1 as <- <- _; by repeat constructor|].
      pose proof (cfilters_plain _ _ _ _ _ _ _ _ E1). apply get_cfilters_pending in E1. by rewrite E1. }
    destruct X as [X1 X2].
    destruct e; [done|]. unfold assertM in E. destruct (_ <=? _); [|done]. destruct (_ =? _); [injection E as <- <-; split; [done|]; apply Forall_app; split; [done|by repeat constructor]|].
    destruct (sync _ _ _ _ _ _) as [[s2 o2]|] eqn:E2; [|done]. cbn [mbind_M] in E. injection E as <- <-. pose proof (sync_plain _ _ _ _ _ _ _ _ E2) as F. apply sync_pending in E2.
    split; [congruence|]. by apply Forall_app.
  - unfold received_getcfheaders in E. destruct (negb _); [injection E as <- <-; by repeat constructor|]. destruct (tr_get _ _); [|injection E as <- <-; by repeat constructor].
    destruct (f_range _ _ _ _); [injection E as <- <-; by repeat constructor|]. destruct (f_prev _ _ _); [injection E as <- <-; by repeat constructor|done].
  - unfold cbf_timer in E. destruct (idle _ _ _ _ _) as [[s1 o1]|] eqn:E1; [|done]. cbn [mbind_M] in E. pose proof (idle_plain _ _ _ _ _ _ _ E1) as F1. apply idle_pending in E1.
    pose proof (expire_pending P k now (k_order k 3 (fst <$> map_to_list (c_inflight s1))) 0 s1) as X.
    pose proof (expire_plain P k now (k_order k 3 (fst <$> map_to_list (c_inflight s1))) 0 s1) as F2. destruct (expire _ _ _ _ _ _) as [s2 o2]. cbn in X, F2.
    destruct (_ && _); [|injection E as <- <-; split; [congruence|by apply Forall_app]].
    destruct (get_cfilters _ _ _ _ _) as [[[s3 o3] e]|] eqn:G; [|done]. cbn [mbind_M] in E. injection E as <- <-. pose proof (cfilters_plain _ _ _ _ _ _ _ _ G) as F3. apply get_cfilters_pending in G. cbn in G.
    split; [congruence|]. apply Forall_app. split; [done|]. by apply Forall_app.
  - injection E as <- <-. by repeat constructor.
  - injection E as <- <-. by repeat constructor.
  - unfold cbf_rescan in E.
    assert (S1 : forall st sp o, o ∈ [CoRescanStarted st sp] -> (forall b h, o <> CoBlockMatched b h) /\ (forall k, o <> CoScanned k)) by (intros ? ? ? ->%elem_of_list_singleton; done).
    destruct (decide _); [injection E as <- <-; split; [done|]; apply S1|]. destruct (_ <? _); [injection E as <- <-; split; [done|]; apply S1|].
    destruct (get_cfilters _ _ _ _ _) as [[[s3 o3] e]|] eqn:G; [|done]. cbn [mbind_M] in E. pose proof (cfilters_plain _ _ _ _ _ _ _ _ G) as F. apply get_cfilters_pending in G. cbn in G.
    destruct (process_spec P (c_rescan s3)) as (r & ms & es & Ep & Pr). rewrite Ep in E. cbn [mbind_M] in E.
    destruct e as [[]|]; [done| |]; injection E as <- <-; (split; [done|]); intros o [->|[I|[I|I]%elem_of_app]%elem_of_app]%elem_of_cons; try done;
      try (rewrite Forall_forall in F; apply F in I; by destruct o);
      try (apply elem_of_list_fmap in I as (? & -> & _); done);
      destruct Pr as [_ _ _ _ _ (l & _ & _ & ->) _]; (apply elem_of_app in I as [I|I]; [apply elem_of_lookup_imap in I as (? & [[? ?] ?] & -> & _); done|]);
      (destruct (bool_decide _); [apply elem_of_list_singleton in I as ->; done|by apply elem_of_nil in I]).
  - destruct (get_cfilters _ _ _ _ _) as [[[s3 o3] e]|] eqn:G; [|done]. cbn [mbind_M] in E. injection E as <- <-. pose proof (cfilters_plain _ _ _ _ _ _ _ _ G). apply get_cfilters_pending in G.
    split; [congruence|]. apply Forall_app. split; [done|]. by repeat constructor.
Qed.

Lemma want_elem ms : forall p h, h ∈ (want_blocks ms p).1 <-> h ∈ p \/ h ∈ ms.*1.
Proof.
  induction ms as [|[h0 hash] ms IH]; intros p h; cbn [want_blocks].
  - cbn. rewrite elem_of_nil. tauto.
  - rewrite fmap_cons, elem_of_cons. cbn [fst]. destruct (decide (h0 ∈ p)) as [I|I].
    + rewrite IH. split; [tauto|]. intros [?|[->|?]]; tauto.
    + specialize (IH ({[h0]} ∪ p) h). destruct (want_blocks ms _) as [p' o]. cbn [fst] in *. rewrite IH, elem_of_union, elem_of_singleton. tauto.
Qed.
Lemma matched_existsb h x : existsb (matched_at h) x = true <-> exists b v c, CoFilterProcessed b h v true c ∈ x.
Proof.
  rewrite existsb_exists. split.
  - intros (o & I & M). apply elem_of_list_In in I. destruct o; try done. cbn in M. destruct matched; [|done]. apply N.eqb_eq in M as ->. eauto.
  - intros (b & v & c & I). eexists. split; [apply elem_of_list_In; exact I|]. cbn. apply N.eqb_refl.
Qed.

(** The arrival of a filter. *)
Lemma cfilter_wait P cap from ft hash f i s s' x : cbf_ok P cap s -> i_op i = CCFilter from ft hash f -> step_on P i s = Val (s', x) ->
  (forall h, h ∈ c_pending s' <-> h ∈ c_pending s \/ exists b v c, CoFilterProcessed b h v true c ∈ x) /\
  (forall k, CoScanned k ∈ x -> c_pending s' = ∅ /\ k = r_current (c_rescan s')) /\ (forall b h, CoBlockMatched b h ∉ x).
Proof.
  intros Ok Op E. unfold step_on, cbf_step in E. rewrite Op in E. unfold received_cfilter in E.
  assert (N0 : forall y, Forall plain y -> s' = s -> x = y -> (forall h, h ∈ c_pending s' <-> h ∈ c_pending s \/ exists b v c, CoFilterProcessed b h v true c ∈ x) /\
    (forall k, CoScanned k ∈ x -> c_pending s' = ∅ /\ k = r_current (c_rescan s')) /\ (forall b h, CoBlockMatched b h ∉ x)).
  { intros y F -> ->. rewrite Forall_forall in F. split; [|split].
    - intros h. split; [tauto|]. intros [?|(b & v & c & I)]; [done|]. apply F in I. done.
    - intros k I. apply F in I. done.
    - intros b h I. apply F in I. done. }
  destruct (negb _); [injection E as <- <-; eapply N0; [|done..]; by repeat constructor|].
  destruct (tr_get _ _); [|injection E as <- <-; eapply N0; [|done..]; by repeat constructor].
  destruct (f_get _ _ _) as [[]|]; [|injection E as <- <-; eapply N0; [|done..]; by repeat constructor]. destruct (f_prev _ _ _); [|done].
  destruct (negb _); [injection E as <- <-; eapply N0; [|done..]; by repeat constructor|].
  destruct (r_receive _ _ _ _) as [[r []]|]; [| |done]; cbn [mbind_M] in E.
  - destruct (process_spec P r) as (r' & ms & es & Ep & Pr). rewrite Ep in E. cbn [mbind_M] in E.
    set (s1 := if _ <? _ then _ else _) in E. assert (X : c_pending s1 = c_pending s /\ r_current (c_rescan s1) = r_current r') by (unfold s1; by destruct (_ <? _)).
    destruct X as [X1 X2].
    pose proof (want_elem ms (c_pending s1)) as W. pose proof (want_quiet ms (c_pending s1)) as Q. destruct (want_blocks ms (c_pending s1)) as [p o]. cbn [fst snd] in W, Q.
    injection E as <- <-.
    assert (Es : forall o', o' ∈ es -> (forall b h, o' <> CoBlockMatched b h) /\ (forall k, o' <> CoScanned k)).
    { destruct Pr as [_ _ _ _ _ (l & _ & _ & ->) _]. intros o' [I|I]%elem_of_app; [apply elem_of_lookup_imap in I as (? & [[? ?] ?] & -> & _); done|].
      destruct (bool_decide _); [apply elem_of_list_singleton in I as ->; done|by apply elem_of_nil in I]. }
    rewrite Forall_forall in Q.
    split; [|split].
    + intros h'. cbn [c_pending set_pending]. rewrite W, X1. apply or_iff_compat_l. rewrite (ps_matches _ _ _ _ _ Pr), elem_of_list_fmap. split.
      * intros ([h0 b] & -> & I). apply elem_of_list_omap in I as (e & I & Y). destruct e; try done. destruct matched; [|done]. injection Y as <- <-.
        exists block, valid, cached. right. apply elem_of_app. by left.
      * intros (b & v & c & I). apply elem_of_cons in I as [I|I]; [done|]. apply elem_of_app in I as [I|I].
        -- exists (h', b). split; [done|]. apply elem_of_list_omap. by exists (CoFilterProcessed b h' v true c).
        -- exfalso. apply elem_of_app in I as [I|I]; [by destruct (Q _ I)|]. destruct (decide _); [by apply elem_of_list_singleton in I|by apply elem_of_nil in I].
    + intros k I. apply elem_of_cons in I as [I|I]; [done|]. apply elem_of_app in I as [I|I]; [by destruct (Es _ I) as [_ Y]; destruct (Y k)|].
      apply elem_of_app in I as [I|I]; [by destruct (Q _ I)|]. destruct (decide _); [|by apply elem_of_nil in I]. apply elem_of_list_singleton in I as [= ->]. cbn. by rewrite X2.
    + intros b h' I. apply elem_of_cons in I as [I|I]; [done|]. apply elem_of_app in I as [I|I]; [by destruct (Es _ I) as [Y _]; destruct (Y b h')|].
      apply elem_of_app in I as [I|I]; [by destruct (Q _ I)|]. destruct (decide _); [by apply elem_of_list_singleton in I|by apply elem_of_nil in I].
  - cbn [want_blocks] in E. injection E as <- <-. cbn [c_pending set_pending app]. split; [|split].
    + intros h'. split; [tauto|]. intros [?|(b & v & c & I)]; [done|]. apply elem_of_cons in I as [I|I]; [done|].
      destruct (decide _); [by apply elem_of_list_singleton in I|by apply elem_of_nil in I].
    + intros k I. apply elem_of_cons in I as [I|I]; [done|]. destruct (decide _); [|by apply elem_of_nil in I]. apply elem_of_list_singleton in I as [= ->]. done.
    + intros b h' I. apply elem_of_cons in I as [I|I]; [done|]. destruct (decide _); [by apply elem_of_list_singleton in I|by apply elem_of_nil in I].
Qed.

Lemma step_wait P cap i s s' x h : cbf_ok P cap s -> step_on P i s = Val (s', x) ->
  bool_decide (h ∈ c_pending s') = wait_step h i x (bool_decide (h ∈ c_pending s)).
Proof.
  intros Ok E. unfold wait_step. destruct (i_op i) eqn:Op.
  all: try (destruct (step_same P i s s' x E) as [-> _]; [by rewrite Op|done]).
  - unfold step_on, cbf_step in E. rewrite Op in E. destruct (decide (height ∈ c_pending s)) as [I|I]; injection E as <- <-.
    + cbn [c_pending set_pending]. destruct (N.eqb_spec height h) as [->|NE]; [apply bool_decide_eq_false; set_solver|]. apply bool_decide_ext. set_solver.
    + destruct (N.eqb_spec height h) as [->|NE]; [by apply bool_decide_eq_false|done].
  - unfold step_on, cbf_step in E. rewrite Op in E. injection E as <- <-. cbn [c_pending set_pending].
    destruct (N.eqb_spec height h) as [->|NE]; [apply bool_decide_eq_false; set_solver|]. apply bool_decide_ext. set_solver.
  - destruct (cfilter_wait P cap _ _ _ _ i s s' x Ok Op E) as [A _]. apply eq_true_iff_eq. rewrite bool_decide_eq_true, A, orb_true_iff, bool_decide_eq_true, matched_existsb. done.
Qed.
Lemma run_wait P cap ins h : forall s s' outs, cbf_ok P cap s -> cbf_run P ins s = Val (s', outs) ->
  bool_decide (h ∈ c_pending s') = waiting h ins outs (bool_decide (h ∈ c_pending s)).
Proof.
  induction ins as [|i ins IH]; intros s s' outs Ok; cbn [cbf_run]; [by intros [= <- <-]|].
  destruct (step_on P i s) as [[s1 x]|] eqn:E; [cbn [mbind_M]|done]. destruct (cbf_run P ins s1) as [[s2 xs]|] eqn:R; [cbn [mbind_M]|done].
  intros [= <- <-]. cbn [waiting]. rewrite <- (step_wait P cap i s s1 x h Ok E). eapply IH; [|exact R]. by eapply step_ok.
Qed.
Lemma reach_wait P cap st ins s outs h : chained P ((p_genesis P, p_header P (p_genesis P) 0) :: st) -> cbf_reach P cap st ins s outs ->
  waiting h ins outs false = true <-> h ∈ c_pending s.
Proof.
  intros C R. pose proof (run_wait P cap ins h _ s outs (cbf0_ok P cap st C) R) as X. change (c_pending (cbf0 cap st)) with (∅ : gset N) in X.
  rewrite (bool_decide_false (h ∈ ∅)) in X by (apply not_elem_of_empty). rewrite <- X. apply bool_decide_eq_true.
Qed.

(** Reports. *)
Lemma step_matched P cap i s s' x b h : cbf_ok P cap s -> step_on P i s = Val (s', x) -> CoBlockMatched b h ∈ x -> i_op i = CBlockProcessed b h /\ h ∈ c_pending s.
Proof.
  intros Ok E I. destruct (i_op i) eqn:Op.
  all: try (exfalso; destruct (step_same P i s s' x E) as [_ F]; [by rewrite Op|]; rewrite Op in F; by rewrite Forall_forall in F; apply F in I).
  - unfold step_on, cbf_step in E. rewrite Op in E. destruct (decide _); injection E as <- <-; [|by apply elem_of_nil in I].
    apply elem_of_cons in I as [[= -> ->]|I]; [done|]. by apply elem_of_list_singleton in I.
  - unfold step_on, cbf_step in E. rewrite Op in E. injection E as <- <-. by apply elem_of_nil in I.
  - exfalso. destruct (cfilter_wait P cap _ _ _ _ i s s' x Ok Op E) as (_ & _ & A). by apply A in I.
  - exfalso. destruct (step_same P i s s' x E) as [_ F]; [by rewrite Op|]. rewrite Op in F. by destruct (F _ I) as [Y _]; destruct (Y b h).
Qed.
Lemma step_reports P i s s' x b h : i_op i = CBlockProcessed b h -> h ∈ c_pending s -> step_on P i s = Val (s', x) -> CoBlockMatched b h ∈ x.
Proof.
  intros Op I E. unfold step_on, cbf_step in E. rewrite Op in E. destruct (decide (_ ∈ _)); [|done]. injection E as <- <-. left.
Qed.
Lemma step_scanned P cap i s s' x k : cbf_ok P cap s -> step_on P i s = Val (s', x) -> CoScanned k ∈ x ->
  (c_pending s' = ∅ /\ k = r_current (c_rescan s')) \/
  exists b h, i_op i = CBlockProcessed b h /\ h ∈ c_pending s /\ c_pending s' = c_pending s ∖ {[h]} /\ c_rescan s' = c_rescan s /\
    ((c_pending s' = ∅ /\ k = N.max (r_current (c_rescan s')) h) \/ k = h).
Proof.
  intros Ok E I. destruct (i_op i) eqn:Op.
  all: try (exfalso; destruct (step_same P i s s' x E) as [_ F]; [by rewrite Op|]; rewrite Op in F; by rewrite Forall_forall in F; apply F in I).
  - right. unfold step_on, cbf_step in E. rewrite Op in E. destruct (decide (_ ∈ _)); injection E as <- <-; [|by apply elem_of_nil in I].
    apply elem_of_cons in I as [I|I]; [done|]. apply elem_of_list_singleton in I as [= ->]. exists block, height. do 2 (split; [done|]). split; [done|]. split; [done|].
    destruct (decide _); [left|right]; done.
  - unfold step_on, cbf_step in E. rewrite Op in E. injection E as <- <-. by apply elem_of_nil in I.
  - left. destruct (cfilter_wait P cap _ _ _ _ i s s' x Ok Op E) as (_ & A & _). by apply A.
  - exfalso. destruct (step_same P i s s' x E) as [_ F]; [by rewrite Op|]. rewrite Op in F. by destruct (F _ I) as [_ Y]; destruct (Y k).
Qed.

(** ** Progress of a scan *)
Lemma heights_from_bound a n h : h ∈ heights_from a n -> h < a + N.of_nat n.
Proof. unfold heights_from. intros (j & -> & I)%elem_of_list_fmap. apply elem_of_seq in I. lia. Qed.
Definition behind (s : cbf) : Prop := forall h, h ∈ c_pending s -> h < r_current (c_rescan s).
Lemma step_behind P cap i s s' x : cbf_ok P cap s -> step_on P i s = Val (s', x) -> scan_goes_on i -> behind s -> behind s'.
Proof.
  intros Ok E G B. destruct (run_goes_on P cap [i] s s' [x] Ok) as [S NS].
  { cbn [cbf_run]. by rewrite E. } { by constructor. }
  cbn [concat] in S, NS. rewrite app_nil_r in S, NS. destruct (scan_consecutive x _ _ S NS) as (n & H1 & H2 & _). cbn in H1, H2.
  intros h I. assert (X : h ∈ c_pending s \/ exists b v c, CoFilterProcessed b h v true c ∈ x).
  { destruct (i_op i) eqn:Op. all: try (destruct (step_same P i s s' x E) as [Y _]; [by rewrite Op|]; left; by rewrite <- Y).
    - left. unfold step_on, cbf_step in E. rewrite Op in E. destruct (decide _); injection E as <- <-; [|done]. cbn in I. set_solver.
    - left. unfold step_on, cbf_step in E. rewrite Op in E. injection E as <- <-. cbn in I. set_solver.
    - destruct (cfilter_wait P cap _ _ _ _ i s s' x Ok Op E) as [A _]. by apply A. }
  destruct X as [X|(b & v & c & X)]; [specialize (B h X); lia|].
  assert (Y : h ∈ processed_heights x). { apply elem_of_list_omap. by eexists. }
  rewrite H1 in Y. apply heights_from_bound in Y. lia.
Qed.
Lemma run_behind P cap ins : forall s s' xs, cbf_ok P cap s -> cbf_run P ins s = Val (s', xs) -> Forall scan_goes_on ins -> behind s -> behind s'.
Proof.
  induction ins as [|i ins IH]; intros s s' xs Ok; cbn [cbf_run]; [by intros [= <- <-]|].
  destruct (step_on P i s) as [[s1 x]|] eqn:E; [cbn [mbind_M]|done]. destruct (cbf_run P ins s1) as [[s2 xs']|] eqn:R; [cbn [mbind_M]|done].
  intros [= <- <-] G B. apply Forall_cons in G as [G1 G2]. eapply (IH s1); [by eapply step_ok|exact R|done|]. by eapply step_behind.
Qed.
Lemma run_snoc P ins i : forall s s1 s2 xs x, cbf_run P ins s = Val (s1, xs) -> step_on P i s1 = Val (s2, x) -> cbf_run P (ins ++ [i]) s = Val (s2, xs ++ [x]).
Proof.
  induction ins as [|j ins IH]; intros s s1 s2 xs x; cbn [app cbf_run].
  - intros [= <- <-] ->. done.
  - destruct (step_on P j s) as [[s3 y]|]; [cbn [mbind_M]|done]. destruct (cbf_run P ins s3) as [[s4 ys]|] eqn:R; [cbn [mbind_M]|done].
    intros [= <- <-] E. rewrite (IH _ _ _ _ _ R E). done.
Qed.

Lemma scanned_truthful P cap st ins0 s0 outs0 i s1 x ins s' xs i' s2 x' from to watch k :
  chained P ((p_genesis P, p_header P (p_genesis P) 0) :: st) -> cbf_reach P cap st ins0 s0 outs0 ->
  (forall h, waiting h ins0 outs0 false = false) ->
  i_op i = CRescan from to watch -> step_on P i s0 = Val (s1, x) -> cbf_run P ins s1 = Val (s', xs) -> step_on P i' s' = Val (s2, x') ->
  Forall scan_goes_on (ins ++ [i']) -> CoScanned k ∈ x' ->
  (forall b h h', i_op i' = CBlockProcessed b h -> h' < h -> waiting h' (ins0 ++ i :: ins) (outs0 ++ x :: xs) false = false) ->
  (forall h, h < k -> waiting h (ins0 ++ i :: ins ++ [i']) (outs0 ++ x :: xs ++ [x']) false = false) /\
  exists start stop y n, x = CoRescanStarted start stop :: y /\ processed_heights (y ++ concat xs ++ x') = heights_from start n /\ k <= start + N.of_nat n.
Proof.
  intros C R W Op E Rr E' G I InO. pose proof (reach_ok P cap st ins0 s0 outs0 C R) as Ok0. pose proof (step_ok P cap _ _ _ _ Ok0 E) as Ok1.
  pose proof (run_ok P cap ins _ _ _ Ok1 Rr) as Ok2. pose proof (run_snoc P ins i' _ _ _ _ _ Rr E') as Rs.
  assert (R2 : forall ins' s3 ys, cbf_run P ins' s1 = Val (s3, ys) -> cbf_reach P cap st (ins0 ++ i :: ins') s3 (outs0 ++ x :: ys)).
  { intros ins' s3 ys Y. unfold cbf_reach in *. clear -R E Y. revert R. generalize (cbf0 cap st) as s. revert outs0. induction ins0 as [|j l IH]; intros outs0 s; cbn [app cbf_run].
    - intros [= -> <-]. rewrite E. cbn [mbind_M]. rewrite Y. done.
    - destruct (step_on P j s) as [[s4 y]|]; [cbn [mbind_M]|done]. destruct (cbf_run P l s4) as [[s5 ys5]|] eqn:Rl; [cbn [mbind_M]|done].
      intros [= -> <-]. rewrite (IH _ _ Rl). done. }
  destruct (rescan_consecutive P cap i (ins ++ [i']) s0 s1 x s2 (xs ++ [x']) from to watch Ok0 Op E Rs G) as (start & stop & y & n & X1 & X2 & _ & X3).
  assert (Pe0 : c_pending s0 = ∅). { apply set_eq. intros h. rewrite <- (reach_wait P cap st ins0 s0 outs0 h C R), W. set_solver. }
  assert (B : behind s').
  { apply Forall_app in G as [G _]. apply (run_behind P cap ins s1 s' xs Ok1 Rr G). intros h Ih. destruct (step_same P i s0 s1 x E) as [Y _]; [by rewrite Op|].
    rewrite Y, Pe0 in Ih. set_solver. }
  assert (Wt : forall h, h ∉ c_pending s2 -> waiting h (ins0 ++ i :: ins ++ [i']) (outs0 ++ x :: xs ++ [x']) false = false).
  { intros h Nh. apply not_true_is_false. rewrite (reach_wait P cap st _ s2 _ h C (R2 _ _ _ Rs)). done. }
  assert (Kb : (forall h, h < k -> h ∉ c_pending s2) /\ k <= r_current (c_rescan s2)).
  { destruct (step_scanned P cap i' s' s2 x' k Ok2 E' I) as [[Y1 Y2]|(b & h & Y1 & Y2 & Y3 & Y4 & Y5)].
    - split; [|lia]. rewrite Y1. set_solver.
    - pose proof (B h Y2) as L. rewrite Y4. destruct Y5 as [[Y5 Y6]| ->].
      + rewrite Y4 in Y6. split; [rewrite Y5; set_solver|lia].
      + split; [|lia]. intros h' L' Ih. rewrite Y3 in Ih. apply elem_of_difference in Ih as [Ih _].
        specialize (InO b h h' Y1 L'). apply (reach_wait P cap st _ s' _ h' C (R2 _ _ _ Rr)) in Ih. congruence. }
  split; [intros h L; by apply Wt, Kb|]. exists start, stop, y, n. split; [exact X1|]. split; [|lia].
  rewrite concat_app in X2. cbn [concat] in X2. by rewrite app_nil_r in X2.
Qed.
