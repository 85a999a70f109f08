(** The sync manager together with the header cache: the operations it makes
    on the cache, absence of panics, announcements. *)
From Verif Require Import Base PowModel BlockModel BlockSpec BlockMain BlockFacts BlockOrigin BlockQueries
  SyncModel SyncSpec SyncProofs SyncMain.
Open Scope N_scope.

Section Facts.
Context (H : header -> N) (ng : network -> N) (cf : sconf).


(** What a step does to the cache: nothing, or one import, after which the
    rest of its outputs follow. *)
Lemma step_import oe s c s' c' x : sync_step H cf oe (s, c) = Val (s', c', x) ->
  (c' = c /\ Forall (fun o => match o with SoImported _ _ _ _ _ => False | SoHeaders a _ => exists l, oe.1 = SGetHeaders a l | _ => True end) x) \/
  exists hds s1 x1 y r, op_imports oe = [OImport hds (se_block_time oe.2)] /\
    sync_import H oe.2 hds c s1 = Val (c', x1, r) /\ x = x1 ++ y /\
    (forall a p, sy_peers s !! a = Some p -> exists p1, sy_peers s1 !! a = Some p1 /\ sp_outbound p1 = sp_outbound p /\ sp_height p1 = sp_height p) /\
    (forall a p1, sy_peers s1 !! a = Some p1 -> exists p, sy_peers s !! a = Some p /\ sp_outbound p1 = sp_outbound p /\ sp_height p1 = sp_height p) /\
    (forall o, o ∈ y -> match o with
       | SoImported _ _ _ _ _ => False
       | SoHeaders a hs => exists tip k h rv cn s2, r = Ok (TipChanged tip k h rv cn) /\ SoHeaders a hs ∈ broadcast_tip (se_order oe.2 4) k c' s2 /\
           (forall a p2, sy_peers s2 !! a = Some p2 -> exists p, sy_peers s !! a = Some p /\ sp_outbound p2 = sp_outbound p /\ sp_height p <= sp_height p2)
       | _ => True end).
Proof.
  assert (forall e a l t s s' x, request cf e a l t s = (s', x) ->
    Forall (fun o => match o with SoImported _ _ _ _ _ | SoHeaders _ _ => False | _ => True end) x) as Rq.
  { intros e a l t s0 s0' x0 R. apply Forall_forall. intros o I.
    by destruct (request_outputs cf _ _ _ _ _ _ _ _ R I) as [ -> | [ -> | -> ] ]. }
  assert (forall e l ps s s' x, request_all cf e l ps s = (s', x) ->
    Forall (fun o => match o with SoImported _ _ _ _ _ | SoHeaders _ _ => False | _ => True end) x) as Ra.
  { intros e l ps. induction ps as [|p ps IH]; intros s0 s2 x2; cbn; [by intros [= <- <-]|].
    destruct (request _ _ _ _ _ _) as [s3 x3] eqn:R. destruct (request_all _ _ _ _ _) as [s4 x4] eqn:R2.
    intros [= <- <-]. apply Forall_app. split; [by eapply Rq|by eapply IH]. }
  assert (forall e c s s' x b, do_sync H cf e c s = Val (s', x, b) ->
    Forall (fun o => match o with SoImported _ _ _ _ _ | SoHeaders _ _ => False | _ => True end) x) as Ds.
  { intros e c0 s0 s0' x0 b. unfold do_sync. destruct (addrs s0) as [|? ?]; [intros [= <- <- <-]; done|].
    destruct (is_synced _ _ _ _ _); [intros [= <- <- <-]; by constructor|].
    destruct (locator_hashes H c0 (c_height c0)) as [lh|]; [cbn|done].
    destruct (syncing _ _); [by intros [= <- <- <-]|].
    destruct (preferred_peer _ _ _ _); [|by intros [= <- <- <-]].
    destruct (_ <? _); [|by intros [= <- <- <-]].
    destruct (request _ _ _ _ _ _) as [s1 x1] eqn:R. intros [= <- <- <-]. by eapply Rq. }
  assert (forall e c s s' x, idle H cf e c s = Val (s', x) ->
    Forall (fun o => match o with SoImported _ _ _ _ _ | SoHeaders _ _ => False | _ => True end) x) as Id.
  { intros e c0 s0 s0' x0. unfold idle. destruct (_ <=? _); [|by intros [= <- <-]].
    destruct (do_sync _ _ _ _ _) as [[[s1 x1] b]|] eqn:D; [cbn|done]. apply Ds in D. destruct b; cbn.
    - intros [= <- <-]. apply Forall_app. split; [done|by constructor].
    - destruct (sample_peers _ _ _ _ _) as [[s2 x2]|] eqn:S2; [cbn|done]. intros [= <- <-].
      apply Forall_app. split; [done|]. apply Forall_app. split; [|by constructor].
      revert S2. unfold sample_peers. destruct (_ <? _); [by intros [= <- <-]|].
      destruct (stale_tip _ _ _ _ _); [|by intros [= <- <-]].
      destruct (locator_hashes H c0 (c_height c0)) as [lh|]; [cbn|done]. intros [= R].
      by eapply Ra. }
  assert (forall x, Forall (fun o => match o with SoImported _ _ _ _ _ | SoHeaders _ _ => False | _ => True end) x ->
    Forall (fun o => match o with SoImported _ _ _ _ _ => False | SoHeaders a _ => exists l, oe.1 = SGetHeaders a l | _ => True end) x) as W.
  { intros x0 F. eapply Forall_impl; [exact F|]. by intros []. }
  destruct oe as [o e]. unfold sync_step. destruct o; cbn [fst snd] in *.
  - destruct (idle _ _ _ _ _) as [[s1 x1]|] eqn:D; [cbn|done]. intros [= <- <- <-]. left. split; [done|]. by eapply W, Id.
  - destruct (sync_negotiated _ _ _ _ _ _ _ _ _ _) as [[s1 x1]|] eqn:D; [cbn|done]. intros [= <- <- <-]. left. split; [done|]. apply W.
    unfold sync_negotiated in D. destruct (_ && _); [by injection D as <- <-|].
    destruct (do_sync _ _ _ _ _) as [[[s2 x2] b]|] eqn:E; [cbn in D|done]. injection D as <- <-. apply Forall_app. split; [|by eapply Ds].
    by destruct (_ <? _); constructor.
  - intros [= <- <- <-]. left. by split.
  - intros D. unfold received_headers in D.
    destruct hds as [|hd hds]; [injection D as <- <- <-; left; by split|].
    destruct (_ <? _); [injection D as <- <- <-; left; split; [done|by constructor]|].
    destruct (_ && _); [injection D as <- <- <-; left; by split|].
    cbn in D. destruct (sy_peers s !! from) as [p|] eqn:P; [|injection D as <- <- <-; left; by split].
    unfold process_headers in D. destruct (contains _ _); [injection D as <- <- <-; left; by split|].
    set (sp := touch_peer e from p (with_inflight s (delete from (sy_inflight s)))) in *.
    destruct (sync_import _ _ _ _ _) as [[[c1 x1] r]|] eqn:Im; [|done].
    assert (forall a p0, sy_peers s !! a = Some p0 -> exists p1, sy_peers sp !! a = Some p1 /\ sp_outbound p1 = sp_outbound p0 /\ sp_height p1 = sp_height p0) as N1.
    { intros a p0 E. unfold sp. cbn. destruct (decide (from = a)) as [<-|Ne]; [|rewrite lookup_insert_ne by done; eauto].
      rewrite lookup_insert. eexists. split; [done|]. rewrite P in E. by injection E as <-. }
    assert (forall a p1, sy_peers sp !! a = Some p1 -> exists p0, sy_peers s !! a = Some p0 /\ sp_outbound p1 = sp_outbound p0 /\ sp_height p1 = sp_height p0) as N2.
    { intros a p1 E. unfold sp in E. cbn in E. destruct (decide (from = a)) as [<-|Ne]; [|rewrite lookup_insert_ne in E by done; eauto].
      rewrite lookup_insert in E. injection E as <-. by exists p. }
    cbn -[request do_sync broadcast_tip locator_hashes lenN] in D. right. exists (hd :: hds), sp, x1. destruct r as [[h0 k h rv cn|]|er].
    + destruct (_ <? _).
      * destruct (do_sync _ _ _ _ _) as [[[s2 x2] b]|] eqn:E; [|done]. cbn -[broadcast_tip] in D. injection D as <- <- <-.
        eexists _, _. split; [done|]. split; [exact Im|]. split; [done|]. split; [done|]. split; [done|].
        intros o [I|I]%elem_of_app.
        -- destruct (broadcast_blame _ _ _ _ _ I) as (a & hd' & ->). eexists h0, k, h, rv, cn, _. split; [done|]. split; [exact I|].
           cbn. intros a' p2. unfold raise_peer. destruct (sy_peers sp !! from) as [q|] eqn:Q.
           2:{ intros E2. destruct (N2 _ _ E2) as (p0 & ? & ? & Hh). exists p0. split; [done|]. split; [done|lia]. }
           destruct (N.ltb_spec (sp_height q) h) as [Lt|Lt]; [|intros E2; destruct (N2 _ _ E2) as (p0 & ? & ? & Hh); exists p0; split; [done|]; split; [done|lia]].
           cbn. destruct (decide (from = a')) as [<-|Ne].
           ++ rewrite lookup_insert. intros [= <-]. destruct (N2 _ _ Q) as (p0 & ? & ? & ?). exists p0. cbn. split; [done|]. split; [done|lia].
           ++ rewrite lookup_insert_ne by done. intros E2. destruct (N2 _ _ E2) as (p0 & ? & ? & Hh). exists p0. split; [done|]. split; [done|lia].
        -- apply Ds in E. rewrite Forall_forall in E. specialize (E _ I). by destruct o.
      * destruct (request _ _ _ _ _ _) as [s2 x2] eqn:R. injection D as <- <- <-.
        eexists _, _. split; [done|]. split; [exact Im|]. split; [done|]. split; [done|]. split; [done|].
        intros o I. apply Rq in R. rewrite Forall_forall in R. specialize (R _ I). by destruct o.
    + destruct (locator_hashes H c1 (c_height c1)) as [l|]; [cbn -[request] in D|done].
      destruct (request _ _ _ _ _ _) as [s2 x2] eqn:R. injection D as <- <- <-.
      eexists _, _. split; [done|]. split; [exact Im|]. split; [done|]. split; [done|]. split; [done|].
      intros o I. apply Rq in R. rewrite Forall_forall in R. specialize (R _ I). by destruct o.
    + assert (exists y, x = x1 ++ y /\ c' = c1 /\ Forall (fun o => match o with SoImported _ _ _ _ _ | SoHeaders _ _ => False | _ => True end) y) as (y & -> & -> & Fy).
      { destruct er; injection D as <- <- <-; (eexists; split; [first [done|by rewrite app_nil_r]|split; [done|]]); by repeat constructor. }
      exists y, (Err er). split; [done|]. split; [exact Im|]. split; [done|]. split; [done|]. split; [done|].
      intros o I. rewrite Forall_forall in Fy. specialize (Fy _ I). by destruct o.
  - destruct (received_getheaders _ _ _ _ _) as [x1|] eqn:D; [cbn|done]. intros [= <- <- <-]. left. split; [done|].
    unfold received_getheaders in D. destruct (_ || _); [by injection D as <-|].
    destruct (locate_headers _ _ _ _) as [hds|]; [|done]. cbn in D. injection D as <-. destruct hds; [done|]. repeat constructor. eauto.
  - destruct (received_inv _ _ _ _ _ _ _) as [[s1 x1]|] eqn:D; [cbn|done]. intros [= <- <- <-]. left. split; [done|]. apply W.
    unfold received_inv in D. destruct (is_syncing s); [by injection D as <- <-|].
    destruct (_ <? _); [by injection D as <- <-|]. destruct (sy_peers s !! from) as [p|]; [|by injection D as <- <-].
    destruct (last _); [|by injection D as <- <-].
    destruct (locator_hashes H c (c_height c)) as [l|]; [cbn -[request] in D|done]. injection D as R. by eapply Rq.
  - unfold sync_timer. destruct (time_out _ _ _ _ _ _) as [[s1 x1] b] eqn:D.
    assert (Forall (fun o => match o with SoImported _ _ _ _ _ | SoHeaders _ _ => False | _ => True end) x1) as F1.
    { revert D. generalize (timed_out cf e s). generalize 0%nat. generalize (sy_inflight s). generalize s.
      intros s9 i0 i ps. revert s9 i s1 x1 b. induction ps as [|p ps IH]; intros s9 i s1 x1 b; [by intros [= <- <- <-]|].
      rewrite time_out_cons. destruct (drop_one _ _ _ _ _ _) as [[s2 x2] b2] eqn:D. destruct (time_out cf e (S i) i0 ps s2) as [[s3 x3] b3] eqn:O.
      intros [= <- <- <-]. apply Forall_app. split; [|by eapply IH].
      revert D. unfold drop_one. destruct (i0 !! p) as [r|]; [|by intros [= <- <- <-]].
      destruct (gr_timeout r) as [| |[|n]]; [intros [= <- <- <-]; by repeat constructor..|].
      destruct (head _); [|by intros [= <- <- <-]].
      destruct (request _ _ _ _ _ _) as [s4 x4] eqn:R. intros [= <- <- <-]. by eapply Rq. }
    destruct b.
    + destruct (do_sync _ _ _ _ _) as [[[s2 x2] b2]|] eqn:E; [cbn|done]. intros [= <- <- <-]. left. split; [done|]. apply W, Forall_app.
      split; [done|by eapply Ds].
    + destruct (idle _ _ _ _ _) as [[s2 x2]|] eqn:E; [cbn|done]. intros [= <- <- <-]. left. split; [done|]. apply W, Forall_app.
      split; [done|by eapply Id].
  - destruct (sync_import _ _ _ _ _) as [[[c1 x1] r]|] eqn:E; [cbn|done]. intros [= <- <- <-]. right.
    exists hds, s, x1, [], r. split; [done|]. split; [done|]. split; [by rewrite app_nil_r|]. split; [eauto|]. split; [eauto|].
    intros o I. by apply elem_of_nil in I.
Qed.

(** The cache after a run is reached by some of the imports. *)
Lemma run_imports os s c s' c' xs : sync_run H cf os (s, c) = Val (s', c', xs) ->
  exists hist outs, hist `sublist_of` imports os /\ run H c hist = Val (c', outs).
Proof.
  revert s c xs. induction os as [|oe os IH]; intros s c xs; cbn [sync_run].
  { intros [= <- <- <-]. by exists [], []. }
  destruct (sync_step H cf oe (s, c)) as [[[s1 c1] x]|] eqn:E; [cbn|done].
  destruct (sync_run H cf os (s1, c1)) as [[[s2 c2] xs2]|] eqn:R; [cbn|done]. intros [= <- <- <-].
  destruct (IH _ _ _ R) as (hist & outs & Sub & Er). change (imports (oe :: os)) with (op_imports oe ++ imports os).
  apply step_import in E as [[-> _]|(hds & s3 & x1 & y & r & -> & Im & _)].
  - exists hist, outs. split; [|done]. by apply sublist_inserts_l.
  - apply sync_import_blocks in Im. exists (OImport hds (se_block_time oe.2) :: hist), (r :: outs). split; [by apply sublist_skip|].
    cbn [run step]. rewrite Im. cbn [mbind_M]. by rewrite Er.
Qed.

Lemma sub_inputs2 hist os : hist `sublist_of` os -> forall x, x ∈ inputs hist -> x ∈ inputs os.
Proof.
  intros Hs x. rewrite !elem_inputs. intros (o & Ho & Hx). exists o. split; [|done].
  eapply elem_of_submseteq; [exact Ho|by apply sublist_submseteq].
Qed.
Lemma inputs_length hist os : hist `sublist_of` os -> (length (inputs hist) <= length (inputs os))%nat.
Proof.
  induction 1 as [|o h os S IH|o h os S IH]; [done|..]; unfold inputs in *; cbn [map concat]; rewrite !app_length; lia.
Qed.

Context (st : store) (ps : params) (cps : list (N * N)) (c0 : cache).
Context (Hps : params_ok ps) (E0 : from_store H ng st ps cps = Val (Ok c0)) (L0 : linked_from H (H (s_genesis st)) (s_tail st)).

Lemma hist_reachable hist os c outs : hist `sublist_of` os -> acyclic H (s_tail st ++ presented os) -> fair os ->
  run H c0 hist = Val (c, outs) -> reachable H ng st ps cps hist c outs.
Proof.
  intros Sub [rank A] F R. constructor; [done| | |eauto].
  - exists rank. apply Forall_app in A as [A B]. apply Forall_app. split; [done|].
    rewrite Forall_forall in B |- *. intros x Hx. apply B. unfold presented in *.
    change (map fst) with (fmap fst : list (header * choice) -> list header) in *.
    apply elem_of_list_fmap in Hx as (y & -> & Hy). apply elem_of_list_fmap. exists y. split; [done|]. by eapply sub_inputs2.
  - unfold fair in *. rewrite Forall_forall in F |- *. intros x Hx. apply F. by eapply sub_inputs2.
Qed.

Lemma run_app os1 os2 : forall c c1 outs1, run H c os1 = Val (c1, outs1) ->
  run H c (os1 ++ os2) = ('(c2, outs2) <-- run H c1 os2 ;; Val (c2, outs1 ++ outs2)).
Proof.
  induction os1 as [|o os1 IH]; intros c c1 outs1; cbn [run app].
  - intros [= <- <-]. by destruct (run H c os2) as [[? ?]|].
  - destruct (step H c o) as [[c2 r]|]; [cbn [mbind_M]|done].
    destruct (run H c2 os1) as [[c3 outs3]|] eqn:R; [cbn [mbind_M]|done]. intros [= <- <-].
    rewrite (IH _ _ _ R). by destruct (run H c3 os2) as [[? ?]|].
Qed.

(** Totality. *)
Lemma do_sync_total e c s : (exists l, locator_hashes H c (c_height c) = Val l) -> exists r, do_sync H cf e c s = Val r.
Proof.
  intros [l E]. unfold do_sync. destruct (addrs s) as [|? ?]; [eauto|]. destruct (is_synced _ _ _ _ _); [eauto|].
  rewrite E. cbn. destruct (syncing _ _); [eauto|]. destruct (preferred_peer _ _ _ _); [|eauto]. destruct (_ <? _); [|eauto].
  destruct (request _ _ _ _ _ _). eauto.
Qed.
Lemma idle_total e c s : (exists l, locator_hashes H c (c_height c) = Val l) -> exists r, idle H cf e c s = Val r.
Proof.
  intros L. unfold idle. destruct (_ <=? _); [|eauto]. destruct (do_sync_total e c s L) as [[[s1 x1] b] ->]. cbn.
  destruct b; cbn; [eauto|]. unfold sample_peers. destruct (_ <? _); [cbn; eauto|]. destruct (stale_tip _ _ _ _ _); [|cbn; eauto].
  destruct L as [l ->]. cbn. destruct (request_all _ _ _ _ _). cbn. eauto.
Qed.

Lemma step_total oe s c hist outs os : reachable H ng st ps cps hist c outs -> hist `sublist_of` imports os ->
  run H c0 hist = Val (c, outs) ->
  acyclic H (s_tail st ++ presented (imports (os ++ [oe]))) -> fair (imports (os ++ [oe])) ->
  lenN (s_tail st) + lenN (presented (imports (os ++ [oe]))) < 2 ^ 64 ->
  exists r, sync_step H cf oe (s, c) = Val r.
Proof.
  intros R Sub Run Ac Fa Len.
  assert (imports (os ++ [oe]) = imports os ++ op_imports oe) as Ei.
  { unfold imports. by rewrite map_app, concat_app; cbn; rewrite app_nil_r. }
  assert (forall hist c outs, hist `sublist_of` imports (os ++ [oe]) -> reachable H ng st ps cps hist c outs ->
    exists l, locator_hashes H c (c_height c) = Val l) as Loc.
  { intros h1 c1 o1 S1 R1. destruct (queries_total H ng st ps cps Hps h1 c1 o1 R1) as (_ & _ & Q & _). apply Q; [done|].
    pose proof (height_bound H ng st ps cps h1 c1 o1 Hps R1) as B. apply inputs_length in S1.
    unfold presented, lenN in *. rewrite map_length in *. lia. }
  assert (hist `sublist_of` imports (os ++ [oe])) as Sub'. { rewrite Ei. by apply sublist_inserts_r. }
  pose proof (Loc _ _ _ Sub' R) as L.
  assert (forall hds s1, op_imports oe = [OImport hds (se_block_time oe.2)] ->
    exists c' x r, sync_import H oe.2 hds c s1 = Val (c', x, r) /\ exists l, locator_hashes H c' (c_height c') = Val l) as Im.
  { intros hds s1 Eo.
    assert (hist ++ [OImport hds (se_block_time oe.2)] `sublist_of` imports (os ++ [oe])) as Sub2 by (rewrite Ei, Eo; by apply sublist_app).
    assert (fair [OImport hds (se_block_time oe.2)]) as Fo.
    { unfold fair in *. rewrite Forall_forall in Fa |- *. intros y Hy. apply Fa. eapply sub_inputs2; [|exact Hy].
      rewrite Ei, Eo. by apply sublist_inserts_l. }
    destruct (next_total H ng st ps cps Hps hist c outs (OImport hds (se_block_time oe.2)) R) as (c' & r & T); [|done|].
    { destruct Ac as [rank A]. exists rank. apply Forall_app in A as [A B]. apply Forall_app. split; [done|].
      rewrite Forall_forall in B |- *. intros x Hx. apply B. unfold presented in *.
      change (map fst) with (fmap fst : list (header * choice) -> list header) in *.
      apply elem_of_list_fmap in Hx as (y & -> & Hy). apply elem_of_list_fmap. exists y. split; [done|]. by eapply sub_inputs2. }
    pose proof (t_step _ _ _ _ _ _ _ _ _ _ T) as Es. cbn [step] in Es. unfold sync_import. rewrite Es. cbn.
    eexists _, _, _. split; [done|]. destruct (transition_reach H ng st ps cps hist c _ c' r Hps T) as [outs2 R2]. by eapply Loc. }
  destruct oe as [o e]. unfold sync_step. cbn [fst snd] in *. destruct o.
  - destruct (idle_total e c s L) as [[s1 x1] ->]. cbn. eauto.
  - unfold sync_negotiated. destruct (_ && _); [cbn; eauto|].
    match goal with |- context [do_sync _ _ _ _ ?s1] => destruct (do_sync_total e c s1 L) as [[[s2 x2] b] ->] end. cbn. eauto.
  - eauto.
  - unfold received_headers. destruct hds as [|hd hds]; [eauto|]. destruct (_ <? _); [eauto|]. destruct (_ && _); [eauto|].
    cbn. destruct (sy_peers s !! from) as [p|]; [|eauto]. unfold process_headers. destruct (contains _ _); [eauto|].
    match goal with |- context [sync_import _ _ _ _ ?s1] => destruct (Im (hd :: hds) s1 eq_refl) as (c' & x & r & -> & L') end.
    cbn -[request do_sync broadcast_tip lenN locator_hashes]. destruct r as [[h0 k h rv cn|]|er].
    + destruct (_ <? _).
      * match goal with |- context [do_sync _ _ _ _ ?s1] => destruct (do_sync_total e c' s1 L') as [[[s2 x2] b] ->] end. cbn. eauto.
      * destruct (request _ _ _ _ _ _). eauto.
    + destruct L' as [l ->]. cbn -[request]. destruct (request _ _ _ _ _ _). eauto.
    + destruct er; eauto.
  - unfold received_getheaders. destruct (_ || _); [cbn; eauto|].
    destruct (queries_total H ng st ps cps Hps hist c outs R) as (_ & Q & _). destruct (Q l.1 l.2 (sc_max cf)) as [y ->]. cbn. eauto.
  - unfold received_inv. destruct (is_syncing s); [cbn; eauto|]. destruct (_ <? _); [cbn; eauto|].
    destruct (sy_peers s !! from); [|cbn; eauto]. destruct (last _); [|cbn; eauto]. destruct L as [l ->]. cbn -[request]. destruct (request _ _ _ _ _ _). cbn. eauto.
  - unfold sync_timer. destruct (time_out _ _ _ _ _ _) as [[s1 x1] b]. destruct b.
    + destruct (do_sync_total e c s1 L) as [[[s2 x2] b2] ->]. cbn. eauto.
    + destruct (idle_total e c s1 L) as [[s2 x2] ->]. cbn. eauto.
  - destruct (Im hds s eq_refl) as (c' & x & r & -> & _). cbn. eauto.
Qed.

Lemma acyclic_sub os1 os2 : os1 `sublist_of` os2 -> acyclic H (s_tail st ++ presented os2) -> acyclic H (s_tail st ++ presented os1).
Proof.
  intros S [rank A]. exists rank. apply Forall_app in A as [A B]. apply Forall_app. split; [done|].
  rewrite Forall_forall in B |- *. intros x Hx. apply B. unfold presented in *.
  change (map fst) with (fmap fst : list (header * choice) -> list header) in *.
  apply elem_of_list_fmap in Hx as (y & -> & Hy). apply elem_of_list_fmap. exists y. split; [done|]. by eapply sub_inputs2.
Qed.
Lemma fair_sub os1 os2 : os1 `sublist_of` os2 -> fair os2 -> fair os1.
Proof. intros S F. unfold fair in *. rewrite Forall_forall in F |- *. intros x Hx. apply F. by eapply sub_inputs2. Qed.
Lemma imports_app os1 os2 : imports (os1 ++ os2) = imports os1 ++ imports os2.
Proof. unfold imports. by rewrite map_app, concat_app. Qed.
Lemma sync_run_snoc os oe : forall sc, sync_run H cf (os ++ [oe]) sc =
  ('(sc1, xs) <-- sync_run H cf os sc ;; '(s, c, x) <-- sync_step H cf oe sc1 ;; Val (s, c, xs ++ [x])).
Proof.
  induction os as [|o os IH]; intros sc; cbn [sync_run app].
  - cbn [mbind_M]. by destruct (sync_step H cf oe sc) as [[[? ?] ?]|].
  - destruct (sync_step H cf o sc) as [[[s c] x]|]; [cbn [mbind_M]|done]. rewrite IH.
    destruct (sync_run H cf os (s, c)) as [[sc1 xs]|]; [cbn [mbind_M]|done].
    by destruct (sync_step H cf oe sc1) as [[[? ?] ?]|].
Qed.

Lemma run_total os : acyclic H (s_tail st ++ presented (imports os)) -> fair (imports os) ->
  lenN (s_tail st) + lenN (presented (imports os)) < 2 ^ 64 ->
  exists s c xs, sync_run H cf os (sync_init, c0) = Val (s, c, xs).
Proof.
  induction os as [|oe os IH] using rev_ind; [cbn; eauto|]. intros A F L.
  assert (imports os `sublist_of` imports (os ++ [oe])) as Sub by (rewrite imports_app; by apply sublist_inserts_r).
  destruct IH as (s & c & xs & R); [by eapply acyclic_sub|by eapply fair_sub| |].
  { pose proof (inputs_length _ _ Sub). unfold presented, lenN in *. rewrite map_length in *. lia. }
  rewrite sync_run_snoc, R. cbn [mbind_M]. destruct (run_imports _ _ _ _ _ _ R) as (hist & outs & Sh & Rh).
  assert (reachable H ng st ps cps hist c outs) as Re.
  { eapply hist_reachable; [exact Sh|by eapply acyclic_sub|by eapply fair_sub|done]. }
  destruct (step_total oe s c hist outs os Re Sh Rh A F L) as [[[s' c'] x] E]. rewrite E. cbn. eauto.
Qed.

(** Announcements. *)
Lemma step_transition oe os s c xs hds s1 x1 c' r : sync_run H cf os (sync_init, c0) = Val (s, c, xs) ->
  acyclic H (s_tail st ++ presented (imports (os ++ [oe]))) -> fair (imports (os ++ [oe])) ->
  op_imports oe = [OImport hds (se_block_time oe.2)] -> sync_import H oe.2 hds c s1 = Val (c', x1, r) ->
  exists hist, transition H ng st ps cps hist c (OImport hds (se_block_time oe.2)) c' r.
Proof.
  intros R A F Eo Im. destruct (run_imports _ _ _ _ _ _ R) as (hist & outs & Sh & Rh). exists hist.
  assert (imports os `sublist_of` imports (os ++ [oe])) as Sub by (rewrite imports_app; by apply sublist_inserts_r).
  assert (hist ++ [OImport hds (se_block_time oe.2)] `sublist_of` imports (os ++ [oe])) as Sub2.
  { rewrite imports_app. unfold imports at 2. cbn. rewrite Eo. by apply sublist_app. }
  constructor.
  - exists outs. eapply hist_reachable; [exact Sh|by eapply acyclic_sub|by eapply fair_sub|done].
  - by eapply acyclic_sub.
  - eapply fair_sub; [|exact F]. etrans; [|exact Sub2]. by apply sublist_inserts_l.
  - cbn [step]. by eapply sync_import_blocks.
Qed.

Lemma new_tip oe os s c xs hds s1 x1 c' tip k h rv cn : sync_run H cf os (sync_init, c0) = Val (s, c, xs) ->
  acyclic H (s_tail st ++ presented (imports (os ++ [oe]))) -> fair (imports (os ++ [oe])) ->
  op_imports oe = [OImport hds (se_block_time oe.2)] -> sync_import H oe.2 hds c s1 = Val (c', x1, Ok (TipChanged tip k h rv cn)) ->
  c_tip H c' = (k, tip) /\ c_height c' = h /\ get_block c' k = Some (h, tip).
Proof.
  intros R A F Eo Im. destruct (step_transition _ _ _ _ _ _ _ _ _ _ R A F Eo Im) as [hist T].
  pose proof (batch_report_facts H ng st ps cps Hps _ _ _ _ _ _ T) as (Et & Eh & _).
  destruct (transition_reach H ng st ps cps hist c _ c' _ Hps T) as [outs2 R2].
  split; [done|]. split; [done|].
  apply (hash_index H ng st ps cps Hps _ _ _ R2).
  destruct (linked_chain H ng st ps cps Hps _ _ _ R2) as (_ & _ & _ & E3 & E4 & _).
  rewrite <- Et in E3, E4. cbn in E3, E4. by rewrite Eh.
Qed.

Lemma announced oe os s c xs s' c' x b k h rv cn a p : sync_run H cf os (sync_init, c0) = Val (s, c, xs) ->
  acyclic H (s_tail st ++ presented (imports (os ++ [oe]))) -> fair (imports (os ++ [oe])) -> fair_env oe.2 ->
  sync_step H cf oe (s, c) = Val (s', c', x) -> SoImported b k h rv cn ∈ x ->
  c_height c' = h /\ (c_tip H c').1 = k /\
  (sy_peers s !! a = Some p -> sp_outbound p = false -> sp_height p < h -> SoHeaders a [(c_tip H c').2] ∈ x).
Proof.
  intros R A F Fe E I. apply step_import in E as [[-> Fx]|(hds & s1 & x1 & y & r & Eo & Im & -> & N1 & N2 & Fy)].
  { rewrite Forall_forall in Fx. by specialize (Fx _ I). }
  apply elem_of_app in I as [I|I]; [|by apply Fy in I].
  destruct (import_report H _ _ _ _ _ _ _ _ _ _ _ _ Im I) as [tip ->].
  destruct (new_tip _ _ _ _ _ _ _ _ _ _ _ _ _ _ R A F Eo Im) as (Et & Eh & G).
  rewrite Et. split; [done|]. split; [done|]. intros P O L. apply elem_of_app. left. cbn.
  destruct (N1 _ _ P) as (p1 & P1 & O1 & H1). eapply import_announces; [done|exact Im|exact G|exact P1|congruence|lia].
Qed.

Lemma announced_only oe os s c xs s' c' x a hs : sync_run H cf os (sync_init, c0) = Val (s, c, xs) ->
  acyclic H (s_tail st ++ presented (imports (os ++ [oe]))) -> fair (imports (os ++ [oe])) -> fair_env oe.2 ->
  sync_step H cf oe (s, c) = Val (s', c', x) -> SoHeaders a hs ∈ x ->
  (exists l, oe.1 = SGetHeaders a l) \/
  hs = [(c_tip H c').2] /\ exists p, sy_peers s !! a = Some p /\ sp_outbound p = false /\ sp_height p < c_height c'.
Proof.
  intros R A F Fe E I. apply step_import in E as [[-> Fx]|(hds & s1 & x1 & y & r & Eo & Im & -> & N1 & N2 & Fy)].
  { left. rewrite Forall_forall in Fx. by specialize (Fx _ I). }
  right.
  assert (forall order tip k h rv cn s2, (forall l, order l ≡ₚ l) -> r = Ok (TipChanged tip k h rv cn) -> SoHeaders a hs ∈ broadcast_tip order k c' s2 ->
    (forall a p2, sy_peers s2 !! a = Some p2 -> exists p, sy_peers s !! a = Some p /\ sp_outbound p2 = sp_outbound p /\ sp_height p <= sp_height p2) ->
    hs = [(c_tip H c').2] /\ exists p, sy_peers s !! a = Some p /\ sp_outbound p = false /\ sp_height p < c_height c') as G.
  { intros order tip k h rv cn s2 Fo -> B Q. destruct (new_tip _ _ _ _ _ _ _ _ _ _ _ _ _ _ R A F Eo Im) as (Et & Eh & Gb).
    unfold broadcast_tip in B. rewrite Gb in B. apply elem_of_list_fmap in B as (z & Z & B). injection Z as <- ->. rewrite Et. split; [done|].
    rewrite elem_of_list_In, filter_In in B. destruct B as [_ B]. destruct (sy_peers s2 !! a) as [p2|] eqn:P2; [|done].
    destruct (Q _ _ P2) as (p & P & O & Hl). exists p. split; [done|]. rewrite <- O. apply andb_true_iff in B as [B1 B2]. split; [by destruct (sp_outbound p2)|]. rewrite Eh. lia. }
  apply elem_of_app in I as [I|I].
  - unfold sync_import in Im. destruct (import_blocks H c hds (se_block_time oe.2)) as [[c1 r1]|] eqn:Ib; [cbn in Im|done].
    injection Im as <- <- <-. destruct r1 as [[hd k h rv cn|]|]; [|by apply elem_of_nil in I..].
    rewrite !elem_of_app, !elem_of_list_fmap, elem_of_cons in I. destruct I as [(z & ? & _)|[(z & ? & _)|[?|I]]]; [done..|].
    eapply G; [apply Fe|done|exact I|]. intros a' p2 P2. destruct (N2 _ _ P2) as (p & ? & ? & Hh). exists p. split; [done|]. split; [done|lia].
  - apply Fy in I as (tip & k & h & rv & cn & s2 & Er & B & Q). eapply G; [apply Fe|exact Er|exact B|exact Q].
Qed.
End Facts.
