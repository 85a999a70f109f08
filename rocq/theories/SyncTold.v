(** What peers are told and asked: reports of being synced, answers to
    [getheaders] and [inv]. *)
From Verif Require Import Base PowModel BlockModel BlockSpec SyncModel SyncSpec SyncProofs SyncMain SyncFacts SyncEvents.
Open Scope N_scope.

Section Told.
Context (H : header -> N) (cf : sconf).

Definition hts (s s' : sync) : Prop := forall a, sp_height <$> sy_peers s' !! a = sp_height <$> sy_peers s !! a.
Lemma hts_refl s : hts s s.
Proof. done. Qed.
Lemma hts_trans s1 s2 s3 : hts s1 s2 -> hts s2 s3 -> hts s1 s3.
Proof. intros A B a. by rewrite B, A. Qed.
Lemma hts_same s s' : sy_peers s' = sy_peers s -> hts s s'.
Proof. by intros E a; rewrite E. Qed.
Lemma hts_insert s s' a p q : sy_peers s !! a = Some p -> sp_height q = sp_height p -> sy_peers s' = <[a := q]> (sy_peers s) -> hts s s'.
Proof. intros P Q E b. rewrite E. destruct (decide (a = b)) as [->|NE]; [rewrite lookup_insert, P; cbn; by rewrite Q|by rewrite lookup_insert_ne]. Qed.

Lemma request_hts e a l t s s' x : request cf e a l t s = (s', x) -> hts s s'.
Proof.
  unfold request. destruct (sy_inflight s !! a); [by intros [= <- <-]|]. destruct (sy_peers s !! a) as [p|] eqn:P; [|by intros [= <- <-]].
  intros [= <- <-]. eapply hts_insert; [exact P| |reflexivity]; done.
Qed.
Definition told_all (h : N) (s : sync) : Prop := forall a p, sy_peers s !! a = Some p -> sp_height p <= h.
Lemma told_all_hts h s s' : hts s s' -> told_all h s -> told_all h s'.
Proof.
  intros T A a p E. specialize (T a). rewrite E in T. destruct (sy_peers s !! a) as [q|] eqn:Q; [|done]. cbn in T. injection T as ->. by eapply A.
Qed.
Lemma fresh_tip e c s : stale_tip H cf e c s = None -> TIP_STALE_DURATION <= se_now e -> se_now e < h_time (c_tip H c).2 * 1000 + TIP_STALE_DURATION.
Proof.
  unfold stale_tip. destruct (match sy_update s with Some u => _ | None => None end); [done|].
  intros S L. unfold time_minus in S. destruct (N.ltb_spec (se_now e) TIP_STALE_DURATION); [lia|].
  destruct (N.leb_spec (h_time (c_tip H c).2 * 1000) (se_now e - TIP_STALE_DURATION)); [done|]. lia.
Qed.
Lemma best_height_all s h : match best_height s with Some b => b <=? h | None => false end = true -> told_all h s.
Proof.
  unfold best_height, told_all. intros B a p E. apply elem_of_map_to_list in E.
  assert (G : forall l x0, foldr N.max x0 l <= h -> x0 <= h /\ forall y, y ∈ l -> y <= h).
  { clear. induction l as [|z l IH]; intros x0 L; cbn in L; [split; [done|]; intros y Hy; by apply elem_of_nil in Hy|].
    destruct (IH x0) as [A B]; [lia|]. split; [done|]. intros y Hy. apply elem_of_cons in Hy as [->|Hy]; [lia|by apply B]. }
  assert (M : sp_height p ∈ (fun q : N * speer => sp_height q.2) <$> map_to_list (sy_peers s)) by (apply elem_of_list_fmap; by exists (a, p)).
  destruct ((fun q : N * speer => sp_height q.2) <$> map_to_list (sy_peers s)) as [|y l]; [done|].
  apply N.leb_le in B. destruct (G l y B) as [G1 G2]. apply elem_of_cons in M as [->|M]; [done|by apply G2].
Qed.

(** The report of being synced, at some point of the step. *)
Definition truthful (e : senv) (c : cache) (s : sync) (x : list sout) : Prop :=
  forall k h, SoSynced k h ∈ x -> k = (c_tip H c).1 /\ h = c_height c /\ told_all h s /\
    (TIP_STALE_DURATION <= se_now e -> se_now e < h_time (c_tip H c).2 * 1000 + TIP_STALE_DURATION).
Lemma truthful_none e c s x : (forall k h, SoSynced k h ∉ x) -> truthful e c s x.
Proof. intros A k h I. by destruct (A k h). Qed.
Lemma truthful_app e c s x y : truthful e c s x -> truthful e c s y -> truthful e c s (x ++ y).
Proof. intros A B k h I. apply elem_of_app in I as [I|I]; [by apply A|by apply B]. Qed.
Lemma truthful_hts e c s s' x : hts s s' -> truthful e c s x -> truthful e c s' x.
Proof. intros T A k h I. destruct (A k h I) as (? & ? & B & ?). split; [done|]. split; [done|]. split; [by eapply told_all_hts|done]. Qed.
Lemma request_truthful e c s0 a l t s s' x : request cf e a l t s = (s', x) -> truthful e c s0 x.
Proof. intros R. apply truthful_none. intros k h I. by destruct (request_outputs cf _ _ _ _ _ _ _ _ R I) as [?|[?|?]]. Qed.

Lemma do_sync_told e c s s' x b : do_sync H cf e c s = Val (s', x, b) -> hts s s' /\ truthful e c s' x.
Proof.
  assert (T0 : forall s, truthful e c s []) by (intros s0; apply truthful_none; intros k h I; by apply elem_of_nil in I).
  unfold do_sync. destruct (addrs s) as [|? ?]; [intros [= <- <- <-]; done|].
  destruct (is_synced _ _ _ _ _) eqn:S.
  { intros [= <- <- <-]. split; [done|]. intros k h I. apply elem_of_list_singleton in I as [= -> ->]. unfold is_synced in S.
    destruct (stale_tip H cf e c s) eqn:St; [done|]. do 2 (split; [done|]). split; [by apply best_height_all|by eapply fresh_tip]. }
  destruct (locator_hashes H c (c_height c)) as [lh|]; [cbn|done].
  destruct (syncing _ _); [by intros [= <- <- <-]|].
  destruct (preferred_peer _ _ _ _); [|by intros [= <- <- <-]].
  destruct (_ <? _); [|by intros [= <- <- <-]].
  destruct (request _ _ _ _ _ _) as [s1 x1] eqn:R. intros [= <- <- <-]. split; [by eapply request_hts|by eapply request_truthful].
Qed.
Lemma request_all_told e c s0 l ps : forall s s' x, request_all cf e l ps s = (s', x) -> hts s s' /\ truthful e c s0 x.
Proof.
  induction ps as [|p ps IH]; intros s s2 x2; cbn; [intros [= <- <-]; split; [done|]; apply truthful_none; intros k h I; by apply elem_of_nil in I|].
  destruct (request _ _ _ _ _ _) as [s3 x3] eqn:R. destruct (request_all _ _ _ _ _) as [s4 x4] eqn:R2.
  intros [= <- <-]. destruct (IH _ _ _ R2). split; [eapply hts_trans; [by eapply request_hts|done]|].
  apply truthful_app; [by eapply request_truthful|done].
Qed.
Lemma sample_told e c s0 s s' x : sample_peers H cf e c s = Val (s', x) -> hts s s' /\ truthful e c s0 x.
Proof.
  assert (T0 : forall s, truthful e c s []) by (intros s1; apply truthful_none; intros k h I; by apply elem_of_nil in I).
  unfold sample_peers. destruct (_ <? _); [by intros [= <- <-]|]. destruct (stale_tip _ _ _ _ _); [|by intros [= <- <-]].
  destruct (locator_hashes H c (c_height c)) as [lh|]; [cbn|done]. intros [= R]. apply (request_all_told e c s0) in R as [A B]. split; [|done].
  eapply hts_trans; [|exact A]. done.
Qed.
Lemma idle_told e c s s' x : idle H cf e c s = Val (s', x) -> hts s s' /\ truthful e c s' x.
Proof.
  assert (T0 : forall s d, truthful e c s [SoTimer d]) by (intros s1 d; apply truthful_none; intros k h I; by apply elem_of_list_singleton in I).
  unfold idle. destruct (_ <=? _); [|intros [= <- <-]; split; [done|]; apply truthful_none; intros k h I; by apply elem_of_nil in I].
  destruct (do_sync _ _ _ _ _) as [[[s1 x1] b]|] eqn:D; [cbn|done]. apply do_sync_told in D as [D1 D2]. destruct b; cbn.
  - intros [= <- <-]. split; [exact D1|]. apply truthful_app; [|apply T0]. by eapply truthful_hts; [|exact D2].
  - destruct (sample_peers _ _ _ _ _) as [[s2 x2]|] eqn:S2; [cbn|done]. intros [= <- <-].
    destruct (sample_told e c s2 _ _ _ S2) as [S3 S4].
    split; [eapply hts_trans; [exact D1|exact S3]|]. apply truthful_app; [eapply truthful_hts; [|exact D2]; exact S3|].
    apply truthful_app; [|apply T0]. eapply truthful_hts; [|exact S4]. done.
Qed.
Lemma time_out_told e c s0 i0 ps : forall i s s' x b, time_out cf e i i0 ps s = (s', x, b) -> hts s s' /\ truthful e c s0 x.
Proof.
  assert (T0 : forall s, truthful e c s []) by (intros s1; apply truthful_none; intros k h I; by apply elem_of_nil in I).
  assert (T1 : forall s a, truthful e c s [SoDisconnect a]) by (intros s1 d; apply truthful_none; intros k h I; by apply elem_of_list_singleton in I).
  induction ps as [|a ps IH]; intros i s s' x b; [by intros [= <- <- <-]|].
  rewrite time_out_cons. destruct (drop_one cf e i i0 a (with_inflight s (delete a (sy_inflight s)))) as [[s1 x1] b1] eqn:D. unfold drop_one in D.
  destruct (time_out cf e (S i) i0 ps s1) as [[s2 x2] b2] eqn:R. intros [= <- <- <-]. destruct (IH _ _ _ _ _ R) as [I1 I2].
  assert (hts s s1 /\ truthful e c s0 x1) as [D1 D2].
  { destruct (i0 !! a) as [r|]; [|by injection D as <- <- <-]. destruct (gr_timeout r) as [| |[|n]]; [by injection D as <- <- <-..|].
    destruct (head _); [|by injection D as <- <- <-]. destruct (request _ _ _ _ _ _) as [s3 x3] eqn:Rq. injection D as <- <- <-.
    split; [|by eapply request_truthful]. eapply hts_trans; [|by eapply request_hts]. done. }
  split; [by eapply hts_trans|by apply truthful_app].
Qed.

(** Heights of connected peers do not fall. *)
Definition grows (s s' : sync) : Prop := forall a p, sy_peers s !! a = Some p -> exists p', sy_peers s' !! a = Some p' /\ sp_height p <= sp_height p'.
Lemma hts_grows s s' : hts s s' -> grows s s'.
Proof.
  intros T a p E. specialize (T a). rewrite E in T. destruct (sy_peers s' !! a) as [q|]; [|done]. cbn in T. injection T as T. exists q. split; [done|]. lia.
Qed.
Lemma grows_trans s1 s2 s3 : grows s1 s2 -> grows s2 s3 -> grows s1 s3.
Proof. intros A B a p E. destruct (A a p E) as (q & Q & L). destruct (B a q Q) as (r & R & L'). exists r. split; [done|]. lia. Qed.
Lemma raise_grows a k h s : grows s (raise_peer a k h s).
Proof.
  unfold raise_peer. destruct (sy_peers s !! a) as [p|] eqn:P; [|by apply hts_grows]. destruct (N.ltb_spec (sp_height p) h) as [L|L]; [|by apply hts_grows].
  intros b q Q. cbn. destruct (decide (a = b)) as [->|NE]; [rewrite lookup_insert|rewrite lookup_insert_ne by done; by exists q].
  rewrite P in Q. injection Q as <-. eexists. split; [done|]. cbn. lia.
Qed.

Lemma import_no_synced e hds c s c' x r k h : sync_import H e hds c s = Val (c', x, r) -> SoSynced k h ∉ x.
Proof.
  unfold sync_import. destruct (import_blocks H c hds (se_block_time e)) as [[c1 r1]|]; [cbn|done].
  intros [= <- <- <-]. destruct r1 as [[hd k' h' rv' cn'|]|]; [|by intros ?%elem_of_nil..].
  rewrite !elem_of_app, !elem_of_list_fmap, elem_of_cons. intros [(z & ? & _)|[(z & ? & _)|[E|(a & hd' & ?)%broadcast_blame]]]; done.
Qed.
Lemma process_told e from hd hds c s s' c' x : process_headers H cf e from hd hds c s = Val (s', c', x) -> grows s s' /\ truthful e c' s' x.
Proof.
  assert (T0 : forall c s, truthful e c s []) by (intros c1 s1; apply truthful_none; intros k h I; by apply elem_of_nil in I).
  unfold process_headers. destruct (contains _ _); [intros [= <- <- <-]; by split; [apply hts_grows|]|].
  destruct (sync_import H e (hd :: hds) c s) as [[[c1 x1] r]|] eqn:Im; [cbn [mbind_M]|done].
  assert (Ti : forall c s, truthful e c s x1) by (intros c2 s2; apply truthful_none; intros k h; by eapply import_no_synced). clear Im.
  destruct r as [[h0 k h rv cn|]|er].
  - set (s2 := Sync _ _ _ _ _). assert (G : grows s s2) by (eapply grows_trans; [apply (raise_grows from k h)|by apply hts_grows]).
    destruct (_ <? _).
    + destruct (do_sync _ _ _ _ _) as [[[s3 x3] b]|] eqn:D; [cbn [mbind_M]|done]. intros X. injection X as <- <- <-.
      destruct (do_sync_told _ _ _ _ _ _ D) as [D1 D2]. split; [eapply grows_trans; [exact G|by apply hts_grows]|].
      apply truthful_app; [apply Ti|]. apply truthful_app; [|done]. apply truthful_none. intros k' h' I. by destruct (broadcast_blame _ _ _ _ _ I) as (? & ? & ?).
    + destruct (request _ _ _ _ _ _) as [s3 x3] eqn:R. intros X. injection X as <- <- <-. split; [eapply grows_trans; [exact G|apply hts_grows; by eapply request_hts]|].
      apply truthful_app; [apply Ti|by eapply request_truthful].
  - destruct (locator_hashes H c1 (c_height c1)) as [lh|]; [cbn [mbind_M]|done]. destruct (request _ _ _ _ _ _) as [s2 x2] eqn:R.
    intros X. injection X as <- <- <-. split; [apply hts_grows; by eapply request_hts|]. apply truthful_app; [apply Ti|by eapply request_truthful].
  - destruct er; intros X; injection X as <- <- <-; (split; [by apply hts_grows|]); try apply Ti;
      (apply truthful_app; [apply Ti|]); apply truthful_none; intros k' h' I; by apply elem_of_list_singleton in I.
Qed.

Lemma step_told oe s c s' c' x : sync_step H cf oe (s, c) = Val (s', c', x) ->
  truthful oe.2 c' s' x /\
  (forall a n, told_step a oe.1 ((sp_height <$> sy_peers s !! a) ≫= fun _ => None) = Some n -> exists p, sy_peers s' !! a = Some p /\ n <= sp_height p) /\
  (forall a p, sy_peers s !! a = Some p -> told_step a oe.1 (Some 0) = Some 0 -> exists p', sy_peers s' !! a = Some p' /\
     (sp_height p <= sp_height p' \/ exists n, told_step a oe.1 None = Some n)).
Proof.
  destruct oe as [o e]. cbn [fst snd].
  assert (T0 : forall c s, truthful e c s []) by (intros c1 s1; apply truthful_none; intros k h I; by apply elem_of_nil in I).
  assert (N0 : forall a : N, (((sp_height <$> sy_peers s !! a) ≫= fun _ => None) : option N) = None) by (intros a; by destruct (sy_peers s !! a)).
  assert (Gr : (forall a v, told_step a o v = v) -> grows s s' ->
    (forall a n, told_step a o ((sp_height <$> sy_peers s !! a) ≫= fun _ => None) = Some n -> exists p, sy_peers s' !! a = Some p /\ n <= sp_height p) /\
    (forall a p, sy_peers s !! a = Some p -> told_step a o (Some 0) = Some 0 -> exists p', sy_peers s' !! a = Some p' /\
       (sp_height p <= sp_height p' \/ exists n, told_step a o None = Some n))).
  { intros Id G. split; [intros a n; by rewrite Id, N0|]. intros a p P _. destruct (G a p P) as (q & Q & L). exists q. split; [done|]. by left. }
  unfold sync_step. destruct o.
  - destruct (idle _ _ _ _ _) as [[s1 x1]|] eqn:D; [cbn|done]. intros [= <- <- <-]. destruct (idle_told _ _ _ _ _ D) as [D1 D2]. split; [done|].
    apply Gr; [done|by apply hts_grows].
  - clear Gr. unfold sync_negotiated. destruct outbound, network; cbn [andb negb]; try (intros [= <- <- <-]; split; [done|]; cbn [told_step negb orb];
      split; [intros a n; rewrite andb_false_r, N0; done|intros a p P _; exists p; split; [done|]; left; lia]).
    all: destruct (do_sync _ _ _ _ _) as [[[s2 x2] b]|] eqn:D; [cbn [mbind_M]|done]; intros X; injection X as <- <- <-.
    all: destruct (do_sync_told _ _ _ _ _ _ D) as [D1 D2]; split;
      [apply truthful_app; [|done]; apply truthful_none; intros k h I; destruct (_ <? _); [by apply elem_of_list_singleton in I|by apply elem_of_nil in I]|].
    all: cbn [told_step negb orb]; split; [intros a n; rewrite andb_true_r, N0; destruct (N.eqb_spec addr a) as [->|NE]; [|done]; intros [= <-]|
      intros a p P; rewrite andb_true_r; destruct (N.eqb_spec addr a) as [->|NE]; intros _].
    all: specialize (D1 a); cbn [with_peers sy_peers] in D1; rewrite ?lookup_insert in D1; try rewrite lookup_insert_ne in D1 by done; rewrite ?P in D1; cbn in D1.
    all: destruct (sy_peers s2 !! a) as [q|]; [|done]; cbn in D1; injection D1 as D1; exists q; split; [done|].
    all: try (by right; eexists); try lia; left; lia.
  - intros [= <- <- <-]. split; [done|]. cbn [told_step]. split.
    + intros a n. rewrite N0. by destruct (addr =? a).
    + intros a p P. destruct (N.eqb_spec addr a) as [->|NE]; [done|]. intros _. exists p. unfold unregister. cbn. rewrite lookup_delete_ne by done. split; [done|]. left. lia.
  - unfold received_headers. intros E.
    assert (Same : forall s1, sy_peers s1 = sy_peers s -> hts s s1) by (intros s1 E1; by apply hts_same).
    destruct hds as [|hd hds]; [injection E as <- <- <-; split; [done|]; apply Gr; [done|]; by apply hts_grows, Same|].
    destruct (_ <? _); [injection E as <- <- <-; split; [apply truthful_none; intros k h I; by apply elem_of_list_singleton in I|]; apply Gr; [done|]; by apply hts_grows, Same|].
    destruct (_ && _); [injection E as <- <- <-; split; [done|]; apply Gr; [done|]; by apply hts_grows, Same|].
    cbn [with_inflight sy_peers] in E. destruct (sy_peers s !! from) as [p|] eqn:P; [|injection E as <- <- <-; split; [done|]; apply Gr; [done|]; by apply hts_grows, Same].
    apply process_told in E as [G T]. split; [done|]. apply Gr; [done|]. eapply grows_trans; [|exact G]. apply hts_grows. eapply hts_insert; [exact P| |reflexivity]; done.
  - destruct (received_getheaders _ _ _ _ _) as [x1|] eqn:D; [cbn|done]. intros [= <- <- <-]. split; [|apply Gr; [done|by apply hts_grows]].
    unfold received_getheaders in D. destruct (_ || _); [by injection D as <-|].
    destruct (locate_headers _ _ _ _) as [hds|]; [|done]. cbn in D. injection D as <-. apply truthful_none. intros k h I. destruct hds; [by apply elem_of_nil in I|by apply elem_of_list_singleton in I].
  - destruct (received_inv _ _ _ _ _ _ _) as [[s1 x1]|] eqn:D; [cbn|done]. intros [= <- <- <-]. unfold received_inv in D.
    assert (Q : hts s s1 /\ truthful e c s1 x1); [|destruct Q as [Q1 Q2]; split; [done|]; apply Gr; [done|by apply hts_grows]].
    destruct (is_syncing s); [by injection D as <- <-|]. destruct (_ <? _); [by injection D as <- <-|].
    destruct (sy_peers s !! from) as [p|] eqn:P; [|by injection D as <- <-].
    set (s2 := with_peers _ _) in D. assert (hts s s2) as G by (eapply hts_insert; [exact P| |reflexivity]; done). clearbody s2.
    destruct (last _); [|by injection D as <- <-].
    destruct (locator_hashes H c (c_height c)) as [lh|]; [cbn [mbind_M] in D|done]. destruct (request _ _ _ _ _ _) as [s3 x3] eqn:R. injection D as <- <-.
    split; [eapply hts_trans; [exact G|by eapply request_hts]|by eapply request_truthful].
  - unfold sync_timer. destruct (time_out _ _ _ _ _ _) as [[s1 x1] b] eqn:D. destruct b.
    + destruct (do_sync _ _ _ _ _) as [[[s2 x2] b2]|] eqn:E; [cbn|done]. intros [= <- <- <-].
      destruct (time_out_told e c s2 _ _ _ _ _ _ _ D) as [D1 D2]. destruct (do_sync_told _ _ _ _ _ _ E) as [E1 E2].
      split; [by apply truthful_app|]. apply Gr; [done|]. apply hts_grows. by eapply hts_trans.
    + destruct (idle _ _ _ _ _) as [[s2 x2]|] eqn:E; [cbn|done]. intros [= <- <- <-].
      destruct (time_out_told e c s2 _ _ _ _ _ _ _ D) as [D1 D2]. destruct (idle_told _ _ _ _ _ E) as [E1 E2].
      split; [by apply truthful_app|]. apply Gr; [done|]. apply hts_grows. by eapply hts_trans.
  - destruct (sync_import _ _ _ _ _) as [[[c1 x1] r]|] eqn:E; [cbn|done]. intros [= <- <- <-].
    split; [|apply Gr; [done|by apply hts_grows]]. apply truthful_none. intros k h. by eapply import_no_synced.
Qed.

Lemma told_step_cases a o v : told_step a o v = told_step a o None \/ (told_step a o v = v /\ told_step a o None = None /\ told_step a o (Some 0) = Some 0).
Proof.
  destruct o; cbn; try (right; done); [destruct (_ && _); [by left|by right]|]. destruct (addr =? a); [by left|by right].
Qed.
Lemma run_told os a : forall s c s' c' xs v, sync_run H cf os (s, c) = Val (s', c', xs) ->
  (forall n, v = Some n -> exists p, sy_peers s !! a = Some p /\ n <= sp_height p) ->
  forall n, told a os v = Some n -> exists p, sy_peers s' !! a = Some p /\ n <= sp_height p.
Proof.
  induction os as [|oe os IH]; intros s c s' c' xs v; cbn [sync_run told]; [by intros [= <- <- <-]|].
  destruct (sync_step H cf oe (s, c)) as [[[s1 c1] x]|] eqn:E; [cbn|done].
  destruct (sync_run H cf os (s1, c1)) as [[[s2 c2] xs2]|] eqn:R; [cbn|done]. intros [= <- <- <-] Hv. eapply IH; [exact R|].
  destruct (step_told _ _ _ _ _ _ E) as (_ & G1 & G2). intros n Hn.
  destruct (told_step_cases a oe.1 v) as [Q|(Q1 & Q2 & Q3)].
  - apply G1. rewrite <- Hn, Q. f_equal. by destruct (sy_peers s !! a).
  - rewrite Q1 in Hn. destruct (Hv n Hn) as (p & P & L). destruct (G2 a p P Q3) as (q & Q & [L'|[m L']]); [|congruence]. exists q. split; [done|]. lia.
Qed.
Lemma told_app a os oe v : told a (os ++ [oe]) v = told_step a oe.1 (told a os v).
Proof. revert v. induction os as [|o os IH]; intros v; cbn; [done|]. apply IH. Qed.

Lemma synced_truthful os c0 s c xs oe s' c' x k h a n : sync_run H cf os (sync_init, c0) = Val (s, c, xs) ->
  sync_step H cf oe (s, c) = Val (s', c', x) -> SoSynced k h ∈ x ->
  k = (c_tip H c').1 /\ h = c_height c' /\ (7200000 <= se_now oe.2 -> se_now oe.2 < h_time (c_tip H c').2 * 1000 + 7200000) /\
  (told a (os ++ [oe]) None = Some n -> n <= h).
Proof.
  intros R E I. destruct (step_told _ _ _ _ _ _ E) as (T & G1 & G2). destruct (T k h I) as (K1 & K2 & K3 & K4).
  split; [done|]. split; [done|]. split; [done|]. rewrite told_app. intros Hn.
  assert (exists p, sy_peers s' !! a = Some p /\ n <= sp_height p) as (p & P & L); [|specialize (K3 a p P); lia].
  destruct (told_step_cases a oe.1 (told a os None)) as [Q|(Q1 & Q2 & Q3)].
  - apply G1. rewrite <- Hn, Q. f_equal. by destruct (sy_peers s !! a).
  - rewrite Q1 in Hn. destruct (run_told os a _ _ _ _ _ None R ltac:(done) n Hn) as (p & P & L).
    destruct (G2 a p P Q3) as (q & Q & [L'|[m L']]); [|congruence]. exists q. split; [done|]. lia.
Qed.

(** ** Answers *)
Lemma is_syncing_outstanding os c0 s c xs : fair_envs os -> sync_run H cf os (sync_init, c0) = Val (s, c, xs) ->
  is_syncing s = true <-> exists b, outstanding (sc_timeout cf) b os xs None <> None.
Proof.
  intros F R. assert (V : forall b, outstanding (sc_timeout cf) b os xs None = gr_sent <$> sy_inflight s !! b).
  { intros b. pose proof (run_outstanding H cf _ _ _ _ _ _ b F R) as V. by change (gr_sent <$> sy_inflight sync_init !! b) with (@None N) in V. }
  unfold is_syncing. rewrite negb_true_iff, bool_decide_eq_false. split.
  - intros NE. destruct (map_to_list (sy_inflight s)) as [|[b r] l] eqn:M; [done|]. exists b. rewrite V.
    assert (sy_inflight s !! b = Some r) as -> by (apply elem_of_map_to_list; rewrite M; by left). done.
  - intros [b B] M. rewrite V in B. destruct (sy_inflight s !! b) as [r|] eqn:E; [|done]. apply elem_of_map_to_list in E. rewrite M in E. by apply elem_of_nil in E.
Qed.
Lemma getheaders_answer os c0 s c xs a l e s' c' x : fair_envs os -> sync_run H cf os (sync_init, c0) = Val (s, c, xs) ->
  sync_step H cf (SGetHeaders a l, e) (s, c) = Val (s', c', x) ->
  s' = s /\ c' = c /\
  ((exists b, outstanding (sc_timeout cf) b os xs None <> None) -> x = []) /\
  ((forall b, outstanding (sc_timeout cf) b os xs None = None) -> 0 < sc_max cf ->
    exists hds, locate_headers c l.1 l.2 (sc_max cf) = Val hds /\ x = match hds with [] => [] | _ => [SoHeaders a hds] end).
Proof.
  intros F R E. pose proof (is_syncing_outstanding _ _ _ _ _ F R) as S. unfold sync_step, received_getheaders in E.
  destruct (is_syncing s) eqn:Sy; cbn [orb] in E.
  - cbn [mbind_M] in E; injection E as <- <- <-. do 3 (split; [done|]). intros N1. destruct (proj1 S eq_refl) as [b B]. by rewrite N1 in B.
  - destruct (sc_max cf =? 0) eqn:M.
    + cbn [mbind_M] in E; injection E as <- <- <-. do 3 (split; [done|]). intros _ L. apply N.eqb_eq in M. lia.
    + destruct (locate_headers c l.1 l.2 (sc_max cf)) as [hds|]; [cbn [mbind_M] in E|done]. injection E as <- <- <-. do 2 (split; [done|]). split; [|by exists hds].
      intros B. apply S in B. done.
Qed.
Lemma inv_answer os c0 s c xs a inv e s' c' x : fair_envs os -> sync_run H cf os (sync_init, c0) = Val (s, c, xs) ->
  sync_step H cf (SInv a inv, e) (s, c) = Val (s', c', x) ->
  (forall b, b <> a -> asks b x = []) /\
  (asks a x <> [] -> exists l stop, asks a x = [(l, stop)] /\ Some stop ∈ inv /\ is_known c stop = false /\ locator_hashes H c (c_height c) = Val l) /\
  ((forall b, outstanding (sc_timeout cf) b os xs None = None) -> joined a os false = true -> lenN inv <= 50000 ->
    (exists k, Some k ∈ inv /\ is_known c k = false) -> asks a x <> []).
Proof.
  intros F R E. pose proof (is_syncing_outstanding _ _ _ _ _ F R) as S. unfold sync_step, received_inv in E.
  assert (J : joined a os false = bool_decide (is_Some (sy_peers s !! a))).
  { rewrite <- (run_joined H cf os sync_init c0 s c xs a R). f_equal. }
  destruct (is_syncing s) eqn:Sy.
  { cbn [mbind_M] in E; injection E as <- <- <-. split; [done|]. split; [done|]. intros N1. destruct (proj1 S eq_refl) as [b B]. by rewrite N1 in B. }
  destruct (N.ltb_spec MAX_MESSAGE_INVS (lenN inv)) as [L|L]; unfold MAX_MESSAGE_INVS in L.
  { cbn [mbind_M] in E; injection E as <- <- <-. split; [done|]. split; [done|]. intros _ _ L'. lia. }
  destruct (sy_peers s !! a) as [p|] eqn:P.
  2:{ cbn [mbind_M] in E; injection E as <- <- <-. split; [done|]. split; [done|]. rewrite J. intros _ Z. by rewrite bool_decide_false in Z by (intros [? ?]; done). }
  set (blocks := omap id inv) in E. assert (Eb : forall k, k ∈ blocks <-> Some k ∈ inv).
  { intros k. unfold blocks. rewrite elem_of_list_omap. split; [intros (z & Hz & Ez); cbn in Ez; by subst z|]. intros Hk. by exists (Some k). }
  set (unk := List.filter (fun h => negb (is_known c h)) blocks) in E.
  assert (Eu : forall k, k ∈ unk <-> Some k ∈ inv /\ is_known c k = false).
  { intros k. unfold unk. rewrite elem_of_list_In, filter_In, <- elem_of_list_In, Eb, negb_true_iff. done. }
  destruct (last unk) as [stop|] eqn:Ls.
  2:{ cbn [mbind_M] in E; injection E as <- <- <-. split; [done|]. split; [done|]. intros _ _ _ (k & K1 & K2). apply last_None in Ls.
      assert (k ∈ unk) as K by (by apply Eu). rewrite Ls in K. by apply elem_of_nil in K. }
  assert (stop ∈ unk) as Hs by (apply last_Some_elem_of; done). apply Eu in Hs as [Hs1 Hs2].
  destruct (locator_hashes H c (c_height c)) as [l|]; [cbn [mbind_M] in E|done].
  assert (N1 : sy_inflight s !! a = None).
  { unfold is_syncing in Sy. apply negb_false_iff, bool_decide_eq_true in Sy. destruct (sy_inflight s !! a) as [r|] eqn:Er; [|done]. apply elem_of_map_to_list in Er. rewrite Sy in Er. by apply elem_of_nil in Er. }
  unfold request in E. cbn [with_peers sy_inflight sy_peers] in E. rewrite N1, lookup_insert in E. cbn [mbind_M] in E. injection E as <- <- <-.
  assert (A : forall b, asks b ((if bool_decide (sp_asked (SPeer (sp_height p) (sp_preferred p) (default (sp_tip p) (last blocks)) (sp_outbound p) (sp_active p) (sp_asked p)) = Some (l, stop))
      then [SoDebugAssert a] else []) ++ [SoGetHeaders a (l, stop); SoTimer (sc_timeout cf)]) = if a =? b then [(l, stop)] else []).
  { intros b. rewrite asks_app. assert (Z : forall q : bool, asks b (if q then [SoDebugAssert a] else []) = []) by (by intros []). rewrite Z.
    unfold asks. cbn. by destruct (a =? b). }
  split; [intros b NE; rewrite A; by rewrite (proj2 (N.eqb_neq a b))|]. rewrite A, N.eqb_refl. split; [|done]. intros _. by exists l, stop.
Qed.
End Told.
