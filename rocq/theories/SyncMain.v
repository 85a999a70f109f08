(** Facts about the header sync manager: connected peers, timeouts, invalid
    headers, tip announcements. *)
From Verif Require Import Base PowModel BlockModel SyncModel SyncSpec SyncProofs.
Open Scope N_scope.

Section Main.
Context (H : header -> N) (cf : sconf).
Notation infl s a := (sy_inflight s !! a).
Notation T := (sc_timeout cf).

(** The same peers are registered, and only they are asked. *)
Definition same_peers (s : sync) (x : list sout) (s' : sync) : Prop :=
  forall a, (is_Some (sy_peers s' !! a) <-> is_Some (sy_peers s !! a)) /\ (asks a x <> [] -> is_Some (sy_peers s !! a)).
Lemma same_quiet s x s' : no_asks x -> sy_peers s' = sy_peers s -> same_peers s x s'.
Proof. intros N E a. rewrite E, N. done. Qed.
Lemma same_trans s x s1 y s2 : same_peers s x s1 -> same_peers s1 y s2 -> same_peers s (x ++ y) s2.
Proof.
  intros A B a. destruct (A a) as [A1 A2], (B a) as [B1 B2]. split; [by rewrite B1|].
  rewrite asks_app. destruct (asks a x) eqn:E; [|intros _; by apply A2]. cbn. intros Hy. by apply A1, B2.
Qed.
Lemma same_insert s x s' a p q : no_asks x -> sy_peers s !! a = Some p -> sy_peers s' = <[a := q]> (sy_peers s) -> same_peers s x s'.
Proof.
  intros N P E b. rewrite E, N. split; [|done]. destruct (decide (a = b)) as [<-|Ne].
  - rewrite lookup_insert, P. split; by eexists.
  - by rewrite lookup_insert_ne.
Qed.
Lemma no_asks_nil : no_asks [].
Proof. by intros ?. Qed.
Hint Resolve no_asks_nil : core.

Lemma request_peers e a' l t s s' x : request cf e a' l t s = (s', x) -> same_peers s x s'.
Proof.
  unfold request. destruct (infl s a'); [intros [= <- <-]; by apply same_quiet|].
  destruct (sy_peers s !! a') as [p|] eqn:P; [|intros [= <- <-]; by apply same_quiet].
  intros [= <- <-]. intros a. split.
  - cbn. destruct (decide (a' = a)) as [<-|Ne]; [rewrite lookup_insert, P; split; by eexists|by rewrite lookup_insert_ne].
  - destruct (decide (a' = a)) as [<-|Ne]; [by eexists|]. intros Hx. exfalso. apply Hx.
    rewrite asks_app. unfold asks at 2. cbn. rewrite (proj2 (N.eqb_neq a' a)) by done. by destruct (bool_decide _).
Qed.
Lemma do_sync_peers e c s s' x b : do_sync H cf e c s = Val (s', x, b) -> same_peers s x s'.
Proof.
  unfold do_sync. destruct (addrs s) as [|? ?]; [intros [= <- <- <-]; by apply same_quiet|].
  destruct (is_synced _ _ _ _ _); [intros [= <- <- <-]; by apply same_quiet; [intros ?|]|].
  destruct (locator_hashes H c (c_height c)) as [lh|]; [cbn|done].
  destruct (syncing _ _); [intros [= <- <- <-]; by apply same_quiet|].
  destruct (preferred_peer _ _ _ _); [|intros [= <- <- <-]; by apply same_quiet].
  destruct (_ <? _); [|intros [= <- <- <-]; by apply same_quiet].
  destruct (request _ _ _ _ _ _) as [s1 x1] eqn:R. intros [= <- <- <-]. by eapply request_peers.
Qed.
Lemma request_all_peers e l ps s s' x : request_all cf e l ps s = (s', x) -> same_peers s x s'.
Proof.
  revert s s' x. induction ps as [|p ps IH]; intros s s' x; cbn; [intros [= <- <-]; by apply same_quiet|].
  destruct (request _ _ _ _ _ _) as [s1 x1] eqn:R. destruct (request_all _ _ _ _ _) as [s2 x2] eqn:R2.
  intros [= <- <-]. eapply same_trans; [by eapply request_peers|by eapply IH].
Qed.
Lemma sample_peers_peers e c s s' x : sample_peers H cf e c s = Val (s', x) -> same_peers s x s'.
Proof.
  unfold sample_peers. destruct (_ <? _); [intros [= <- <-]; by apply same_quiet|].
  destruct (stale_tip _ _ _ _ _); [|intros [= <- <-]; by apply same_quiet].
  destruct (locator_hashes H c (c_height c)) as [lh|]; [cbn|done]. intros [= R]. apply request_all_peers in R. exact R.
Qed.
Lemma idle_peers e c s s' x : idle H cf e c s = Val (s', x) -> same_peers s x s'.
Proof.
  unfold idle. destruct (_ <=? _); [|intros [= <- <-]; by apply same_quiet].
  destruct (do_sync _ _ _ _ _) as [[[s1 x1] b]|] eqn:D; [cbn|done].
  pose proof (do_sync_peers _ _ _ _ _ _ D) as E1. destruct b; cbn.
  - intros [= <- <-]. eapply same_trans; [exact E1|]. apply same_quiet; [by intros ?|done].
  - destruct (sample_peers _ _ _ _ _) as [[s2 x2]|] eqn:S2; [cbn|done]. intros [= <- <-].
    eapply same_trans; [exact E1|]. eapply same_trans; [by eapply sample_peers_peers|]. apply same_quiet; [by intros ?|done].
Qed.
Lemma raise_same a k h s u : same_peers s [] (Sync (sy_peers (raise_peer a k h s)) u (sy_sample (raise_peer a k h s)) (sy_idle (raise_peer a k h s)) (sy_inflight (raise_peer a k h s))).
Proof.
  unfold raise_peer. destruct (sy_peers s !! a) eqn:P; [|by apply same_quiet].
  destruct (_ <? _); [|by apply same_quiet]. by eapply same_insert.
Qed.
Lemma process_peers e from hd hds c s s' c' x : process_headers H cf e from hd hds c s = Val (s', c', x) -> same_peers s x s'.
Proof.
  unfold process_headers. destruct (contains _ _); [intros [= <- <- <-]; by apply same_quiet|].
  destruct (sync_import _ _ _ _ _) as [[[c1 x1] r]|] eqn:Im; [|done]. cbn -[request do_sync broadcast_tip locator_hashes].
  pose proof (import_no_asks _ _ _ _ _ _ _ _ Im) as NA.
  destruct r as [[h0 k h rv cn|]|er].
  - destruct (_ <? _).
    + destruct (do_sync _ _ _ _ _) as [[[s2 x2] b]|] eqn:D; [|done]. cbn -[broadcast_tip]. intros [= <- <- <-].
      apply do_sync_peers in D. eapply same_trans; [by apply same_quiet|].
      rewrite <- (app_nil_l (_ ++ x2)). eapply same_trans; [apply raise_same|].
      eapply same_trans; [|exact D]. apply same_quiet; [apply broadcast_no_asks|done].
    + destruct (request _ _ _ _ _ _) as [s2 x2] eqn:R. intros [= <- <- <-].
      apply request_peers in R. eapply same_trans; [by apply same_quiet|]. rewrite <- (app_nil_l x2).
      eapply same_trans; [apply raise_same|exact R].
  - destruct (locator_hashes H c1 (c_height c1)) as [l|]; [cbn -[request]|done].
    destruct (request _ _ _ _ _ _) as [s2 x2] eqn:R. intros [= <- <- <-].
    apply request_peers in R. eapply same_trans; [by apply same_quiet|exact R].
  - destruct er; intros [= <- <- <-]; apply same_quiet; try done; by apply no_asks_app; [|intros ?].
Qed.
Lemma inv_peers e a' inv c s s' x : received_inv H cf e a' inv c s = Val (s', x) -> same_peers s x s'.
Proof.
  unfold received_inv. destruct (is_syncing s); [intros [= <- <-]; by apply same_quiet|].
  destruct (_ <? _); [intros [= <- <-]; by apply same_quiet|].
  destruct (sy_peers s !! a') as [p|] eqn:P; [|intros [= <- <-]; by apply same_quiet].
  destruct (last _); [|intros [= <- <-]; by eapply same_insert].
  destruct (locator_hashes H c (c_height c)) as [l|]; [cbn -[request]|done].
  intros [= R]. apply request_peers in R. rewrite <- (app_nil_l x). eapply same_trans; [|exact R]. by eapply same_insert.
Qed.
Lemma time_out_peers e i i0 ps s s' x b : time_out cf e i i0 ps s = (s', x, b) -> same_peers s x s'.
Proof.
  revert i s s' x b. induction ps as [|p ps IH]; intros i s s' x b; [cbn; intros [= <- <- <-]; by apply same_quiet|].
  rewrite time_out_cons. destruct (drop_one _ _ _ _ _ _) as [[s1 x1] b1] eqn:D. destruct (time_out cf e (S i) i0 ps s1) as [[s2 x2] b2] eqn:O.
  intros [= <- <- <-]. eapply same_trans; [|by eapply IH].
  revert D. unfold drop_one. destruct (i0 !! p) as [r|]; [|intros [= <- <- <-]; by apply same_quiet].
  destruct (gr_timeout r) as [| |[|n]]; [intros [= <- <- <-]; apply same_quiet; [by intros ?|done]..|].
  destruct (head _); [|intros [= <- <- <-]; by apply same_quiet].
  destruct (request _ _ _ _ _ _) as [s3 x3] eqn:R. intros [= <- <- <-]. apply request_peers in R. exact R.
Qed.

Lemma step_joined oe s c s' c' x a : sync_step H cf oe (s, c) = Val (s', c', x) ->
  bool_decide (is_Some (sy_peers s' !! a)) = joined_step a oe.1 (bool_decide (is_Some (sy_peers s !! a))) /\
  (asks a x <> [] -> is_Some (sy_peers s' !! a)).
Proof.
  assert (forall s x s', same_peers s x s' ->
    bool_decide (is_Some (sy_peers s' !! a)) = bool_decide (is_Some (sy_peers s !! a)) /\
    (asks a x <> [] -> is_Some (sy_peers s' !! a))) as G.
  { intros s0 x0 s0' Q. destruct (Q a) as [Q1 Q2]. split; [by apply bool_decide_ext|]. intros Hx. by apply Q1, Q2. }
  destruct oe as [o e]. unfold sync_step. destruct o; cbn [fst snd joined_step].
  - destruct (idle _ _ _ _ _) as [[s1 x1]|] eqn:D; [cbn|done]. intros [= <- <- <-]. by eapply G, idle_peers.
  - destruct (sync_negotiated _ _ _ _ _ _ _ _ _ _) as [[s1 x1]|] eqn:D; [cbn|done]. intros [= <- <- <-].
    unfold sync_negotiated in D. destruct outbound, network; cbn [andb negb orb] in D |- *.
    all: try (injection D as <- <-; rewrite andb_false_r; done).
    all: rewrite andb_true_r; destruct (do_sync _ _ _ _ _) as [[[s2 x2] b]|] eqn:E; [cbn in D|done]; injection D as <- <-.
    all: apply do_sync_peers in E; destruct (E a) as [E1 E2]; cbn in E1, E2; rewrite asks_app.
    all: assert (forall b : bool, asks a (if b then [SoPeerHeight height] else []) = []) as -> by (by intros []).
    all: split; [|intros Hx; by apply E1, E2].
    all: destruct (N.eqb_spec addr a) as [->|Ne]; [apply bool_decide_eq_true; apply E1; rewrite lookup_insert; by eexists|].
    all: apply bool_decide_ext; by rewrite E1, lookup_insert_ne.
  - intros [= <- <- <-]. split; [|done]. unfold unregister. cbn.
    destruct (N.eqb_spec addr a) as [->|Ne]; [rewrite lookup_delete; apply bool_decide_eq_false; by intros [? ?]|by rewrite lookup_delete_ne].
  - intros D. apply G. unfold received_headers in D.
    destruct hds as [|hd hds]; [injection D as <- <- <-; by apply same_quiet|].
    destruct (_ <? _); [injection D as <- <- <-; apply same_quiet; [by intros ?|done]|].
    destruct (_ && _); [injection D as <- <- <-; by apply same_quiet|].
    cbn in D. destruct (sy_peers s !! from) as [p|] eqn:P; [|injection D as <- <- <-; by apply same_quiet].
    apply process_peers in D. rewrite <- (app_nil_l x). eapply same_trans; [|exact D]. by eapply same_insert.
  - destruct (received_getheaders _ _ _ _ _) as [x1|] eqn:D; [cbn|done]. intros [= <- <- <-]. split; [done|].
    unfold received_getheaders in D. destruct (_ || _); [by injection D as <-|].
    destruct (locate_headers _ _ _ _) as [hds|]; [|done]. cbn in D. injection D as <-. by destruct hds.
  - destruct (received_inv _ _ _ _ _ _ _) as [[s1 x1]|] eqn:D; [cbn|done]. intros [= <- <- <-]. by eapply G, inv_peers.
  - unfold sync_timer. destruct (time_out _ _ _ _ _ _) as [[s1 x1] b] eqn:D. apply time_out_peers in D. destruct b.
    + destruct (do_sync _ _ _ _ _) as [[[s2 x2] b2]|] eqn:E; [cbn|done]. intros [= <- <- <-].
      eapply G, same_trans; [exact D|by eapply do_sync_peers].
    + destruct (idle _ _ _ _ _) as [[s2 x2]|] eqn:E; [cbn|done]. intros [= <- <- <-].
      eapply G, same_trans; [exact D|by eapply idle_peers].
  - destruct (sync_import _ _ _ _ _) as [[[c1 x1] r]|] eqn:E; [cbn|done]. intros [= <- <- <-]. split; [done|].
    by rewrite (import_no_asks _ _ _ _ _ _ _ _ E).
Qed.

Lemma run_joined os s c s' c' xs a : sync_run H cf os (s, c) = Val (s', c', xs) ->
  joined a os (bool_decide (is_Some (sy_peers s !! a))) = bool_decide (is_Some (sy_peers s' !! a)).
Proof.
  revert s c xs. induction os as [|oe os IH]; intros s c xs; cbn [sync_run joined]; [by intros [= <- <- <-]|].
  destruct (sync_step H cf oe (s, c)) as [[[s1 c1] x]|] eqn:E; [cbn|done].
  destruct (sync_run H cf os (s1, c1)) as [[[s2 c2] xs2]|] eqn:R; [cbn|done]. intros [= <- <- <-].
  rewrite <- (IH _ _ _ R). f_equal. symmetry. by apply (step_joined oe s c s1 c1 x a E).
Qed.

Lemma asked_joined os c0 s c xs oe s' c' x a l :
  sync_run H cf os (sync_init, c0) = Val (s, c, xs) -> sync_step H cf oe (s, c) = Val (s', c', x) ->
  SoGetHeaders a l ∈ x -> joined a (os ++ [oe]) false = true.
Proof.
  intros R E I. assert (joined a os false = bool_decide (is_Some (sy_peers s !! a))) as J.
  { rewrite <- (run_joined os sync_init c0 s c xs a R). f_equal. }
  assert (forall os b, joined a (os ++ [oe]) b = joined_step a oe.1 (joined a os b)) as ->.
  { clear. intros os. induction os as [|o os IH]; intros b; [done|]. cbn. apply IH. }
  destruct (step_joined oe s c s' c' x a E) as [E1 E2]. rewrite J, <- E1. apply bool_decide_eq_true, E2.
  apply asks_in in I. intros Z. rewrite Z in I. by apply elem_of_nil in I.
Qed.

(** A request is not forgotten before it ends. *)
Lemma quiet_run os s c s' c' xs a r : fair_envs os -> sync_run H cf os (s, c) = Val (s', c', xs) ->
  infl s a = Some r -> Forall (fun oe => ended T a oe (Some (gr_sent r)) <> None) os ->
  infl s' a = Some r /\ asks a (concat xs) = [].
Proof.
  revert s c xs. induction os as [|oe os IH]; intros s c xs F; cbn [sync_run]; [by intros [= <- <- <-]|].
  inversion_clear F as [|?? Fo Fs]. destruct (sync_step H cf oe (s, c)) as [[[s1 c1] x]|] eqn:E; [cbn|done].
  destruct (sync_run H cf os (s1, c1)) as [[[s2 c2] xs2]|] eqn:R; [cbn|done]. intros [= <- <- <-] I Q.
  inversion_clear Q as [|?? Qo Qs]. pose proof (step_evolves H cf oe s c s1 c1 x a Fo E) as V. rewrite I in V.
  assert (cut cf oe a (Some r) = Some r) as C.
  { pose proof (cut_ended cf oe a (Some r)) as Z. cbn [fmap option_fmap option_map] in Z. rewrite Z in Qo.
    unfold cut in *. destruct (oe.1); try done; repeat (destruct (_ =? _) || destruct (_ <=? _)); done. }
  rewrite C in V. apply evolves_some in V as [A B]. destruct (IH _ _ _ Fs R B Qs) as [X Y].
  split; [done|]. change (concat (x :: xs2)) with (x ++ concat xs2). by rewrite asks_app, A, Y.
Qed.

Lemma disconnect_expired e i i0 ps s s' x b a r : time_out cf e i i0 ps s = (s', x, b) -> a ∈ ps -> i0 !! a = Some r ->
  (gr_timeout r = TDisconnect \/ gr_timeout r = TRetry 0) -> SoDisconnect a ∈ x.
Proof.
  revert i s s' x b. induction ps as [|p ps IH]; intros i s s' x b; [by intros _ ?%elem_of_nil|].
  rewrite time_out_cons. destruct (drop_one _ _ _ _ _ _) as [[s1 x1] b1] eqn:D. destruct (time_out cf e (S i) i0 ps s1) as [[s2 x2] b2] eqn:O.
  intros [= <- <- <-] [->|I]%elem_of_cons E G; apply elem_of_app.
  - left. unfold drop_one in D. rewrite E in D. destruct G as [G|G]; rewrite G in D; injection D as <- <- <-; by left.
  - right. by eapply IH.
Qed.
Lemma timer_disconnects e s c s' c' x a r : fair_env e -> sync_step H cf (STimer, e) (s, c) = Val (s', c', x) ->
  infl s a = Some r -> T <= se_now e - gr_sent r -> (gr_timeout r = TDisconnect \/ gr_timeout r = TRetry 0) -> SoDisconnect a ∈ x.
Proof.
  intros F E I L G. unfold sync_step, sync_timer in E. destruct (time_out _ _ _ _ _ _) as [[s1 x1] b] eqn:D.
  apply disconnect_expired with (a := a) (r := r) in D; [|apply timed_out_spec; eauto|done|done].
  destruct b.
  - destruct (do_sync _ _ _ _ _) as [[[s2 x2] b2]|]; [cbn in E|done]. injection E as <- <- <-. apply elem_of_app. by left.
  - destruct (idle _ _ _ _ _) as [[s2 x2]|]; [cbn in E|done]. injection E as <- <- <-. apply elem_of_app. by left.
Qed.

Lemma request_outputs e a l t s s' x o : request cf e a l t s = (s', x) -> o ∈ x ->
  o = SoDebugAssert a \/ o = SoGetHeaders a l \/ o = SoTimer T.
Proof.
  unfold request. destruct (infl s a); [intros [= <- <-] ?; by destruct (not_elem_of_nil o)|].
  destruct (sy_peers s !! a); [|intros [= <- <-] ?; by destruct (not_elem_of_nil o)]. intros [= <- <-] I.
  apply elem_of_app in I as [I|I]; [destruct (bool_decide _); [|by apply elem_of_nil in I]|].
  - apply elem_of_list_singleton in I. by left.
  - apply elem_of_cons in I as [->|I]; [by right; left|]. apply elem_of_list_singleton in I. by right; right.
Qed.

Lemma import_no_imported e hds c s c' x r : sync_import H e hds c s = Val (c', x, r) ->
  match r with Ok (TipChanged _ _ _ _ _) => True | _ => x = [] end.
Proof.
  unfold sync_import. destruct (import_blocks H c hds (se_block_time e)) as [[c1 r1]|]; [cbn|done].
  intros [= <- <- <-]. by destruct r1 as [[hd k h rv cn|]|].
Qed.

Lemma full_batch e a hds s c s' c' x b k h rv cn : sync_step H cf (SHeaders a hds, e) (s, c) = Val (s', c', x) ->
  lenN hds = 2000 -> SoImported b k h rv cn ∈ x ->
  asks a x = [([k], 0)] /\ infl s' a = Some (GReq ([k], 0) (se_now e) TDisconnect).
Proof.
  intros E L I. unfold sync_step, received_headers in E.
  destruct hds as [|hd hds]; [done|]. rewrite L in E. change (MAX_MESSAGE_HEADERS <? 2000) with false in E. cbn iota in E.
  destruct (_ && _); [injection E as <- <- <-; by apply elem_of_nil in I|].
  cbn in E. destruct (sy_peers s !! a) as [p|] eqn:P; [|injection E as <- <- <-; by apply elem_of_nil in I].
  unfold process_headers in E. destruct (contains _ _); [injection E as <- <- <-; by apply elem_of_nil in I|].
  destruct (sync_import _ _ _ _ _) as [[[c1 x1] r]|] eqn:Im; [|done].
  pose proof (import_no_asks _ _ _ _ _ _ _ _ Im) as NA. pose proof (import_no_imported _ _ _ _ _ _ _ Im) as NI.
  set (sp := touch_peer e a p (with_inflight s (delete a (sy_inflight s)))) in *.
  assert (infl sp a = None) as I0 by (unfold sp; cbn; apply lookup_delete).
  assert (exists q, sy_peers sp !! a = Some q) as [q Eq] by (unfold sp; cbn; rewrite lookup_insert; by eexists).
  cbn -[request do_sync broadcast_tip locator_hashes lenN] in E. destruct r as [[h0 k' h' rv' cn'|]|er].
  - rewrite L in E. change (2000 <? MAX_MESSAGE_HEADERS) with false in E. cbn iota in E.
    destruct (request _ _ _ _ _ _) as [s2 x2] eqn:R. injection E as <- <- <-.
    assert (k' = k) as ->.
    { apply elem_of_app in I as [I|I].
      - unfold sync_import in Im. destruct (import_blocks H c (hd :: hds) (se_block_time e)) as [[c2 r2]|]; [cbn in Im|done].
        injection Im as <- <- ->. rewrite !elem_of_app, !elem_of_list_fmap in I.
        destruct I as [(z & Z & _)|[(z & Z & _)|I]]; [done|done|]. apply elem_of_cons in I as [I|I]; [by injection I|].
        unfold broadcast_tip in I. destruct (get_block _ _) as [[? ?]|]; [|by apply elem_of_nil in I].
        apply elem_of_list_fmap in I as (z & Z & _). done.
      - by destruct (request_outputs _ _ _ _ _ _ _ _ R I) as [?|[?|?]]. }
    rewrite asks_app, NA. unfold request in R. cbn [sy_inflight sy_peers] in R. rewrite raise_infl, I0 in R.
    assert (exists q', sy_peers (raise_peer a k h' sp) !! a = Some q') as [q' Eq'].
    { unfold raise_peer. rewrite Eq. destruct (_ <? _); [cbn; rewrite lookup_insert|]; by eexists. }
    rewrite Eq' in R. injection R as <- <-. cbn [with_inflight sy_inflight]. rewrite lookup_insert. split; [|done].
    rewrite !app_nil_l, asks_app. unfold asks. cbn. rewrite N.eqb_refl. by destruct (bool_decide _).
  - subst x1. destruct (locator_hashes H c1 (c_height c1)) as [l|]; [cbn -[request] in E|done].
    destruct (request _ _ _ _ _ _) as [s2 x2] eqn:R. injection E as <- <- <-. exfalso.
    by destruct (request_outputs _ _ _ _ _ _ _ _ R I) as [?|[?|?]].
  - subst x1. exfalso. destruct er; injection E as <- <- <-; cbn [app] in I; rewrite ?elem_of_cons, ?elem_of_nil in I; naive_solver.
Qed.

(** Nothing but an oversized message is held against the sender. *)
Lemma request_blame e a l t s s' x o : request cf e a l t s = (s', x) -> o ∈ x ->
  match o with SoMisbehaved _ | SoDisconnect _ | SoError => False | _ => True end.
Proof.
  intros R I. by destruct (request_outputs _ _ _ _ _ _ _ _ R I) as [ -> | [ -> | -> ] ].
Qed.
Lemma broadcast_blame order k c s o : o ∈ broadcast_tip order k c s -> exists a hd, o = SoHeaders a [hd].
Proof.
  unfold broadcast_tip. destruct (get_block _ _) as [[? ?]|]; [|by intros ?%elem_of_nil].
  intros (z & -> & _)%elem_of_list_fmap. eauto.
Qed.
Lemma import_blame e hds c s c' x r o : sync_import H e hds c s = Val (c', x, r) -> o ∈ x ->
  match o with SoMisbehaved _ | SoDisconnect _ | SoError => False | _ => True end.
Proof.
  unfold sync_import. destruct (import_blocks H c hds (se_block_time e)) as [[c1 r1]|]; [cbn|done].
  intros [= <- <- <-]. destruct r1 as [[hd k h rv cn|]|]; [|by intros ?%elem_of_nil..].
  rewrite !elem_of_app, !elem_of_list_fmap, elem_of_cons.
  intros [(z & -> & _)|[(z & -> & _)|[->|(a & hd' & ->)%broadcast_blame]]]; done.
Qed.
Lemma do_sync_blame e c s s' x b o : do_sync H cf e c s = Val (s', x, b) -> o ∈ x ->
  match o with SoMisbehaved _ | SoDisconnect _ | SoError => False | _ => True end.
Proof.
  unfold do_sync. destruct (addrs s) as [|? ?]; [intros [= <- <- <-]; by intros ?%elem_of_nil|].
  destruct (is_synced _ _ _ _ _); [intros [= <- <- <-]; rewrite elem_of_list_singleton; by intros ->|].
  destruct (locator_hashes H c (c_height c)) as [lh|]; [cbn|done].
  destruct (syncing _ _); [intros [= <- <- <-]; by intros ?%elem_of_nil|].
  destruct (preferred_peer _ _ _ _); [|intros [= <- <- <-]; by intros ?%elem_of_nil].
  destruct (_ <? _); [|intros [= <- <- <-]; by intros ?%elem_of_nil].
  destruct (request _ _ _ _ _ _) as [s1 x1] eqn:R. intros [= <- <- <-]. by eapply request_blame.
Qed.
Lemma headers_blame e a hds s c s' c' x o : sync_step H cf (SHeaders a hds, e) (s, c) = Val (s', c', x) ->
  lenN hds <= 2000 -> o ∈ x -> match o with SoMisbehaved _ | SoDisconnect _ | SoError => False | _ => True end.
Proof.
  intros E L. unfold sync_step, received_headers in E.
  destruct hds as [|hd hds]; [injection E as <- <- <-; by intros ?%elem_of_nil|].
  rewrite (proj2 (N.ltb_ge MAX_MESSAGE_HEADERS _)) in E by done.
  destruct (_ && _); [injection E as <- <- <-; by intros ?%elem_of_nil|].
  cbn in E. destruct (sy_peers s !! a) as [p|] eqn:P; [|injection E as <- <- <-; by intros ?%elem_of_nil].
  unfold process_headers in E. destruct (contains _ _); [injection E as <- <- <-; by intros ?%elem_of_nil|].
  destruct (sync_import _ _ _ _ _) as [[[c1 x1] r]|] eqn:Im; [|done].
  pose proof (import_blame _ _ _ _ _ _ _ o Im) as B.
  assert (match r with Ok _ => True | Err e => exists e' i h, e = EAborted e' i h end) as Ab.
  { unfold sync_import in Im. destruct (import_blocks H c (hd :: hds) (se_block_time e)) as [[c2 r2]|] eqn:Ib; [cbn in Im|done].
    injection Im as <- _ <-. by eapply import_aborted. }
  cbn -[request do_sync broadcast_tip locator_hashes lenN] in E. destruct r as [[h0 k' h' rv' cn'|]|er].
  - destruct (_ <? _).
    + destruct (do_sync _ _ _ _ _) as [[[s2 x2] b]|] eqn:D; [|done]. cbn -[broadcast_tip] in E. injection E as <- <- <-.
      rewrite !elem_of_app. intros [I|[(z & hd' & ->)%broadcast_blame|I]]; [by apply B|done|by eapply do_sync_blame].
    + destruct (request _ _ _ _ _ _) as [s2 x2] eqn:R. injection E as <- <- <-.
      rewrite !elem_of_app. intros [I|I]; [by apply B|by eapply request_blame].
  - destruct (locator_hashes H c1 (c_height c1)) as [l|]; [cbn -[request] in E|done].
    destruct (request _ _ _ _ _ _) as [s2 x2] eqn:R. injection E as <- <- <-.
    rewrite !elem_of_app. intros [I|I]; [by apply B|by eapply request_blame].
  - destruct Ab as (e' & i & h & ->). injection E as <- <- <-. exact B.
Qed.
Lemma oversized_blame e a hds s c : 2000 < lenN hds ->
  exists s', sync_step H cf (SHeaders a hds, e) (s, c) = Val (s', c, [SoMisbehaved a]).
Proof.
  intros L. unfold sync_step, received_headers. destruct hds as [|hd hds]; [cbn in L; lia|].
  rewrite (proj2 (N.ltb_lt MAX_MESSAGE_HEADERS _)) by done. eauto.
Qed.

(** Announcements of a new tip. *)
Lemma broadcast_in order k c s a p h hd : (forall l, order l ≡ₚ l) -> get_block c k = Some (h, hd) ->
  sy_peers s !! a = Some p -> sp_outbound p = false -> sp_height p < h -> SoHeaders a [hd] ∈ broadcast_tip order k c s.
Proof.
  intros F G P O L. unfold broadcast_tip. rewrite G. apply elem_of_list_fmap. exists a. split; [done|].
  rewrite elem_of_list_In, filter_In, <- elem_of_list_In. split.
  - rewrite F. unfold addrs. apply elem_of_list_fmap. exists (a, p). split; [done|]. by apply elem_of_map_to_list.
  - rewrite P, O. cbn. by apply N.ltb_lt.
Qed.
Lemma import_announces e hds c s c' x hd k h rv cn a p h' hd' : fair_env e ->
  sync_import H e hds c s = Val (c', x, Ok (TipChanged hd k h rv cn)) -> get_block c' k = Some (h', hd') ->
  sy_peers s !! a = Some p -> sp_outbound p = false -> sp_height p < h' -> SoHeaders a [hd'] ∈ x.
Proof.
  intros F E G P O L. unfold sync_import in E. destruct (import_blocks H c hds (se_block_time e)) as [[c1 r1]|]; [cbn in E|done].
  injection E as <- <- ->. rewrite !elem_of_app, elem_of_cons. right. right. right.
  eapply broadcast_in; try done.
Qed.
Lemma sync_import_blocks e hds c s c' x r : sync_import H e hds c s = Val (c', x, r) -> import_blocks H c hds (se_block_time e) = Val (c', r).
Proof. unfold sync_import. destruct (import_blocks H c hds (se_block_time e)) as [[c1 r1]|]; [cbn|done]. by intros [= <- _ <-]. Qed.
Lemma import_report e hds c s c' x r b k h rv cn : sync_import H e hds c s = Val (c', x, r) -> SoImported b k h rv cn ∈ x ->
  exists hd, r = Ok (TipChanged hd k h rv cn).
Proof.
  unfold sync_import. destruct (import_blocks H c hds (se_block_time e)) as [[c1 r1]|]; [cbn|done].
  intros [= <- <- <-]. destruct r1 as [[hd k' h' rv' cn'|]|]; [|by intros ?%elem_of_nil..].
  rewrite !elem_of_app, !elem_of_list_fmap, elem_of_cons.
  intros [(z & ? & _)|[(z & ? & _)|[E|(a & hd' & ?)%broadcast_blame]]]; simplify_eq. eauto.
Qed.
End Main.
