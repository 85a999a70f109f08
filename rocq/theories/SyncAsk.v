(** Why, when and whom the node asks for headers. *)
From Verif Require Import Base PowModel BlockModel BlockSpec SyncModel SyncSpec SyncProofs SyncMain SyncFacts SyncEvents SyncTold.
Open Scope N_scope.

Section Ask.
Context (H : header -> N) (cf : sconf).

Definition pabs (p : speer) : pview := PView (sp_height p) (negb (sp_preferred p)) (sp_outbound p) (sp_asked p).
Definition pv (s : sync) (a : N) : option pview := pabs <$> sy_peers s !! a.

Lemma remember_nil v : remember [] v = v.
Proof. by destruct v. Qed.
Lemma remember_app x y v : remember (x ++ y) v = remember y (remember x v).
Proof.
  unfold remember. destruct v as [p|]; [|done]. rewrite last_app. destruct (last x), (last y); done.
Qed.
(** The peers change as an observer sees. *)
Definition keeps (s : sync) (x : list sout) (s' : sync) : Prop := forall a, pv s' a = remember (asks a x) (pv s a).
Lemma keeps_refl s x : no_asks x -> keeps s x s.
Proof. intros A a. by rewrite A, remember_nil. Qed.
Lemma keeps_nil s : keeps s [] s.
Proof. by apply keeps_refl. Qed.
Lemma keeps_trans s x s1 y s2 : keeps s x s1 -> keeps s1 y s2 -> keeps s (x ++ y) s2.
Proof. intros A B a. by rewrite B, A, asks_app, remember_app. Qed.
Lemma keeps_fields s x s1 s2 : keeps s x s1 -> sy_peers s2 = sy_peers s1 -> keeps s x s2.
Proof. intros A E a. unfold pv. rewrite E. apply A. Qed.

Lemma request_cases e a l t s s' x : request cf e a l t s = (s', x) ->
  (s' = s /\ x = [] /\ (sy_inflight s !! a <> None \/ sy_peers s !! a = None)) \/
  (sy_inflight s !! a = None /\ is_Some (sy_peers s !! a) /\ SoGetHeaders a l ∈ x /\ asks a x = [l] /\ (forall b, b <> a -> asks b x = [])).
Proof.
  unfold request. destruct (sy_inflight s !! a) eqn:E; [intros [= <- <-]; by left; auto|].
  destruct (sy_peers s !! a) as [p|] eqn:P; [|intros [= <- <-]; left; auto]. intros [= <- <-]. right.
  split; [done|]. split; [by eexists|].
  assert (forall b, asks b (if bool_decide (sp_asked p = Some l) then [SoDebugAssert a] else []) = []) as Z by (intros b; by destruct (bool_decide _)).
  split; [apply elem_of_app; right; by left|]. split.
  - rewrite asks_app, Z. cbn. by rewrite N.eqb_refl.
  - intros b NE. rewrite asks_app, Z. cbn. by destruct (N.eqb_spec a b).
Qed.
Lemma request_keeps e a l t s s' x : request cf e a l t s = (s', x) -> keeps s x s'.
Proof.
  intros R. destruct (request_cases _ _ _ _ _ _ _ R) as [(-> & -> & _)|(I & [p P] & _ & A & B)]; [by apply keeps_nil|].
  unfold request in R. rewrite I, P in R. injection R as <- Ex. intros b. unfold pv. cbn [with_inflight with_peers sy_peers].
  destruct (decide (a = b)) as [<-|NE]; [|rewrite lookup_insert_ne, B, remember_nil by done; done].
  rewrite lookup_insert, P, A. done.
Qed.
Lemma request_inflight_only e a l t s s' x b : request cf e a l t s = (s', x) -> sy_inflight s !! b <> None -> sy_inflight s' !! b = sy_inflight s !! b.
Proof.
  intros R. pose proof (request_evolves cf _ _ _ _ _ _ _ b R) as E. destruct (sy_inflight s !! b) as [r|] eqn:Q; [|done].
  intros _. apply evolves_some in E as [_ E]. done.
Qed.

(** ** Looking for headers *)
Lemma candidate_spec s l a : is_candidate s l a = true <-> exists p, sy_peers s !! a = Some p /\ sy_inflight s !! a = None /\ sp_outbound p = true /\ (forall l', sp_asked p = Some l' -> l'.1 <> l).
Proof.
  unfold is_candidate. destruct (sy_peers s !! a) as [p|]; [|split; [done|by intros (p & ? & _)]].
  rewrite !andb_true_iff, bool_decide_eq_true. split.
  - intros [[A B] C]. exists p. split; [done|]. split; [done|]. split; [done|]. intros l' E. rewrite E in C. by apply negb_true_iff, bool_decide_eq_false in C.
  - intros (q & [= <-] & A & B & C). split; [done|]. destruct (sp_asked p) as [l'|]; [|done]. apply negb_true_iff, bool_decide_eq_false. by apply C.
Qed.
Lemma best_height_in s h : best_height s = Some h -> exists a p, sy_peers s !! a = Some p /\ sp_height p = h.
Proof.
  unfold best_height. assert (G : forall l : list (N * speer), forall h, (match (fun p => sp_height p.2) <$> l with [] => None | h :: t => Some (foldr N.max h t) end) = Some h -> exists q, q ∈ l /\ sp_height q.2 = h).
  { intros [|q l] h'; cbn; [done|]. intros [= <-]. induction l as [|r l IH]; cbn.
    - exists q. split; [by left|done].
    - destruct IH as (q' & Q1 & Q2). destruct (N.max_spec (sp_height r.2) (foldr N.max (sp_height q.2) ((fun p => sp_height p.2) <$> l))) as [[_ ->]|[_ ->]].
      + exists q'. split; [|done]. apply elem_of_cons in Q1 as [->|Q1]; [by left|by right; right].
      + exists r. split; [by right; left|done]. }
  intros E. destruct (G _ _ E) as ([a p] & Q1 & Q2). apply elem_of_map_to_list in Q1. by exists a, p.
Qed.
Lemma best_height_ge s a p : sy_peers s !! a = Some p -> exists h, best_height s = Some h /\ sp_height p <= h.
Proof.
  intros P. unfold best_height. apply elem_of_map_to_list in P. destruct (map_to_list (sy_peers s)) as [|q l]; [by apply elem_of_nil in P|].
  cbn. eexists. split; [done|]. apply elem_of_cons in P as [<-|P]; cbn.
  - induction l as [|r l IH]; cbn; [lia|]. lia.
  - induction l as [|r l IH]; [by apply elem_of_nil in P|]. apply elem_of_cons in P as [<-|P]; cbn; [lia|]. specialize (IH P). cbn in IH. lia.
Qed.

Lemma do_sync_why e c s s' x b : do_sync H cf e c s = Val (s', x, b) -> keeps s x s' /\
  (sy_sample s' = sy_sample s /\ sy_update s' = sy_update s /\ sy_idle s' = sy_idle s) /\
  forall a l, SoGetHeaders a l ∈ x -> exists lc p b q, l = (lc, 0) /\ locator_hashes H c (c_height c) = Val lc /\
    sy_peers s !! a = Some p /\ sp_preferred p = true /\ sy_peers s !! b = Some q /\ c_height c < sp_height q /\
    (fair_env e -> forall d r, sy_peers s !! d = Some r -> sp_preferred r = true -> c_height c < sp_height r -> is_candidate s lc d = true -> c_height c < sp_height p).
Proof.
  unfold do_sync. destruct (addrs s) as [|z0 z1]; [intros [= <- <- <-]; split; [by apply keeps_nil|]; split; [done|]; by intros a l ?%elem_of_nil|].
  destruct (is_synced _ _ _ _ _).
  { intros [= <- <- <-]. split; [apply keeps_refl; done|]. split; [done|]. by intros a l ?%elem_of_list_singleton. }
  destruct (locator_hashes H c (c_height c)) as [lh|] eqn:L; [cbn|done].
  destruct (syncing _ _); [intros [= <- <- <-]; split; [by apply keeps_nil|]; split; [done|]; by intros a l ?%elem_of_nil|].
  destruct (preferred_peer _ _ _ _) as [a0|] eqn:Pp; [|intros [= <- <- <-]; split; [by apply keeps_nil|]; split; [done|]; by intros a l ?%elem_of_nil].
  destruct (N.ltb_spec (c_height c) (default (c_height c) (best_height s))) as [B|_]; [|intros [= <- <- <-]; split; [by apply keeps_nil|]; split; [done|]; by intros a l ?%elem_of_nil].
  destruct (request _ _ _ _ _ _) as [s1 x1] eqn:R. intros [= <- <- <-]. split; [by eapply request_keeps|]. split.
  { unfold request in R. destruct (sy_inflight s !! a0); [by injection R as <- _|]. destruct (sy_peers s !! a0); by injection R as <- _. }
  intros a l I. destruct (request_cases _ _ _ _ _ _ _ R) as [(_ & -> & _)|(_ & [p P] & _ & A1 & A2)]; [by apply elem_of_nil in I|].
  apply asks_in in I. destruct (decide (a = a0)) as [->|NE]; [|rewrite A2 in I by done; by apply elem_of_nil in I].
  rewrite A1 in I. apply elem_of_list_singleton in I as ->.
  destruct (best_height s) as [h|] eqn:Bh; [cbn in B|cbn in B; lia]. destruct (best_height_in _ _ Bh) as (b & q & Q1 & Q2).
  exists lh, p, b, q. split; [done|]. split; [done|]. split; [done|].
  unfold preferred_peer in Pp. destruct (List.find _ (List.filter _ _)) as [a1|] eqn:F.
  - injection Pp as ->. apply List.find_some in F as [F1 F2]. apply andb_true_iff in F2 as [F2 F3]. unfold is_preferred in F2. unfold higher in F3. rewrite P in F2, F3.
    split; [done|]. split; [done|]. split; [lia|]. intros _ d r _ _ _ _. lia.
  - apply List.find_some in Pp as [F1 F2]. unfold is_preferred in F2. rewrite P in F2. split; [done|]. split; [done|]. split; [lia|].
    intros Fe d r D1 D2 D3 D4. exfalso.
    assert (In d (List.filter (is_candidate s lh) (se_order e 1 (addrs s)))) as Hd.
    { apply filter_In. split; [|done]. apply elem_of_list_In. rewrite (Fe 1%nat). apply elem_of_list_fmap. exists (d, r). split; [done|]. by apply elem_of_map_to_list. }
    pose proof (List.find_none _ _ F d Hd) as Z. cbn in Z. unfold is_preferred, higher in Z. rewrite D1, D2 in Z. cbn in Z. lia.
Qed.
Lemma do_sync_must e c s s' x b a p d q : fair_env e -> do_sync H cf e c s = Val (s', x, b) -> (forall b, sy_inflight s !! b = None) ->
  sy_peers s !! a = Some p -> sp_preferred p = true -> sy_peers s !! d = Some q -> c_height c < sp_height q ->
  b = true /\ exists a' l, asks a' x = [(l, 0)].
Proof.
  intros Fe E I P Pf Q Hh. unfold do_sync in E. destruct (addrs s) as [|z0 z1] eqn:Ad.
  { unfold addrs in Ad. apply fmap_nil_inv in Ad. apply map_to_list_empty_iff in Ad. by rewrite Ad in P. }
  destruct (best_height_ge _ _ _ Q) as (h & Bh & Lh).
  assert (is_synced H cf e c s = false) as S.
  { unfold is_synced. destruct (stale_tip H cf e c s); [done|]. rewrite Bh. apply N.leb_gt. lia. }
  rewrite S in E. destruct (locator_hashes H c (c_height c)) as [lh|] eqn:L; [cbn in E|done].
  assert (syncing s (lh, 0) = false) as Sy.
  { unfold syncing. apply not_true_iff_false. intros X. apply List.existsb_exists in X as ([b' r] & X & _). apply elem_of_list_In, elem_of_map_to_list in X. by rewrite I in X. }
  rewrite Sy in E. destruct (preferred_peer e c lh s) as [a0|] eqn:Pp.
  - rewrite Bh in E. cbn [default] in E. unfold default in E. cbn in E. destruct (N.ltb_spec (c_height c) h) as [_|]; [|lia].
    destruct (request _ _ _ _ _ _) as [s1 x1] eqn:R. injection E as <- <- <-. split; [done|]. exists a0, lh.
    destruct (request_cases _ _ _ _ _ _ _ R) as [(_ & _ & [X|X])|(_ & _ & _ & A & _)]; [by destruct X| |done].
    exfalso. unfold preferred_peer in Pp. destruct (List.find _ (List.filter _ _)) as [a1|] eqn:F.
    + injection Pp as ->. apply List.find_some in F as [_ F]. unfold is_preferred in F. by rewrite X in F.
    + apply List.find_some in Pp as [_ F2]. unfold is_preferred in F2. by rewrite X in F2.
  - exfalso. unfold preferred_peer in Pp. destruct (List.find _ (List.filter _ _)); [done|].
    assert (In a (se_order e 1 (addrs s))) as Ha.
    { apply elem_of_list_In. rewrite (Fe 1%nat). apply elem_of_list_fmap. exists (a, p). split; [done|]. by apply elem_of_map_to_list. }
    pose proof (List.find_none _ _ Pp a Ha) as Z. cbn in Z. unfold is_preferred in Z. rewrite P in Z. congruence.
Qed.

(** ** Sampling *)
Lemma request_fields e a l t s s' x : request cf e a l t s = (s', x) -> sy_sample s' = sy_sample s /\ sy_update s' = sy_update s /\ sy_idle s' = sy_idle s.
Proof. unfold request. destruct (sy_inflight s !! a); [by intros [= <- _]|]. destruct (sy_peers s !! a); by intros [= <- _]. Qed.
Lemma request_all_why e l ps : forall s s' x, request_all cf e l ps s = (s', x) ->
  keeps s x s' /\ (sy_sample s' = sy_sample s /\ sy_update s' = sy_update s /\ sy_idle s' = sy_idle s) /\
  forall a l', SoGetHeaders a l' ∈ x -> a ∈ ps /\ l' = l.
Proof.
  induction ps as [|p ps IH]; intros s s' x; cbn; [intros [= <- <-]; split; [by apply keeps_nil|]; split; [done|]; by intros a l' ?%elem_of_nil|].
  destruct (request _ _ _ _ _ _) as [s1 x1] eqn:R. destruct (request_all _ _ _ _ _) as [s2 x2] eqn:R2.
  intros [= <- <-]. destruct (IH _ _ _ R2) as (K & (F1 & F2 & F3) & W). destruct (request_fields _ _ _ _ _ _ _ R) as (G1 & G2 & G3).
  split; [eapply keeps_trans; [by eapply request_keeps|done]|]. split; [split; [congruence|]; split; congruence|].
  intros a l' [I|I]%elem_of_app; [|destruct (W a l' I); split; [by right|done]].
  destruct (request_cases _ _ _ _ _ _ _ R) as [(_ & -> & _)|(_ & _ & _ & A & B)]; [by apply elem_of_nil in I|].
  apply asks_in in I. destruct (decide (a = p)) as [->|NE]; [|rewrite B in I by done; by apply elem_of_nil in I].
  rewrite A in I. apply elem_of_list_singleton in I as ->. split; [by left|done].
Qed.
Definition stale_of (e : senv) (c : cache) (u : option N) : Prop :=
  (exists t, u = Some t /\ (sc_spacing cf * 3000 <= se_now e -> t + sc_spacing cf * 3000 < se_now e)) \/
  (7200000 <= se_now e -> h_time (c_tip H c).2 * 1000 + 7200000 <= se_now e).
Lemma stale_spec e c s t : stale_tip H cf e c s = Some t -> stale_of e c (sy_update s).
Proof.
  unfold stale_tip, stale_of, time_minus. destruct (sy_update s) as [u|]; [destruct (N.ltb_spec u (if se_now e <? sc_spacing cf * 3 * 1000 then se_now e + two128 - sc_spacing cf * 3 * 1000 else se_now e - sc_spacing cf * 3 * 1000)) as [L|L]|].
  - intros _. left. exists u. split; [done|]. destruct (N.ltb_spec (se_now e) (sc_spacing cf * 3 * 1000)); lia.
  - intros E. right. unfold TIP_STALE_DURATION in E. destruct (N.leb_spec (h_time (c_tip H c).2 * 1000) (if se_now e <? 7200000 then se_now e + two128 - 7200000 else se_now e - 7200000)) as [L'|L']; [|done].
    destruct (N.ltb_spec (se_now e) 7200000); lia.
  - intros E. right. unfold TIP_STALE_DURATION in E. destruct (N.leb_spec (h_time (c_tip H c).2 * 1000) (if se_now e <? 7200000 then se_now e + two128 - 7200000 else se_now e - 7200000)) as [L'|L']; [|done].
    destruct (N.ltb_spec (se_now e) 7200000); lia.
Qed.
Lemma sample_why e c s s' x : sample_peers H cf e c s = Val (s', x) ->
  keeps s x s' /\ sy_update s' = sy_update s /\ sy_idle s' = sy_idle s /\
  default 0 (sy_sample s) <= default 0 (sy_sample s') /\
  forall a l, SoGetHeaders a l ∈ x -> exists lc, l = (lc, 0) /\ locator_hashes H c (c_height c) = Val lc /\ stale_of e c (sy_update s) /\
    is_candidate s lc a = true /\ default 0 (sy_sample s) + 3600000 <= se_now e /\ sy_sample s' = Some (se_now e).
Proof.
  unfold sample_peers. destruct (N.ltb_spec (se_now e - default 0 (sy_sample s)) PEER_SAMPLE_INTERVAL) as [_|L].
  { intros [= <- <-]. split; [by apply keeps_nil|]. do 2 (split; [done|]). split; [lia|]. by intros a l ?%elem_of_nil. }
  destruct (stale_tip _ _ _ _ _) as [t|] eqn:St; [|intros [= <- <-]; split; [by apply keeps_nil|]; do 2 (split; [done|]); split; [lia|]; by intros a l ?%elem_of_nil].
  destruct (locator_hashes H c (c_height c)) as [lh|]; [cbn [mbind_M]|done]. intros [= R].
  destruct (request_all_why _ _ _ _ _ _ R) as (K & (F1 & F2 & F3) & W). split; [exact K|]. split; [exact F2|]. split; [exact F3|].
  cbn [sy_sample] in F1. rewrite F1. unfold PEER_SAMPLE_INTERVAL in L. split; [cbn; lia|].
  intros a l I. destruct (W a l I) as [W1 ->]. exists lh. split; [done|]. split; [done|]. split; [by eapply stale_spec|].
  apply elem_of_list_In, filter_In in W1 as [_ W1]. split; [exact W1|]. split; [lia|done].
Qed.
Lemma idle_why e c s s' x : idle H cf e c s = Val (s', x) ->
  keeps s x s' /\ sy_update s' = sy_update s /\ sy_idle s' = (if 600000 <=? se_now e - default 0 (sy_idle s) then Some (se_now e) else sy_idle s) /\
  default 0 (sy_sample s) <= default 0 (sy_sample s') /\
  exists s1 x1 x2, x = x1 ++ x2 /\ keeps s x1 s1 /\ sy_update s1 = sy_update s /\
  (forall a, evolves (se_now e) a (sy_inflight s !! a) x1 (sy_inflight s1 !! a)) /\
  (((s1 = s /\ x1 = [])) \/ exists b, do_sync H cf e c s = Val (s1, x1, b)) /\
  (forall a l, SoGetHeaders a l ∈ x2 -> exists lc, l = (lc, 0) /\ locator_hashes H c (c_height c) = Val lc /\ stale_of e c (sy_update s) /\
    is_candidate s1 lc a = true /\ default 0 (sy_sample s) + 3600000 <= se_now e /\ sy_sample s' = Some (se_now e)).
Proof.
  unfold idle, IDLE_TIMEOUT. destruct (N.leb_spec 600000 (se_now e - default 0 (sy_idle s))) as [L|L].
  2:{ intros [= <- <-]. split; [by apply keeps_nil|]. do 2 (split; [done|]). split; [lia|]. exists s, [], []. split; [done|]. split; [by apply keeps_nil|]. split; [done|].
      split; [intros a; by left|]. split; [by left|]. by intros a l ?%elem_of_nil. }
  destruct (do_sync _ _ _ _ _) as [[[s1 x1] b]|] eqn:D; [cbn [mbind_M]|done]. destruct (do_sync_why _ _ _ _ _ _ D) as (K & (F1 & F2 & F3) & _).
  assert (Ev : forall a, evolves (se_now e) a (sy_inflight s !! a) x1 (sy_inflight s1 !! a)) by (intros a; by eapply do_sync_evolves).
  assert (Kt : forall s x s', keeps s x s' -> keeps s (x ++ [SoTimer 600000]) s').
  { intros q y q' Kq a. by rewrite asks_app, app_nil_r. }
  destruct b.
  - cbn [mbind_M]. intros [= <- <-]. cbn [app]. split; [by apply Kt|]. cbn [sy_update sy_sample sy_idle]. split; [done|]. split; [done|]. split; [rewrite F1; lia|].
    exists s1, x1, [SoTimer 600000]. split; [done|]. split; [done|]. split; [done|]. split; [done|]. split; [right; by exists true|].
    intros a l I. by apply elem_of_list_singleton in I.
  - destruct (sample_peers _ _ _ _ _) as [[s2 x2]|] eqn:S2; [cbn [mbind_M]|done]. intros [= <- <-].
    destruct (sample_why _ _ _ _ _ S2) as (K2 & G2 & G3 & G1 & W). cbn [sy_update sy_sample sy_idle].
    split; [eapply keeps_trans; [exact K|]; by apply Kt|]. split; [congruence|]. split; [done|]. split; [rewrite <- F1; lia|].
    exists s1, x1, (x2 ++ [SoTimer 600000]). split; [done|]. split; [done|]. split; [done|]. split; [done|]. split; [right; by exists false|].
    intros a l [I|I]%elem_of_app; [|by apply elem_of_list_singleton in I]. destruct (W a l I) as (lc & -> & W2 & W3 & W4 & W5 & W6).
    exists lc. split; [done|]. split; [done|]. rewrite <- F2. split; [done|]. split; [done|]. rewrite <- F1. by split.
Qed.

(** ** Time-outs *)
Definition no_drop (x : list sout) : bool := forallb (fun o => match o with SoDisconnect _ => false | _ => true end) x.
Lemma no_drop_app x y : no_drop (x ++ y) = no_drop x && no_drop y.
Proof. apply forallb_app. Qed.
Lemma request_no_drop e a l t s s' x : request cf e a l t s = (s', x) -> no_drop x = true.
Proof. unfold request. destruct (sy_inflight s !! a); [by intros [= _ <-]|]. destruct (sy_peers s !! a) as [p|]; [|by intros [= _ <-]]. intros [= _ <-]. by destruct (bool_decide _). Qed.
Lemma candidate_pv s l a : is_candidate s l a = true -> sy_inflight s !! a = None /\ exists v, pv s a = Some v /\ pv_outbound v = true /\ (forall l', pv_asked v = Some l' -> l'.1 <> l).
Proof.
  intros (p & P & I & O & A)%candidate_spec. split; [done|]. exists (pabs p). unfold pv. rewrite P. done.
Qed.
Lemma time_out_why e i0 ps : fair_env e -> forall i s s' x b, time_out cf e i i0 ps s = (s', x, b) -> NoDup ps -> (forall p, p ∈ ps -> is_Some (sy_inflight s !! p)) ->
  keeps s x s' /\ (sy_sample s' = sy_sample s /\ sy_update s' = sy_update s /\ sy_idle s' = sy_idle s) /\ no_drop x = negb b /\
  forall a l, SoGetHeaders a l ∈ x -> exists d r v, d ∈ ps /\ d <> a /\ i0 !! d = Some r /\ gr_locators r = l /\
    pv s a = Some v /\ pv_outbound v = true /\ (forall l', pv_asked v = Some l' -> l'.1 <> l.1).
Proof.
  intros Fe. induction ps as [|p ps IH]; intros i s s' x b; [intros [= <- <- <-] _ _; split; [by apply keeps_nil|]; split; [done|]; split; [done|]; by intros a l ?%elem_of_nil|].
  rewrite time_out_cons. destruct (drop_one cf e i i0 p (with_inflight s (delete p (sy_inflight s)))) as [[s1 x1] b1] eqn:D.
  pose proof (fun a => drop_one_evolves cf _ _ _ _ _ _ _ _ a D) as Ev. unfold drop_one in D.
  destruct (time_out cf e (S i) i0 ps s1) as [[s2 x2] b2] eqn:R. intros [= <- <- <-] [Np Nd]%NoDup_cons Fl.
  set (s0 := with_inflight s (delete p (sy_inflight s))) in *.
  assert (K0 : forall a, pv s0 a = pv s a) by done.
  assert (Q : keeps s0 x1 s1 /\ (sy_sample s1 = sy_sample s /\ sy_update s1 = sy_update s /\ sy_idle s1 = sy_idle s) /\ no_drop x1 = negb b1 /\
    forall a l, SoGetHeaders a l ∈ x1 -> p <> a /\ exists r, i0 !! p = Some r /\ gr_locators r = l /\ is_candidate s0 l.1 a = true).
  { destruct (i0 !! p) as [r|] eqn:Ir; [|injection D as <- <- <-; split; [by apply keeps_nil|]; split; [done|]; split; [done|]; by intros a l ?%elem_of_nil].
    assert (Tr : forall y, y = [SoDisconnect p] -> keeps s0 y s0 /\ (sy_sample s0 = sy_sample s /\ sy_update s0 = sy_update s /\ sy_idle s0 = sy_idle s) /\ no_drop y = negb true /\
      forall a l, SoGetHeaders a l ∈ y -> p <> a /\ exists r', Some r = Some r' /\ gr_locators r' = l /\ is_candidate s0 l.1 a = true).
    { intros y ->. split; [by apply keeps_refl|]. split; [done|]. split; [done|]. by intros a l ?%elem_of_list_singleton. }
    destruct (gr_timeout r) as [| |[|n]].
    - injection D as <- <- <-. by apply Tr.
    - injection D as <- <- <-. split; [by apply keeps_nil|]. split; [done|]. split; [done|]. by intros a l ?%elem_of_nil.
    - injection D as <- <- <-. by apply Tr.
    - destruct (head _) as [a'|] eqn:Hd; [|injection D as <- <- <-; split; [by apply keeps_nil|]; split; [done|]; split; [done|]; by intros a l ?%elem_of_nil].
      destruct (request _ _ _ _ _ _) as [s3 x3] eqn:Rq. injection D as <- <- <-. split; [by eapply request_keeps|]. split; [by apply (request_fields _ _ _ _ _ _ _ Rq)|].
      split; [by eapply request_no_drop|]. intros a l I.
      destruct (request_cases _ _ _ _ _ _ _ Rq) as [(_ & -> & _)|(In0 & [q0 Q0] & _ & A1 & A2)]; [by apply elem_of_nil in I|].
      apply asks_in in I. destruct (decide (a = a')) as [->|NE]; [|rewrite A2 in I by done; by apply elem_of_nil in I].
      rewrite A1 in I. apply elem_of_list_singleton in I as ->.
      assert (a' ∈ se_order e (5 + i) (List.filter (fun a' => negb (a' =? p) && is_candidate s0 (gr_locators r).1 a') (addrs s0))) as Ha.
      { destruct (se_order e (5 + i) _); [done|]. injection Hd as ->. by left. }
      rewrite (Fe (5 + i)%nat) in Ha. apply elem_of_list_In, filter_In in Ha as [_ Ha]. apply andb_true_iff in Ha as [Ha1 Ha2].
      split; [intros ->; by rewrite N.eqb_refl in Ha1|]. by exists r. }
  destruct Q as (K & (F1 & F2 & F3) & B & W).
  assert (Fl1 : forall q, q ∈ ps -> sy_inflight s1 !! q = sy_inflight s !! q /\ is_Some (sy_inflight s !! q) /\ asks q x1 = []).
  { intros q Hq. specialize (Ev q). destruct (Fl q ltac:(by right)) as [r Hr].
    assert (sy_inflight s0 !! q = Some r) as E0 by (unfold s0; cbn; rewrite lookup_delete_ne; [done|]; by intros ->).
    rewrite E0 in Ev. apply evolves_some in Ev as [A E]. rewrite E, Hr. split; [done|]. split; [by eexists|done]. }
  destruct (IH _ _ _ _ _ R Nd ltac:(intros q Hq; destruct (Fl1 q Hq) as (-> & ? & _); done)) as (K2 & (G1 & G2 & G3) & B2 & W2).
  split; [intros a; rewrite <- (K0 a); by apply (keeps_trans _ _ s1)|]. split; [split; [congruence|]; split; congruence|].
  split; [rewrite no_drop_app, B, B2; by destruct b1, b2|].
  intros a l [I|I]%elem_of_app.
  - destruct (W a l I) as (NE & r & R1 & R2 & R3). apply candidate_pv in R3 as (_ & v & V1 & V2 & V3). exists p, r, v. split; [by left|]. done.
  - destruct (W2 a l I) as (d & r & v & D1 & D2 & D3 & D4 & D5 & D6 & D7). exists d, r, v. split; [by right|]. do 3 (split; [done|]). split; [|done].
    assert (asks a x1 = []) as Z.
    { destruct (decide (a ∈ ps)) as [In0|Ni]; [by apply Fl1|]. destruct (Ev a) as [[Z _]|(l0 & t0 & Z & _ & Sm)]; [done|].
      pose proof (time_out_evolves cf _ _ _ _ _ _ _ _ a R Nd ltac:(intros q Hq; destruct (Fl1 q Hq) as (-> & ? & _); done)) as E2.
      rewrite bool_decide_false, Sm in E2 by done. apply evolves_some in E2 as [E2 _]. apply asks_in in I. rewrite E2 in I. by apply elem_of_nil in I. }
    specialize (K a). rewrite Z, remember_nil, K0 in K. congruence.
Qed.

(** ** Headers *)
Lemma imported_app x y : imported (x ++ y) = match imported x with Some h => Some h | None => imported y end.
Proof. unfold imported. rewrite omap_app. by destruct (omap _ x). Qed.
Lemma imported_none x : (forall b k h rv cn, SoImported b k h rv cn ∉ x) -> imported x = None.
Proof.
  intros A. unfold imported. destruct (omap _ x) as [|h l] eqn:E; [done|]. exfalso.
  assert (h ∈ omap (fun o => match o with SoImported _ _ h _ _ => Some h | _ => None end) x) as I by (rewrite E; by left).
  apply elem_of_list_omap in I as (o & O & I). destruct o; try done. by eapply A.
Qed.
Lemma request_not_imported e a l t s s' x : request cf e a l t s = (s', x) -> imported x = None.
Proof.
  intros R. apply imported_none. intros b k h rv cn I. unfold request in R. destruct (sy_inflight s !! a); [injection R as <- <-; by apply elem_of_nil in I|].
  destruct (sy_peers s !! a) as [p|]; [|injection R as <- <-; by apply elem_of_nil in I]. injection R as <- <-.
  apply elem_of_app in I as [I|I]; [destruct (bool_decide _); [by apply elem_of_list_singleton in I|by apply elem_of_nil in I]|].
  apply elem_of_cons in I as [?|I]; [done|]. by apply elem_of_list_singleton in I.
Qed.
Lemma do_sync_not_imported e c s s' x b : do_sync H cf e c s = Val (s', x, b) -> imported x = None.
Proof.
  unfold do_sync. destruct (addrs s) as [|z0 z1]; [by intros [= <- <- <-]|]. destruct (is_synced _ _ _ _ _); [by intros [= <- <- <-]|].
  destruct (locator_hashes H c (c_height c)) as [lh|]; [cbn|done]. destruct (syncing _ _); [by intros [= <- <- <-]|].
  destruct (preferred_peer _ _ _ _); [|by intros [= <- <- <-]]. destruct (_ <? _); [|by intros [= <- <- <-]].
  destruct (request _ _ _ _ _ _) as [s1 x1] eqn:R. intros [= <- <- <-]. by eapply request_not_imported.
Qed.
Lemma broadcast_not_imported order k c s : imported (broadcast_tip order k c s) = None.
Proof. apply imported_none. intros b k' h rv cn I. by destruct (broadcast_blame _ _ _ _ _ I) as (? & ? & ?). Qed.
Lemma import_imported e hds c s c' x r : sync_import H e hds c s = Val (c', x, r) ->
  import_blocks H c hds (se_block_time e) = Val (c', r) /\ no_asks x /\
  imported x = match r with Ok (TipChanged _ _ h _ _) => Some h | _ => None end /\
  match r with Ok (TipChanged _ k h _ _) => exists b rv cn, SoImported b k h rv cn ∈ x | _ => x = [] end.
Proof.
  intros Im. split; [by eapply sync_import_blocks|]. split; [by eapply import_no_asks|]. unfold sync_import in Im.
  destruct (import_blocks H c hds (se_block_time e)) as [[c1 r1]|]; [cbn in Im|done]. injection Im as <- <- <-.
  destruct r1 as [[t k h rv cn|]|er]; [|done..]. split.
  - rewrite !imported_app. rewrite (imported_none ((fun p => SoDisconnected p.1 p.2) <$> rv)), (imported_none ((fun p => SoConnected p.1 p.2) <$> cn)); [done| |];
      intros b k' h' rv' cn' (z & ? & _)%elem_of_list_fmap; done.
  - exists (negb (bool_decide (rv = []))), rv, cn. rewrite !elem_of_app. right; right. by left.
Qed.
Lemma raise_pv a k h s b : pv (raise_peer a k h s) b =
  match pv s b with Some p => if a =? b then Some (PView (N.max (pv_height p) h) (pv_filters p) (pv_outbound p) (pv_asked p)) else Some p | None => None end.
Proof.
  unfold raise_peer, pv. destruct (sy_peers s !! a) as [p|] eqn:P.
  - destruct (N.ltb_spec (sp_height p) h) as [L|L].
    + cbn [with_peers sy_peers]. destruct (N.eqb_spec a b) as [<-|NE].
      * rewrite lookup_insert, P. cbn. unfold pabs. cbn. by rewrite N.max_r by lia.
      * rewrite lookup_insert_ne by done. by destruct (sy_peers s !! b).
    + destruct (N.eqb_spec a b) as [<-|NE]; [|by destruct (sy_peers s !! b)]. rewrite P. cbn. unfold pabs. cbn. by rewrite N.max_l by lia.
  - destruct (N.eqb_spec a b) as [<-|NE]; [by rewrite P|by destruct (sy_peers s !! b)].
Qed.
Definition kept (s s' : sync) : Prop := sy_sample s' = sy_sample s /\ sy_idle s' = sy_idle s.
(** What asks for headers after some were received. *)
Lemma process_why e from hd hds c s s' c' x : process_headers H cf e from hd hds c s = Val (s', c', x) ->
  sy_update s' = (match imported x with Some _ => Some (se_now e) | None => sy_update s end) /\ kept s s' /\
  exists x0 x1 s1, x = x0 ++ x1 /\ no_asks x0 /\ imported x0 = imported x /\ sy_inflight s1 = sy_inflight s /\
    (forall a, pv s1 a = heard a (SHeaders from (hd :: hds), e) x (pv s a)) /\ keeps s1 x1 s' /\
    ((exists b, is_Some (imported x) /\ lenN (hd :: hds) < 2000 /\ do_sync H cf e c' s1 = Val (s', x1, b)) \/
     (forall a l, SoGetHeaders a l ∈ x1 -> a = from /\
        ((exists lc, l = (lc, H hd.1) /\ import_blocks H c (hd :: hds) (se_block_time e) = Val (c', Ok TipUnchanged) /\ locator_hashes H c' (c_height c') = Val lc) \/
         (exists b k h rv cn, l = ([k], 0) /\ 2000 <= lenN (hd :: hds) /\ SoImported b k h rv cn ∈ x)))) /\
    (lenN (hd :: hds) < 2000 -> is_Some (imported x) -> exists b, do_sync H cf e c' s1 = Val (s', x1, b)).
Proof.
  assert (Hn : forall a x1, imported x1 = None -> heard a (SHeaders from (hd :: hds), e) x1 (pv s a) = pv s a).
  { intros a x1 E. unfold heard. cbn. rewrite E. by destruct (pv s a). }
  assert (Q0 : forall s2 x0, s2 = s -> no_asks x0 -> imported x0 = None -> sy_update s2 = (match imported x0 with Some _ => Some (se_now e) | None => sy_update s end) /\ kept s s2 /\
    exists x0' x1 s1, x0 = x0' ++ x1 /\ no_asks x0' /\ imported x0' = imported x0 /\ sy_inflight s1 = sy_inflight s /\
      (forall a, pv s1 a = heard a (SHeaders from (hd :: hds), e) x0 (pv s a)) /\ keeps s1 x1 s2 /\
      ((exists b, is_Some (imported x0) /\ lenN (hd :: hds) < 2000 /\ do_sync H cf e c' s1 = Val (s2, x1, b)) \/
      (forall a l, SoGetHeaders a l ∈ x1 -> a = from /\
        ((exists lc, l = (lc, H hd.1) /\ import_blocks H c (hd :: hds) (se_block_time e) = Val (c', Ok TipUnchanged) /\ locator_hashes H c' (c_height c') = Val lc) \/
         (exists b k h rv cn, l = ([k], 0) /\ 2000 <= lenN (hd :: hds) /\ SoImported b k h rv cn ∈ x0)))) /\
      (lenN (hd :: hds) < 2000 -> is_Some (imported x0) -> exists b, do_sync H cf e c' s1 = Val (s2, x1, b))).
  { intros s2 x0 -> Na Ni. rewrite Ni. split; [done|]. split; [done|]. exists x0, [], s. split; [by rewrite app_nil_r|]. split; [done|]. split; [done|]. split; [done|].
    split; [intros a; by rewrite Hn|]. split; [by apply keeps_nil|]. split; [right; by intros a l ?%elem_of_nil|]. by intros _ [? ?]. }
  unfold process_headers. destruct (contains _ _); [intros [= <- <- <-]; by apply Q0|].
  destruct (sync_import H e (hd :: hds) c s) as [[[c1 x1] r]|] eqn:Im; [cbn [mbind_M]|done].
  destruct (import_imported _ _ _ _ _ _ _ Im) as (Ib & Na & Ei & Ex). clear Im.
  destruct r as [[t k h rv cn|]|er].
  - destruct Ex as (b0 & rv0 & cn0 & Ex). set (s2 := Sync _ _ _ _ _).
    assert (P2 : forall y, imported y = Some h -> forall a, pv s2 a = heard a (SHeaders from (hd :: hds), e) y (pv s a)).
    { intros y Ey a. change (pv s2 a) with (pv (raise_peer from k h s) a). rewrite raise_pv. unfold heard. cbn [fst]. rewrite Ey. by destruct (pv s a). }
    assert (I2 : sy_inflight s2 = sy_inflight s) by (unfold s2; cbn; apply raise_infl).
    assert (U2 : sy_update s2 = Some (se_now e) /\ kept s s2).
    { split; [done|]. unfold s2, kept. cbn. unfold raise_peer. destruct (sy_peers s !! from); [|done]. by destruct (_ <? _). }
    clearbody s2. destruct U2 as [U2 Kp]. destruct (N.ltb_spec (lenN (hd :: hds)) MAX_MESSAGE_HEADERS) as [L|L]; unfold MAX_MESSAGE_HEADERS in L.
    + destruct (do_sync _ _ _ _ _) as [[[s3 x3] b]|] eqn:D; [cbn [mbind_M]|done]. intros X. injection X as <- <- <-.
      destruct (do_sync_why _ _ _ _ _ _ D) as (K & (F1 & F2 & F3) & _).
      assert (E0 : imported (x1 ++ broadcast_tip (se_order e 4) k c1 s2) = Some h) by (rewrite imported_app, Ei; done).
      assert (E1 : imported (x1 ++ broadcast_tip (se_order e 4) k c1 s2 ++ x3) = Some h) by (rewrite imported_app, Ei; done).
      rewrite E1. split; [congruence|]. split; [destruct Kp; split; congruence|].
      exists (x1 ++ broadcast_tip (se_order e 4) k c1 s2), x3, s2. split; [by rewrite app_assoc|]. split; [apply no_asks_app; [done|apply broadcast_no_asks]|]. split; [done|].
      split; [done|]. split; [by apply P2|]. split; [done|]. split; [left; exists b; split; [by eexists|done]|]. intros _ _. by exists b.
    + destruct (request _ _ _ _ _ _) as [s3 x3] eqn:R. intros X. injection X as <- <- <-.
      destruct (request_fields _ _ _ _ _ _ _ R) as (F1 & F2 & F3).
      assert (E1 : imported (x1 ++ x3) = Some h) by (rewrite imported_app, Ei; done).
      rewrite E1. split; [congruence|]. split; [destruct Kp; split; congruence|]. exists x1, x3, s2. split; [done|]. split; [done|]. split; [done|].
      split; [done|]. split; [by apply P2|]. split; [by eapply request_keeps|]. split; [right|intros L'; lia]. intros a l I.
      destruct (request_cases _ _ _ _ _ _ _ R) as [(_ & -> & _)|(_ & _ & _ & A1 & A2)]; [by apply elem_of_nil in I|].
      apply asks_in in I. destruct (decide (a = from)) as [->|NE]; [|rewrite A2 in I by done; by apply elem_of_nil in I].
      rewrite A1 in I. apply elem_of_list_singleton in I as ->. split; [done|]. right. exists b0, k, h, rv0, cn0. split; [done|]. split; [done|]. apply elem_of_app. by left.
  - subst x1. destruct (locator_hashes H c1 (c_height c1)) as [lh|] eqn:Lh; [cbn [mbind_M]|done]. destruct (request _ _ _ _ _ _) as [s2 x2] eqn:R.
    intros X. injection X as <- <- <-. destruct (request_fields _ _ _ _ _ _ _ R) as (F1 & F2 & F3). pose proof (request_not_imported _ _ _ _ _ _ _ R) as E1. cbn [app].
    rewrite E1. split; [done|]. split; [done|]. exists [], x2, s. split; [done|]. split; [done|]. split; [done|]. split; [done|]. split; [intros a; by rewrite Hn|].
    split; [by eapply request_keeps|]. split; [right|by intros _ [? ?]]. intros a l I.
    destruct (request_cases _ _ _ _ _ _ _ R) as [(_ & -> & _)|(_ & _ & _ & A1 & A2)]; [by apply elem_of_nil in I|].
    apply asks_in in I. destruct (decide (a = from)) as [->|NE]; [|rewrite A2 in I by done; by apply elem_of_nil in I].
    rewrite A1 in I. apply elem_of_list_singleton in I as ->. split; [done|]. left. by exists lh.
  - subst x1. destruct er; intros X; injection X as <- <- <-; apply Q0; done.
Qed.

(** ** Steps *)
Lemma pv_with_inflight s i a : pv (with_inflight s i) a = pv s a.
Proof. done. Qed.
Lemma touch_pv e a p s b : sy_peers s !! a = Some p -> pv (touch_peer e a p s) b = pv s b.
Proof.
  intros P. unfold pv, touch_peer. cbn. destruct (decide (a = b)) as [<-|NE]; [rewrite lookup_insert, P; done|by rewrite lookup_insert_ne].
Qed.
Lemma quiet_imported x : quiet x -> imported x = None.
Proof.
  intros Q. apply imported_none. intros b k h rv cn I. unfold quiet, chain_events in Q.
  assert (SoImported b k h rv cn ∈ List.filter chain_event x) as J by (apply elem_of_list_In, filter_In; split; [by apply elem_of_list_In|done]).
  rewrite Q in J. by apply elem_of_nil in J.
Qed.
Definition heard_quiet a oe x v : match oe.1 with SHeaders _ _ | SNegotiated _ _ _ _ _ | SDisconnect _ => False | _ => True end -> heard a oe x v = v.
Proof. unfold heard. by destruct oe.1. Qed.
Lemma do_sync_no_drop e c s s' x b : do_sync H cf e c s = Val (s', x, b) -> no_drop x = true.
Proof.
  unfold do_sync. destruct (addrs s) as [|z0 z1]; [by intros [= <- <- <-]|]. destruct (is_synced _ _ _ _ _); [by intros [= <- <- <-]|].
  destruct (locator_hashes H c (c_height c)) as [lh|]; [cbn|done]. destruct (syncing _ _); [by intros [= <- <- <-]|].
  destruct (preferred_peer _ _ _ _); [|by intros [= <- <- <-]]. destruct (_ <? _); [|by intros [= <- <- <-]].
  destruct (request _ _ _ _ _ _) as [s1 x1] eqn:R. intros [= <- <- <-]. by eapply request_no_drop.
Qed.
Lemma request_all_no_drop e l ps : forall s s' x, request_all cf e l ps s = (s', x) -> no_drop x = true.
Proof.
  induction ps as [|p ps IH]; intros s s' x; cbn; [by intros [= <- <-]|].
  destruct (request _ _ _ _ _ _) as [s1 x1] eqn:R. destruct (request_all _ _ _ _ _) as [s2 x2] eqn:R2.
  intros [= <- <-]. rewrite no_drop_app, (IH _ _ _ R2), (request_no_drop _ _ _ _ _ _ _ R). done.
Qed.
Lemma idle_no_drop e c s s' x : idle H cf e c s = Val (s', x) -> no_drop x = true.
Proof.
  unfold idle. destruct (_ <=? _); [|by intros [= <- <-]]. destruct (do_sync _ _ _ _ _) as [[[s1 x1] b]|] eqn:D; [cbn [mbind_M]|done].
  apply do_sync_no_drop in D. destruct b; [cbn [mbind_M]; intros [= <- <-]; by rewrite no_drop_app, D|].
  destruct (sample_peers _ _ _ _ _) as [[s2 x2]|] eqn:S2; [cbn [mbind_M]|done]. intros [= <- <-]. rewrite !no_drop_app, D. cbn [andb].
  unfold sample_peers in S2. destruct (_ <? _); [by injection S2 as <- <-|]. destruct (stale_tip _ _ _ _ _); [|by injection S2 as <- <-].
  destruct (locator_hashes H c (c_height c)) as [lh|]; [cbn [mbind_M] in S2|done]. injection S2 as S2. by rewrite (request_all_no_drop _ _ _ _ _ _ S2).
Qed.
Lemma timed_out_some e s : fair_env e -> forall p, p ∈ timed_out cf e s -> is_Some (sy_inflight s !! p).
Proof. intros F p Hp. apply (timed_out_spec cf) in Hp as (r & -> & _); [by eexists|done]. Qed.

Lemma step_view oe s c s' c' x : fair_env oe.2 -> sync_step H cf oe (s, c) = Val (s', c', x) ->
  (forall a, pv s' a = remember (asks a x) (heard a oe x (pv s a))) /\
  sy_update s' = updated_step oe x (sy_update s) /\ sy_idle s' = idled_step oe x (sy_idle s) /\ default 0 (sy_sample s) <= default 0 (sy_sample s').
Proof.
  destruct oe as [o e]. cbn [fst snd]. intros Fe. unfold sync_step. destruct o.
  - destruct (idle _ _ _ _ _) as [[s1 x1]|] eqn:D; [cbn [mbind_M]|done]. intros [= <- <- <-]. destruct (idle_why _ _ _ _ _ D) as (K & U & I & S & _).
    split; [exact K|]. split; [exact U|]. split; [exact I|exact S].
  - unfold sync_negotiated. destruct (outbound && negb network) eqn:Rj.
    { intros [= <- <- <-]. split; [|split; [done|]; split; [done|apply N.le_refl]]. intros a. unfold heard. cbn. destruct outbound, network; cbn in Rj |- *; try done. by rewrite andb_false_r, remember_nil. }
    destruct (do_sync _ _ _ _ _) as [[[s2 x2] b]|] eqn:D; [cbn [mbind_M]|done]. intros X. injection X as <- <- <-.
    destruct (do_sync_why _ _ _ _ _ _ D) as (K & (F1 & F2 & F3) & _). cbn [with_peers sy_sample sy_update sy_idle] in F1, F2, F3.
    split; [|split; [exact F2|]; split; [exact F3|rewrite F1; apply N.le_refl]]. intros a. rewrite asks_app.
    assert (asks a (if default (c_height c) (best_height s) <? height then [SoPeerHeight height] else []) = []) as -> by by destruct (_ <? _).
    rewrite K. cbn [app]. f_equal. unfold pv, heard. cbn [with_peers sy_peers fst].
    assert (negb outbound || network = true) as -> by (destruct outbound, network; done). rewrite andb_true_r.
    destruct (N.eqb_spec addr a) as [<-|NE]; [rewrite lookup_insert; cbn; unfold pabs; cbn; by rewrite negb_involutive|by rewrite lookup_insert_ne].
  - intros [= <- <- <-]. split; [|split; [done|]; split; [done|apply N.le_refl]]. intros a. unfold heard, pv, unregister. cbn [with_peers sy_peers fst asks omap]. rewrite remember_nil.
    destruct (N.eqb_spec addr a) as [<-|NE]; [by rewrite lookup_delete|by rewrite lookup_delete_ne].
  - unfold received_headers. set (s0 := with_inflight s _).
    assert (Z : forall y, imported y = None -> no_asks y -> (forall a, pv s0 a = remember (asks a y) (heard a (SHeaders from hds, e) y (pv s a))) /\
      sy_update s0 = updated_step (SHeaders from hds, e) y (sy_update s) /\ sy_idle s0 = idled_step (SHeaders from hds, e) y (sy_idle s) /\ default 0 (sy_sample s) <= default 0 (sy_sample s0)).
    { intros y Ey Ay. split; [intros a; rewrite Ay, remember_nil; unfold heard; cbn [fst]; rewrite Ey; unfold s0; rewrite pv_with_inflight; by destruct (pv s a)|].
      unfold updated_step. cbn [fst]. rewrite Ey. split; [done|]. split; [done|]. apply N.le_refl. }
    destruct hds as [|hd rest]; [intros [= <- <- <-]; by apply Z|]. destruct (_ <? _); [intros [= <- <- <-]; by apply Z|].
    destruct (_ && _); [intros [= <- <- <-]; by apply Z|]. destruct (sy_peers s0 !! from) as [p|] eqn:P; [|intros [= <- <- <-]; by apply Z].
    intros E. destruct (process_why _ _ _ _ _ _ _ _ _ E) as (U & (Ks & Ki) & x0 & x1 & s1 & -> & Na & Ei & _ & V & K & _).
    split; [|split; [unfold updated_step; cbn [fst snd]; rewrite U; by destruct (imported _)|split; [exact Ki|rewrite Ks; apply N.le_refl]]].
    intros a. rewrite asks_app, Na. cbn [app]. rewrite K, V. rewrite touch_pv by done. done.
  - destruct (received_getheaders _ _ _ _ _) as [x1|] eqn:D; [cbn [mbind_M]|done]. intros [= <- <- <-].
    split; [|split; [done|]; split; [done|apply N.le_refl]]. intros a. rewrite heard_quiet by done.
    assert (asks a x1 = []) as ->; [|by rewrite remember_nil]. unfold received_getheaders in D. destruct (_ || _); [by injection D as <-|].
    destruct (locate_headers _ _ _ _) as [hds|]; [|done]. cbn in D. injection D as <-. by destruct hds.
  - destruct (received_inv _ _ _ _ _ _ _) as [[s1 x1]|] eqn:D; [cbn [mbind_M]|done]. intros [= <- <- <-]. unfold received_inv in D.
    assert (Z : keeps s [] s /\ (sy_sample s = sy_sample s /\ sy_update s = sy_update s /\ sy_idle s = sy_idle s)) by (split; [by apply keeps_nil|done]).
    assert (Q : keeps s x1 s1 /\ (sy_sample s1 = sy_sample s /\ sy_update s1 = sy_update s /\ sy_idle s1 = sy_idle s)).
    { destruct (is_syncing s); [by injection D as <- <-|]. destruct (_ <? _); [by injection D as <- <-|].
      destruct (sy_peers s !! from) as [p|] eqn:P; [|by injection D as <- <-]. set (s2 := with_peers _ _) in D.
      assert (K2 : forall a, pv s2 a = pv s a).
      { intros a. unfold pv, s2. cbn. destruct (decide (from = a)) as [<-|NE]; [rewrite lookup_insert, P; done|by rewrite lookup_insert_ne]. }
      assert (F0 : sy_sample s2 = sy_sample s /\ sy_update s2 = sy_update s /\ sy_idle s2 = sy_idle s) by done. clearbody s2.
      destruct (last _); [|injection D as <- <-; split; [intros a; by rewrite K2, remember_nil|done]].
      destruct (locator_hashes H c (c_height c)) as [lh|]; [cbn [mbind_M] in D|done]. destruct (request _ _ _ _ _ _) as [s3 x3] eqn:R. injection D as <- <-.
      split; [intros a; rewrite <- K2; by eapply request_keeps|]. destruct (request_fields _ _ _ _ _ _ _ R) as (G1 & G2 & G3), F0 as (F1 & F2 & F3). split; [congruence|]. split; congruence. }
    destruct Q as (K & F1 & F2 & F3). split; [exact K|]. split; [exact F2|]. split; [exact F3|]. rewrite F1. apply N.le_refl.
  - unfold sync_timer. destruct (time_out _ _ _ _ _ _) as [[s1 x1] b] eqn:D.
    destruct (time_out_why _ _ _ Fe _ _ _ _ _ D (timed_out_nodup cf _ _ Fe) (timed_out_some _ _ Fe)) as (K & (F1 & F2 & F3) & B & _). destruct b.
    + destruct (do_sync _ _ _ _ _) as [[[s2 x2] b2]|] eqn:E; [cbn [mbind_M]|done]. intros [= <- <- <-].
      destruct (do_sync_why _ _ _ _ _ _ E) as (K2 & (G1 & G2 & G3) & _). split; [by apply (keeps_trans _ _ s1)|]. unfold updated_step. cbn [fst].
      split; [congruence|]. split; [|rewrite G1, F1; apply N.le_refl]. unfold idled_step, idles. cbn [fst]. fold (no_drop (x1 ++ x2)). rewrite no_drop_app, B. cbn. congruence.
    + destruct (idle _ _ _ _ _) as [[s2 x2]|] eqn:E; [cbn [mbind_M]|done]. intros [= <- <- <-].
      destruct (idle_why _ _ _ _ _ E) as (K2 & G2 & G3 & G1 & _). split; [by apply (keeps_trans _ _ s1)|]. unfold updated_step. cbn [fst].
      split; [congruence|]. split; [|rewrite <- F1; lia]. unfold idled_step, idles. cbn [fst snd]. fold (no_drop (x1 ++ x2)). rewrite no_drop_app, B, (idle_no_drop _ _ _ _ _ E).
      cbn [negb andb]. rewrite G3, F3. done.
  - destruct (sync_import _ _ _ _ _) as [[[c1 x1] r]|] eqn:E; [cbn [mbind_M]|done]. intros [= <- <- <-].
    split; [|split; [done|]; split; [done|apply N.le_refl]]. intros a. rewrite heard_quiet by done. destruct (import_imported _ _ _ _ _ _ _ E) as (_ & -> & _). by rewrite remember_nil.
Qed.
Lemma run_view os : forall s c s' c' xs, fair_envs os -> sync_run H cf os (s, c) = Val (s', c', xs) ->
  (forall a, seen a os xs (pv s a) = pv s' a) /\ updated os xs (sy_update s) = sy_update s' /\ idled os xs (sy_idle s) = sy_idle s' /\
  default 0 (sy_sample s) <= default 0 (sy_sample s').
Proof.
  induction os as [|oe os IH]; intros s c s' c' xs F; cbn [sync_run].
  { intros [= <- <- <-]. split; [done|]. split; [done|]. split; [done|apply N.le_refl]. }
  inversion_clear F as [|?? Fo Fs]. destruct (sync_step H cf oe (s, c)) as [[[s1 c1] x]|] eqn:E; [cbn [mbind_M]|done].
  destruct (sync_run H cf os (s1, c1)) as [[[s2 c2] xs2]|] eqn:R; [cbn [mbind_M]|done]. intros [= <- <- <-].
  destruct (step_view _ _ _ _ _ _ Fo E) as (A & B & C & D). destruct (IH _ _ _ _ _ Fs R) as (A2 & B2 & C2 & D2). cbn [seen updated idled].
  split; [intros a; by rewrite <- A, A2|]. split; [by rewrite <- B|]. split; [by rewrite <- C|]. lia.
Qed.
Lemma run_last os : forall s c s' c' xs (P : N -> list locators), fair_envs os -> sync_run H cf os (s, c) = Val (s', c', xs) ->
  (forall b r, sy_inflight s !! b = Some r -> last (P b) = Some (gr_locators r)) ->
  forall b r, sy_inflight s' !! b = Some r -> last (P b ++ asks b (concat xs)) = Some (gr_locators r).
Proof.
  induction os as [|oe os IH]; intros s c s' c' xs P F; cbn [sync_run].
  { intros [= <- <- <-] A b r E. cbn. rewrite app_nil_r. by apply A. }
  inversion_clear F as [|?? Fo Fs]. destruct (sync_step H cf oe (s, c)) as [[[s1 c1] x]|] eqn:E; [cbn [mbind_M]|done].
  destruct (sync_run H cf os (s1, c1)) as [[[s2 c2] xs2]|] eqn:R; [cbn [mbind_M]|done]. intros [= <- <- <-] A b r I. cbn [concat]. rewrite asks_app, app_assoc.
  refine (IH _ _ _ _ _ (fun b => P b ++ asks b x) Fs R _ b r I). intros d q Q.
  pose proof (step_evolves H cf oe s c s1 c1 x d Fo E) as [[Z Ev]|(l & t & Z & _ & Ev)]; rewrite Z; rewrite Ev in Q.
  - rewrite app_nil_r. apply A. unfold cut in Q. destruct oe.1; try done; try (by destruct (_ =? _)). destruct (sy_inflight s !! d); [|done]. by destruct (_ <=? _).
  - injection Q as <-. by rewrite last_app.
Qed.

(** ** Reasons *)
Section Reason.
Context (os : list (sync_op * senv)) (c0 : cache) (s : sync) (c : cache) (xs : list (list sout)) (oe : sync_op * senv) (s' : sync) (c' : cache) (x : list sout).
Hypotheses (Fs : fair_envs os) (Fe : fair_env oe.2) (R : sync_run H cf os (sync_init, c0) = Val (s, c, xs)) (E : sync_step H cf oe (s, c) = Val (s', c', x)).
Notation pview_of := (peer_view os xs oe x).
Lemma view_now a : pview_of a = heard a oe x (pv s a).
Proof. unfold peer_view. destruct (run_view _ _ _ _ _ _ Fs R) as (A & _). rewrite <- A. done. Qed.
Lemma outstanding_now b : outstanding (sc_timeout cf) b os xs None = gr_sent <$> sy_inflight s !! b.
Proof. pose proof (run_outstanding H cf _ _ _ _ _ _ b Fs R) as V. by change (gr_sent <$> sy_inflight sync_init !! b) with (@None N) in V. Qed.
Lemma updated_now : updated os xs None = sy_update s.
Proof. by destruct (run_view _ _ _ _ _ _ Fs R) as (_ & A & _). Qed.
Lemma idled_now : idled os xs None = sy_idle s.
Proof. by destruct (run_view _ _ _ _ _ _ Fs R) as (_ & _ & A & _). Qed.
Lemma last_now b r : sy_inflight s !! b = Some r -> last (asks b (concat xs)) = Some (gr_locators r).
Proof. intros I. refine (run_last _ _ _ _ _ _ (fun _ => []) Fs R _ b r I). intros d q Q. cbn in Q. change (sy_inflight sync_init) with (∅ : gmap N greq) in Q. by rewrite lookup_empty in Q. Qed.
Lemma remember_some ls v q : remember ls v = Some q -> exists p, v = Some p /\ pv_height p = pv_height q /\ pv_filters p = pv_filters q /\ pv_outbound p = pv_outbound q.
Proof. unfold remember. destruct v as [p|]; [|done]. destruct (last ls); intros [= <-]; by exists p. Qed.

Lemma ahead_reason s1 s2 x0 x1 x2 b1 a l : do_sync H cf oe.2 c' s1 = Val (s2, x1, b1) -> x = x0 ++ x1 ++ x2 ->
  (forall b, pv s1 b = remember (asks b x0) (pview_of b)) ->
  (forall b, ended (sc_timeout cf) b oe (gr_sent <$> sy_inflight s !! b) = None -> asks b x = [] -> sy_inflight s1 !! b = None) ->
  match oe.1 with SInitialize | STimer | SNegotiated _ _ _ _ _ => True | SHeaders _ hds => is_Some (imported x) /\ lenN hds < 2000 | _ => False end ->
  SoGetHeaders a l ∈ x1 -> reason H cf os xs oe c c' x a l.
Proof.
  intros D Ex V If Oc I. destruct (do_sync_why _ _ _ _ _ _ D) as (_ & _ & W). destruct (W a l I) as (lc & p & b & q & -> & Lc & P & Pf & Q & Hq & Best).
  pose proof (V a) as Va. pose proof (V b) as Vb. unfold pv in Va at 1. unfold pv in Vb at 1. rewrite P in Va. rewrite Q in Vb. cbn in Va, Vb. symmetry in Va, Vb.
  destruct (remember_some _ _ _ Va) as (pa & Pa & Pa1 & Pa2 & Pa3). destruct (remember_some _ _ _ Vb) as (qb & Qb & Qb1 & Qb2 & Qb3). cbn in Pa1, Pa2, Pa3, Qb1, Qb2, Qb3.
  eapply WhyAhead; [exact Lc| |exact Pa| |exact Oc|].
  - exists qb. split; [exact Qb|]. lia.
  - rewrite Pa2, Pf. done.
  - intros d r Ed Ad Vd Od Fd Hd Nd. exists pa. split; [exact Pa|]. rewrite Pa1.
    assert (asks d x0 = []) as Z by (rewrite Ex, asks_app in Ad; by apply app_eq_nil in Ad as [? _]).
    pose proof (V d) as Vd'. rewrite Z, remember_nil, Vd in Vd'. unfold pv in Vd'. destruct (sy_peers s1 !! d) as [rd|] eqn:Rd; [|done]. cbn in Vd'. injection Vd' as Vd'. subst r. cbn in Od, Fd, Hd, Nd.
    apply (Best Fe d rd); [done| |done|].
    + by destruct (sp_preferred rd).
    + apply candidate_spec. exists rd. split; [done|]. split; [|done]. apply If; [|done]. by rewrite <- outstanding_now.
Qed.

End Reason.
Lemma step_reason os c0 s c xs oe s' c' x a l : fair_envs os -> fair_env oe.2 -> sync_run H cf os (sync_init, c0) = Val (s, c, xs) ->
  sync_step H cf oe (s, c) = Val (s', c', x) -> SoGetHeaders a l ∈ x -> reason H cf os xs oe c c' x a l.
Proof.
  intros Fs Fe R E I. pose proof (fun x => view_now os c0 s c xs oe x Fs R) as Vn. pose proof (outstanding_now os c0 s c xs Fs R) as outstanding_now.
  pose proof (updated_now os c0 s c xs Fs R) as updated_now. pose proof (last_now os c0 s c xs Fs R) as last_now.
  pose proof (fun c' x => ahead_reason os c0 s c xs oe c' x Fs Fe R) as ahead_reason. pose proof E as E0. destruct oe as [o e]. cbn [fst snd] in *. unfold sync_step in E0.
  assert (Idle : forall s1 s2 x1 x2, idle H cf e c s1 = Val (s2, x2) -> c' = c -> x = x1 ++ x2 -> idles (o, e) x = true -> match o with SInitialize | STimer => True | _ => False end ->
    (forall b, pv s1 b = remember (asks b x1) (peer_view os xs (o, e) x b)) -> sy_update s1 = sy_update s ->
    (forall b, asks b x1 <> [] -> sy_inflight s1 !! b <> None) ->
    (forall b, ended (sc_timeout cf) b (o, e) (gr_sent <$> sy_inflight s !! b) = None -> asks b x = [] -> sy_inflight s1 !! b = None) ->
    SoGetHeaders a l ∈ x2 -> reason H cf os xs (o, e) c c' x a l).
  { intros s1 s2 x1 x2 D -> Ex Id Oc V U Bu If J. destruct (idle_why _ _ _ _ _ D) as (_ & _ & _ & _ & s3 & x3 & x4 & -> & K & U3 & Ev & Ds & W).
    apply elem_of_app in J as [J|J].
    - destruct Ds as [[_ ->]|[b Ds]]; [by apply elem_of_nil in J|]. eapply (ahead_reason _ _ s1 s3 x1 x3 x4 b); [exact Ds|exact Ex|exact V|exact If|by destruct o|exact J].
    - destruct (W a l J) as (lc & -> & Lc & St & Ca & _ & _). apply candidate_pv in Ca as (Ic & v & V1 & V2 & V3).
      assert (asks a x3 = []) as Z3. { destruct (Ev a) as [[Z _]|(l0 & t0 & _ & _ & Z)]; [done|]. by rewrite Z in Ic. }
      assert (asks a x1 = []) as Z1.
      { destruct (decide (asks a x1 = [])) as [Z|Z]; [done|]. exfalso. apply (Bu a Z). destruct (Ev a) as [[_ Q]|(l0 & t0 & _ & Q & _)]; [by rewrite <- Q|done]. }
      rewrite K, Z3, remember_nil, V, Z1, remember_nil in V1.
      eapply WhyOld; [exact Id| |exact Lc|exact V1|exact V2|exact V3]. unfold tip_is_old. rewrite updated_now, <- U. exact St. }
  destruct o.
  - destruct (idle H cf e c s) as [[s1 x1]|] eqn:D; [cbn [mbind_M] in E0|done]. injection E0 as <- <- <-.
    eapply (Idle s _ [] x1); [exact D|done|done|done|done| |done| | |exact I].
    + intros b. rewrite Vn. cbn. by rewrite remember_nil.
    + done.
    + intros b Eb _. cbn in Eb. destruct (sy_inflight s !! b); [done|done].
  - unfold sync_negotiated in E0. destruct (outbound && negb network) eqn:Rj; [injection E0 as <- <- <-; by apply elem_of_nil in I|].
    destruct (do_sync _ _ _ _ _) as [[[s2 x2] b]|] eqn:D; [cbn [mbind_M] in E0|done]. injection E0 as <- <- <-.
    set (x0 := if default (c_height c) (best_height s) <? height then _ else _) in *.
    assert (Na : no_asks x0) by (unfold x0; by destruct (_ <? _)).
    assert (SoGetHeaders a l ∈ x2) as J. { apply elem_of_app in I as [I|I]; [|done]. apply asks_in in I. rewrite Na in I. by apply elem_of_nil in I. }
    eapply (ahead_reason _ _ _ s2 x0 x2 [] b); [exact D|by rewrite app_nil_r| | |done|exact J].
    + intros d. rewrite Na, remember_nil, Vn. unfold pv at 1, heard. cbn [with_peers sy_peers fst].
      assert (negb outbound || network = true) as -> by (destruct outbound, network; done). rewrite andb_true_r.
      destruct (N.eqb_spec addr d) as [<-|NE]; [rewrite lookup_insert; cbn; unfold pabs; cbn; by rewrite negb_involutive|by rewrite lookup_insert_ne].
    + intros d Ed _. cbn in Ed. cbn. by destruct (sy_inflight s !! d).
  - injection E0 as <- <- <-. by apply elem_of_nil in I.
  - unfold received_headers in E0. set (s0 := with_inflight s _) in E0.
    destruct hds as [|hd rest]; [injection E0 as <- <- <-; by apply elem_of_nil in I|].
    destruct (N.ltb_spec MAX_MESSAGE_HEADERS (lenN (hd :: rest))) as [|Le]; [injection E0 as <- <- <-; by apply elem_of_list_singleton in I|].
    destruct (_ && _); [injection E0 as <- <- <-; by apply elem_of_nil in I|]. destruct (sy_peers s0 !! from) as [p|] eqn:P; [|injection E0 as <- <- <-; by apply elem_of_nil in I].
    destruct (process_why _ _ _ _ _ _ _ _ _ E0) as (_ & _ & x0 & x1 & s1 & Ex & Na & Ei & I1 & V & K & W & _).
    assert (SoGetHeaders a l ∈ x1) as J. { rewrite Ex in I. apply elem_of_app in I as [I|I]; [|done]. apply asks_in in I. rewrite Na in I. by apply elem_of_nil in I. }
    destruct W as [(b & Hi & Lt & D)|W].
    + eapply (ahead_reason _ _ s1 s' x0 x1 [] b); [exact D|by rewrite app_nil_r| | |by split|exact J].
      * intros d. rewrite V, Na, remember_nil, Vn. rewrite touch_pv by done. done.
      * intros d Ed _. rewrite I1. cbn in Ed. cbn. destruct (N.eqb_spec from d) as [->|NE]; [by rewrite lookup_delete|]. rewrite lookup_delete_ne by done. by destruct (sy_inflight s !! d).
    + destruct (W a l J) as (-> & [(lc & -> & Ib & Lc)|(b & k & h & rv & cn & -> & Ge & Im)]).
      * eapply WhyUnconnected; [done|exact Ib|exact Lc].
      * eapply WhyMore; [done| |exact Im]. unfold MAX_MESSAGE_HEADERS in Le. lia.
  - destruct (received_getheaders _ _ _ _ _) as [x1|] eqn:D; [cbn [mbind_M] in E0|done]. injection E0 as <- <- <-. exfalso.
    unfold received_getheaders in D. destruct (_ || _); [injection D as <-; by apply elem_of_nil in I|].
    destruct (locate_headers _ _ _ _) as [hds|]; [|done]. cbn in D. injection D as <-. destruct hds; [by apply elem_of_nil in I|by apply elem_of_list_singleton in I].
  - destruct (inv_answer H cf os c0 s c xs from inv e s' c' x Fs R E) as (A & B & _).
    apply asks_in in I. destruct (decide (a = from)) as [->|NE]; [|rewrite A in I by done; by apply elem_of_nil in I].
    destruct (B ltac:(intros Z; rewrite Z in I; by apply elem_of_nil in I)) as (l1 & stop & Eq & B1 & B2 & B3). rewrite Eq in I. apply elem_of_list_singleton in I as ->.
    assert (c' = c) as -> by (eapply (other_events H cf); [|exact E]; done).
    by eapply WhyAnnounced.
  - unfold sync_timer in E0. destruct (time_out _ _ _ _ _ _) as [[s1 x1] b] eqn:D.
    destruct (time_out_why _ _ _ Fe _ _ _ _ _ D (timed_out_nodup cf _ _ Fe) (timed_out_some _ _ Fe)) as (K & (F1 & F2 & F3) & B & W).
    assert (Ev : forall d, evolves (se_now e) d (if bool_decide (d ∈ timed_out cf e s) then None else sy_inflight s !! d) x1 (sy_inflight s1 !! d)).
    { intros d. refine (time_out_evolves cf _ _ _ _ _ _ _ _ d D (timed_out_nodup cf _ _ Fe) (timed_out_some _ _ Fe)). }
    assert (Retry : SoGetHeaders a l ∈ x1 -> reason H cf os xs (STimer, e) c c' x a l).
    { intros J. destruct (W a l J) as (d & r & v & D1 & D2 & D3 & D4 & D5 & D6 & D7). apply (timed_out_spec cf) in D1 as (r' & D1 & D8); [|done].
      assert (r' = r) as -> by congruence. eapply (WhyRetry _ _ _ _ _ _ _ _ _ d (gr_sent r)); [done|done| |exact D8| | |exact D6|].
      - rewrite outstanding_now, D1. done.
      - rewrite <- D4. by apply last_now.
      - rewrite Vn. cbn. exact D5.
      - exact D7. }
    assert (V1 : forall d, pv s1 d = remember (asks d x1) (peer_view os xs (STimer, e) x d)) by (intros d; rewrite K, Vn; reflexivity).
    assert (If : forall d, ended (sc_timeout cf) d (STimer, e) (gr_sent <$> sy_inflight s !! d) = None -> asks d x1 = [] -> sy_inflight s1 !! d = None).
    { intros d Ed Ad. destruct (Ev d) as [[_ Q]|(l0 & t0 & Q & _)]; [|by rewrite Q in Ad]. rewrite Q. cbn in Ed.
      destruct (sy_inflight s !! d) as [r|] eqn:Id; cbn in Ed; [|by destruct (bool_decide _)].
      rewrite bool_decide_true; [done|]. apply (timed_out_spec cf); [done|]. exists r. split; [done|]. destruct (N.leb_spec (sc_timeout cf) (se_now e - gr_sent r)); [done|done]. }
    destruct b.
    + destruct (do_sync _ _ _ _ _) as [[[s2 x2] b2]|] eqn:D2; [cbn [mbind_M] in E0|done]. injection E0 as <- <- <-.
      apply elem_of_app in I as [I|I]; [by apply Retry|]. eapply (ahead_reason _ _ s1 s2 x1 x2 [] b2); [exact D2|by rewrite app_nil_r|exact V1| |done|exact I].
      intros d Ed Ad. apply If; [done|]. rewrite asks_app in Ad. by apply app_eq_nil in Ad as [? _].
    + destruct (idle _ _ _ _ _) as [[s2 x2]|] eqn:D2; [cbn [mbind_M] in E0|done]. injection E0 as <- <- <-.
      apply elem_of_app in I as [I|I]; [by apply Retry|]. eapply (Idle s1 s2 x1 x2); [exact D2|done|done| |done|exact V1|exact F2| | |exact I].
      * unfold idles. cbn [fst]. fold (no_drop (x1 ++ x2)). by rewrite no_drop_app, B, (idle_no_drop _ _ _ _ _ D2).
      * intros d Ad. destruct (Ev d) as [[Q _]|(l0 & t0 & _ & _ & Q)]; [done|]. by rewrite Q.
      * intros d Ed Ad. apply If; [done|]. rewrite asks_app in Ad. by apply app_eq_nil in Ad as [? _].
  - destruct (sync_import _ _ _ _ _) as [[[c1 x1] r]|] eqn:Im; [cbn [mbind_M] in E0|done]. injection E0 as <- <- <-.
    destruct (import_imported _ _ _ _ _ _ _ Im) as (_ & Na & _). apply asks_in in I. rewrite Na in I. by apply elem_of_nil in I.
Qed.

(** ** When headers are asked for *)
Lemma must_view a os xs oe x s1 q : (forall b, pv s1 b = peer_view os xs oe x b) -> peer_view os xs oe x a = Some q ->
  exists p, sy_peers s1 !! a = Some p /\ q = pabs p.
Proof. intros V E. rewrite <- V in E. unfold pv in E. destruct (sy_peers s1 !! a) as [p|]; [|done]. injection E as <-. by exists p. Qed.
Lemma idle_must e c s s' x a p d q : fair_env e -> idle H cf e c s = Val (s', x) -> 600000 <= se_now e - default 0 (sy_idle s) -> (forall b, sy_inflight s !! b = None) ->
  sy_peers s !! a = Some p -> sp_preferred p = true -> sy_peers s !! d = Some q -> c_height c < sp_height q ->
  exists a' l, asks a' x = [(l, 0)].
Proof.
  intros Fe E L I P Pf Q Hh. unfold idle, IDLE_TIMEOUT in E. destruct (N.leb_spec 600000 (se_now e - default 0 (sy_idle s))); [|lia].
  destruct (do_sync H cf e c s) as [[[s1 x1] b]|] eqn:D; [cbn [mbind_M] in E|done]. destruct (do_sync_must _ _ _ _ _ _ _ _ _ _ Fe D I P Pf Q Hh) as (-> & a' & l & A).
  cbn [mbind_M] in E. injection E as <- <-. exists a', l. cbn [app]. by rewrite asks_app, A.
Qed.
Lemma step_started os c0 s c xs oe s' c' x : fair_envs os -> fair_env oe.2 -> sync_run H cf os (sync_init, c0) = Val (s, c, xs) ->
  sync_step H cf oe (s, c) = Val (s', c', x) -> occasion os xs oe x -> (forall b, outstanding (sc_timeout cf) b os xs None = None) ->
  (exists b p, peer_view os xs oe x b = Some p /\ pv_filters p = false) -> (exists b, is_ahead os xs oe c' x b) ->
  exists a l, asks a x = [(l, 0)].
Proof.
  intros Fs Fe R E Oc No (a & p & Va & Fa) (b & q & Vb & Hb). pose proof (fun x => view_now os c0 s c xs oe x Fs R) as Vn.
  assert (Ni : forall d, sy_inflight s !! d = None) by (intros d; specialize (No d); rewrite (outstanding_now os c0 s c xs Fs R) in No; by destruct (sy_inflight s !! d)).
  pose proof (idled_now os c0 s c xs Fs R) as Id. unfold occasion in Oc. rewrite Id in Oc. clear Id No.
  destruct oe as [o e]. cbn [fst snd] in *. unfold sync_step in E. destruct o; try done.
  - destruct (idle H cf e c s) as [[s1 x1]|] eqn:D; [cbn [mbind_M] in E|done]. injection E as <- <- <-.
    assert (V : forall d, pv s d = peer_view os xs (SInitialize, e) x1 d) by (intros d; by rewrite Vn).
    destruct (must_view _ _ _ _ _ _ _ V Va) as (p1 & P1 & ->). destruct (must_view _ _ _ _ _ _ _ V Vb) as (q1 & Q1 & ->). cbn in Fa, Hb.
    exact (idle_must _ _ _ _ _ _ _ _ _ Fe D Oc Ni P1 ltac:(by destruct (sp_preferred p1)) Q1 Hb).
  - unfold sync_negotiated in E. destruct (outbound && negb network) eqn:Rj; [by destruct outbound, network|].
    destruct (do_sync _ _ _ _ _) as [[[s2 x2] b2]|] eqn:D; [cbn [mbind_M] in E|done]. injection E as <- <- <-.
    set (x0 := if default (c_height c) (best_height s) <? height then _ else _) in *.
    assert (Na : no_asks x0) by (unfold x0; by destruct (_ <? _)). clearbody x0.
    match type of D with do_sync _ _ _ _ ?z = _ => set (s1 := z) in D end.
    assert (V : forall d, pv s1 d = peer_view os xs (SNegotiated addr height network filters outbound, e) (x0 ++ x2) d).
    { intros d. rewrite Vn. unfold pv at 1, heard, s1. cbn [with_peers sy_peers fst]. rewrite Oc, andb_true_r.
      destruct (N.eqb_spec addr d) as [<-|NE]; [rewrite lookup_insert; cbn; unfold pabs; cbn; by rewrite negb_involutive|by rewrite lookup_insert_ne]. }
    destruct (must_view _ _ _ _ _ _ _ V Va) as (p1 & P1 & ->). destruct (must_view _ _ _ _ _ _ _ V Vb) as (q1 & Q1 & ->). cbn [pabs pv_filters pv_height] in Fa, Hb.
    destruct (do_sync_must _ _ _ _ _ _ _ _ _ _ Fe D Ni P1 ltac:(by destruct (sp_preferred p1)) Q1 Hb) as (_ & a' & l & A).
    exists a', l. by rewrite asks_app, Na, A.
  - destruct Oc as [Im Lt]. unfold received_headers in E. set (s0 := with_inflight s _) in E.
    destruct hds as [|hd rest]; [injection E as <- <- <-; by destruct Im|].
    destruct (_ <? _); [injection E as <- <- <-; by destruct Im|].
    destruct (_ && _); [injection E as <- <- <-; by destruct Im|]. destruct (sy_peers s0 !! from) as [p0|] eqn:P0; [|injection E as <- <- <-; by destruct Im].
    destruct (process_why _ _ _ _ _ _ _ _ _ E) as (_ & _ & x0 & x1 & s1 & Ex & Na & Ei & I1 & V1 & K & _ & W). destruct (W Lt Im) as [b2 D].
    assert (V : forall d, pv s1 d = peer_view os xs (SHeaders from (hd :: rest), e) x d) by (intros d; rewrite V1, Vn, touch_pv by done; done).
    destruct (must_view _ _ _ _ _ _ _ V Va) as (p1 & P1 & ->). destruct (must_view _ _ _ _ _ _ _ V Vb) as (q1 & Q1 & ->). cbn [pabs pv_filters pv_height] in Fa, Hb.
    assert (Ni1 : forall d, sy_inflight s1 !! d = None).
    { intros d. rewrite I1. cbn. destruct (decide (from = d)) as [->|NE]; [by rewrite lookup_delete|by rewrite lookup_delete_ne]. }
    destruct (do_sync_must _ _ _ _ _ _ _ _ _ _ Fe D Ni1 P1 ltac:(by destruct (sp_preferred p1)) Q1 Hb) as (_ & a' & l & A).
    exists a', l. by rewrite Ex, asks_app, Na, A.
  - unfold sync_timer in E.
    assert (timed_out cf e s = []) as Z.
    { destruct (timed_out cf e s) as [|d ps] eqn:T; [done|]. destruct (timed_out_some e s Fe d) as [r Hr]; [rewrite T; by left|]. by rewrite Ni in Hr. }
    rewrite Z in E. cbn [time_out] in E. destruct (idle H cf e c s) as [[s1 x1]|] eqn:D; [cbn [mbind_M] in E|done]. injection E as <- <- <-. cbn [app] in *.
    assert (V : forall d, pv s d = peer_view os xs (STimer, e) x1 d) by (intros d; by rewrite Vn).
    destruct (must_view _ _ _ _ _ _ _ V Va) as (p1 & P1 & ->). destruct (must_view _ _ _ _ _ _ _ V Vb) as (q1 & Q1 & ->). cbn in Fa, Hb.
    exact (idle_must _ _ _ _ _ _ _ _ _ Fe D Oc Ni P1 ltac:(by destruct (sp_preferred p1)) Q1 Hb).
Qed.

(** ** Sampling is rare *)
Lemma sampling_time os c0 s c xs oe s' c' x : fair_envs os -> fair_env oe.2 -> sync_run H cf os (sync_init, c0) = Val (s, c, xs) ->
  sync_step H cf oe (s, c) = Val (s', c', x) -> sampling cf os xs oe c' x ->
  default 0 (sy_sample s) + 3600000 <= se_now oe.2 /\ sy_sample s' = Some (se_now oe.2).
Proof.
  intros Fs Fe R E (Id & (a & l & I) & Na & Ne). pose proof (fun x => view_now os c0 s c xs oe x Fs R) as Vn.
  pose proof (outstanding_now os c0 s c xs Fs R) as On.
  destruct oe as [o e]. cbn [fst snd] in *. unfold sync_step in E.
  assert (G : forall s1 x1, idle H cf e c s = Val (s1, x1) -> SoGetHeaders a (l, 0) ∈ x1 -> (forall b p, sy_peers s !! b = Some p -> sp_height p <= c_height c) ->
    default 0 (sy_sample s) + 3600000 <= se_now e /\ sy_sample s1 = Some (se_now e)).
  { intros s1 x1 D J Lo. destruct (idle_why _ _ _ _ _ D) as (_ & _ & _ & _ & s3 & x3 & x4 & -> & K & U3 & Ev & Ds & W).
    apply elem_of_app in J as [J|J]; [|by destruct (W a _ J) as (lc & _ & _ & _ & _ & W1 & W2)].
    destruct Ds as [[_ ->]|[b Ds]]; [by apply elem_of_nil in J|]. destruct (do_sync_why _ _ _ _ _ _ Ds) as (_ & _ & W0).
    destruct (W0 _ _ J) as (lc & p & b' & q & _ & _ & _ & _ & Q & Hq & _). specialize (Lo _ _ Q). lia. }
  assert (Lo : c' = c -> (forall d, peer_view os xs (o, e) x d = pv s d) -> forall b p, sy_peers s !! b = Some p -> sp_height p <= c_height c).
  { intros -> V b p P. destruct (N.le_gt_cases (sp_height p) (c_height c)) as [|Gt]; [done|]. exfalso. apply (Na b). exists (pabs p). split; [|exact Gt]. rewrite V. unfold pv. by rewrite P. }
  destruct o; try done.
  - destruct (idle H cf e c s) as [[s1 x1]|] eqn:D; [cbn [mbind_M] in E|done]. injection E as <- <- <-. apply (G _ _ eq_refl I). apply Lo; [done|]. intros d. by rewrite Vn.
  - unfold sync_timer in E.
    assert (timed_out cf e s = []) as Z.
    { destruct (timed_out cf e s) as [|d ps] eqn:T; [done|]. assert (d ∈ timed_out cf e s) as Hd by (rewrite T; by left).
      apply (timed_out_spec cf) in Hd as (r & Hr & Le); [|done]. specialize (Ne d (gr_sent r)). rewrite On, Hr in Ne. specialize (Ne eq_refl). lia. }
    rewrite Z in E. cbn [time_out] in E. destruct (idle H cf e c s) as [[s1 x1]|] eqn:D; [cbn [mbind_M] in E|done]. injection E as <- <- <-. cbn [app] in *.
    apply (G _ _ eq_refl I). apply Lo; [done|]. intros d. by rewrite Vn.
Qed.
Lemma sync_run_cut os1 os2 : forall sc, sync_run H cf (os1 ++ os2) sc =
  ('(sc1, xs1) <-- sync_run H cf os1 sc ;; '(sc2, xs2) <-- sync_run H cf os2 sc1 ;; Val (sc2, xs1 ++ xs2)).
Proof.
  induction os1 as [|o os1 IH]; intros sc; cbn [app sync_run mbind_M].
  - destruct (sync_run H cf os2 sc) as [[sc2 xs2]|]; done.
  - destruct (sync_step H cf o sc) as [[[s1 c1] x]|]; [cbn [mbind_M]|done]. rewrite IH. destruct (sync_run H cf os1 (s1, c1)) as [[sc1 xs1]|]; [cbn [mbind_M]|done].
    by destruct (sync_run H cf os2 sc1) as [[sc2 xs2]|].
Qed.
Lemma sampling_hourly os1 c0 s1 c1 xs1 oe1 s2 c2 x1 os2 s3 c3 xs2 oe2 s4 c4 x2 : fair_envs (os1 ++ oe1 :: os2) -> fair_env oe2.2 ->
  sync_run H cf os1 (sync_init, c0) = Val (s1, c1, xs1) -> sync_step H cf oe1 (s1, c1) = Val (s2, c2, x1) ->
  sync_run H cf os2 (s2, c2) = Val (s3, c3, xs2) -> sync_step H cf oe2 (s3, c3) = Val (s4, c4, x2) ->
  sampling cf os1 xs1 oe1 c2 x1 -> sampling cf (os1 ++ oe1 :: os2) (xs1 ++ x1 :: xs2) oe2 c4 x2 ->
  se_now oe1.2 + 3600000 <= se_now oe2.2.
Proof.
  intros F Fe R1 E1 R2 E2 S1 S2. pose proof F as F'. apply Forall_app in F' as [F1 F2]. apply Forall_cons in F2 as [Fo F2].
  destruct (sampling_time _ _ _ _ _ _ _ _ _ F1 Fo R1 E1 S1) as [_ A].
  assert (R : sync_run H cf (os1 ++ oe1 :: os2) (sync_init, c0) = Val (s3, c3, xs1 ++ x1 :: xs2)).
  { rewrite sync_run_cut, R1. cbn [mbind_M sync_run]. rewrite E1. cbn [mbind_M]. rewrite R2. done. }
  destruct (sampling_time _ _ _ _ _ _ _ _ _ F Fe R E2 S2) as [B _]. destruct (run_view _ _ _ _ _ _ F2 R2) as (_ & _ & _ & C). rewrite A in C. cbn in C. lia.
Qed.

(** ** Heights that peers have shown *)
Lemma synced_seen os c0 s c xs oe s' c' x k h a p : fair_envs os -> fair_env oe.2 -> sync_run H cf os (sync_init, c0) = Val (s, c, xs) ->
  sync_step H cf oe (s, c) = Val (s', c', x) -> SoSynced k h ∈ x -> peer_view os xs oe x a = Some p -> pv_height p <= h.
Proof.
  intros Fs Fe R E I V. destruct (step_told H cf _ _ _ _ _ _ E) as (T & _). destruct (T k h I) as (_ & _ & K & _).
  destruct (step_view _ _ _ _ _ _ Fe E) as (A & _). specialize (A a). rewrite (view_now os c0 s c xs oe x Fs R) in V. rewrite V in A. unfold pv in A.
  destruct (sy_peers s' !! a) as [q|] eqn:Q; [|cbn in A; by destruct (last _)]. specialize (K a q Q). 
  assert (sp_height q = pv_height p) as <-; [|exact K]. apply (f_equal (fun v => match v with Some w => pv_height w | None => 0 end)) in A. cbn in A.
  rewrite A. by destruct (last (asks a x)).
Qed.
Lemma seen_peer os c0 s c xs a : fair_envs os -> sync_run H cf os (sync_init, c0) = Val (s, c, xs) -> seen a os xs None = pabs <$> sy_peers s !! a.
Proof. intros F R. destruct (run_view _ _ _ _ _ _ F R) as (A & _). exact (A a). Qed.
End Ask.
