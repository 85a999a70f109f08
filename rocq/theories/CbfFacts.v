(** Further facts about the compact filter manager. *)
From Coq Require Import Sorting.Sorted.
From Verif Require Import Base UtilModel UtilSpec UtilProofs CbfModel CbfSpec CbfProofs CbfStep CbfMain CbfScan.
Open Scope N_scope.

(** ** Consecutive heights *)
Lemma heights_from_S a n : heights_from a (Datatypes.S n) = a :: heights_from (a + 1) n.
Proof.
  unfold heights_from. cbn [seq fmap list_fmap]. rewrite N.add_0_r. f_equal. rewrite <- seq_shift, <- list_fmap_compose.
  apply list_fmap_ext. intros i x _. cbn. lia.
Qed.
Lemma scan_consecutive x : forall sc sc', scan_outs sc x = Some sc' -> (forall a b, CoRescanStarted a b ∉ x) ->
  exists n, processed_heights x = heights_from (sc_next sc) n /\ sc_next sc' = sc_next sc + N.of_nat n /\
    forall x1 h x2, x = x1 ++ CoRescanStopped h :: x2 -> exists m, processed_heights x1 = heights_from (sc_next sc) m /\ h = sc_next sc + N.of_nat m.
Proof.
  induction x as [|o x IH]; intros sc sc' E NS.
  { injection E as <-. exists 0%nat. split; [done|]. split; [cbn; lia|]. intros [] h x2 [=]. }
  cbn in E. destruct (scan_out sc o) as [sc1|] eqn:Eo; [|done].
  destruct (IH sc1 sc' E) as (n & H1 & H2 & H3). { intros a b I. apply (NS a b). by right. }
  assert (C : (exists blk v m c, o = CoFilterProcessed blk (sc_next sc) v m c /\ sc_next sc1 = sc_next sc + 1) \/
              (sc_next sc1 = sc_next sc /\ omap (fun o => match o with CoFilterProcessed _ h _ _ _ => Some h | _ => None end) [o] = [] /\
               forall h, o = CoRescanStopped h -> h = sc_next sc)).
  { destruct o; cbn in Eo; try (injection Eo as <-; by right).
    - destruct (N.eqb_spec height (sc_next sc)) as [->|]; [|done]. injection Eo as <-. left. by eexists _, _, _, _.
    - exfalso. eapply NS. left.
    - destruct (N.eqb_spec height (sc_next sc)) as [->|]; [|done]. injection Eo as <-. right. split; [done|]. split; [done|]. by intros h [= <-]. }
  destruct C as [(blk & v & m & c & -> & C)|(C1 & C2 & C3)].
  - exists (Datatypes.S n). rewrite heights_from_S. split; [cbn; by rewrite <- C, <- H1|]. split; [lia|].
    intros [|o x1] h x2 X; [done|]. injection X as <- X. destruct (H3 _ _ _ X) as (k & K1 & K2).
    exists (Datatypes.S k). rewrite heights_from_S. split; [cbn; by rewrite <- C, <- K1|]. lia.
  - exists n. rewrite <- C1. split; [|split; [done|]].
    + change (o :: x) with ([o] ++ x). unfold processed_heights. rewrite omap_app, C2. exact H1.
    + intros [|o' x1] h x2 X; [injection X as -> _; exists 0%nat; split; [done|]; rewrite (C3 h eq_refl), C1; cbn; lia|].
      injection X as <- X. destruct (H3 _ _ _ X) as (k & K1 & K2). exists k. split; [|done].
      change (o :: x1) with ([o] ++ x1). unfold processed_heights. rewrite omap_app, C2. exact K1.
Qed.

Lemma quiet_no_start x a b : Forall quiet_out x -> CoRescanStarted a b ∉ x.
Proof. intros F I. rewrite Forall_forall in F. exact (F _ I). Qed.
Lemma processes_no_start P r r' ms es a b : processes P r r' ms es -> CoRescanStarted a b ∉ es.
Proof.
  intros [_ _ _ _ _ (l & _ & _ & ->) _] I. apply elem_of_app in I as [I|I].
  - apply elem_of_lookup_imap in I as (i & [[f hash] c] & X & _). done.
  - destruct (bool_decide _); [apply elem_of_list_singleton in I; done|by apply elem_of_nil in I].
Qed.

Lemma step_goes_on P cap i s s' x : cbf_ok P cap s -> step_on P i s = Val (s', x) -> scan_goes_on i -> forall a b, CoRescanStarted a b ∉ x.
Proof.
  intros Ok E G a b. apply (step_effect P cap) in E; [|done]. unfold scan_goes_on in G.
  destruct E as [s' x NR Q|from sh prev hs stop st s' x Eo Ei T L1 Ep Lh L2 Est Q|from hash height f s' x Eo _ _ R Q|
    from hash height f c b' r' ms es s' x Eo _ A _ Ec Pr E1 E2 E3 E4 Ex|rev h' c s' x ok Eo El L2 -> Ec Q|from to w start stop s1 r' ms es x y Eo Q Pr _];
    try (rewrite Eo in G; done).
  - apply quiet_no_start, Q.
  - apply quiet_no_start, Q.
  - apply not_elem_of_cons. split; [done|]. apply quiet_no_start, Q.
  - apply not_elem_of_cons. split; [done|]. intros I. apply elem_of_app in I as [I|I]; [by eapply processes_no_start|].
    pose proof (want_quiet_out ms (c_pending s)) as W. destruct (want_blocks ms (c_pending s)) as [p o]. injection Ex as _ ->. cbn in W.
    eapply quiet_no_start; [|exact I]. apply Forall_app. split; [done|]. destruct (decide _); repeat constructor.
Qed.

Lemma run_goes_on P cap ins : forall s s' xs, cbf_ok P cap s -> cbf_run P ins s = Val (s', xs) -> Forall scan_goes_on ins ->
  scan_outs (scan_of s) (concat xs) = Some (scan_of s') /\ forall a b, CoRescanStarted a b ∉ concat xs.
Proof.
  induction ins as [|i ins IH]; intros s s' xs Ok; cbn [cbf_run].
  { intros [= <- <-] _. split; [done|]. intros. apply not_elem_of_nil. }
  destruct (step_on P i s) as [[s1 x]|] eqn:E; [|done]. cbn [mbind_M].
  destruct (cbf_run P ins s1) as [[s2 xs']|] eqn:E2; [|done]. intros [= <- <-] G. inversion G as [|? ? G1 G2]; subst.
  destruct (IH s1 s2 xs' (step_ok _ _ _ _ _ _ Ok E) E2 G2) as [I1 I2]. cbn [concat]. split.
  - rewrite scan_outs_app. assert (K : keeps_genesis i) by (unfold keeps_genesis, scan_goes_on in *; by destruct (i_op i)).
    pose proof (step_scan P cap i s s1 x Ok E K) as X. unfold scan_reorg in X. unfold scan_goes_on in G1.
    destruct (i_op i); try done; by rewrite X.
  - intros a b I. apply elem_of_app in I as [I|I]; [by eapply step_goes_on|]. by apply (I2 a b).
Qed.

Lemma run_app P ins1 : forall ins2 s s' xs, cbf_run P (ins1 ++ ins2) s = Val (s', xs) ->
  exists s1 xs1 xs2, cbf_run P ins1 s = Val (s1, xs1) /\ cbf_run P ins2 s1 = Val (s', xs2) /\ xs = xs1 ++ xs2.
Proof.
  induction ins1 as [|i ins1 IH]; intros ins2 s s' xs; cbn [app cbf_run]; [intros E; by exists s, [], xs|].
  destruct (step_on P i s) as [[s1 x]|] eqn:E; [|done]. cbn [mbind_M].
  destruct (cbf_run P (ins1 ++ ins2) s1) as [[s2 xs']|] eqn:E2; [|done]. intros [= <- <-].
  destruct (IH _ _ _ _ E2) as (s3 & xs1 & xs2 & H1 & H2 & ->). rewrite H1. cbn. by exists s3, (x :: xs1), xs2.
Qed.

(** The outputs from a rescan on: those of the rescan call, then the rest. *)
Lemma rescan_consecutive P cap i ins s s1 x s' xs from to watch : cbf_ok P cap s -> i_op i = CRescan from to watch ->
  step_on P i s = Val (s1, x) -> cbf_run P ins s1 = Val (s', xs) -> Forall scan_goes_on ins ->
  exists start stop y n, x = CoRescanStarted start stop :: y /\
    processed_heights (y ++ concat xs) = heights_from start n /\
    (forall x1 h x2, y ++ concat xs = x1 ++ CoRescanStopped h :: x2 -> exists m, processed_heights x1 = heights_from start m /\ h = start + N.of_nat m) /\
    r_current (c_rescan s') = start + N.of_nat n.
Proof.
  intros Ok Eo E R G. destruct (run_goes_on P cap ins s1 s' xs (step_ok _ _ _ _ _ _ Ok E) R G) as [S1 S2].
  assert (K : keeps_genesis i) by (unfold keeps_genesis; by rewrite Eo).
  pose proof (step_scan P cap i s s1 x Ok E K) as X. unfold scan_reorg in X. rewrite Eo in X.
  assert (F : exists start stop y, x = CoRescanStarted start stop :: y /\ forall a b, CoRescanStarted a b ∉ y).
  { clear X. pose proof E as E'. apply (step_effect P cap) in E; [|done].
    destruct E as [s1 x NR Q|? ? ? ? ? ? s1 x Eo'|? ? ? ? s1 x Eo'|? ? ? ? ? ? ? ? ? s1 x Eo'|? ? ? s1 x ? Eo'|from' to' w start stop s2 r' ms es x y _ Q Pr ->]; try congruence.
    - exfalso. unfold step_on in E'. rewrite Eo in E'. cbn [cbf_step] in E'. unfold cbf_rescan in E'.
      assert (NS : forall a b, CoRescanStarted a b ∉ x) by (intros; apply quiet_no_start, Q).
      destruct (decide _); [injection E' as _ <-; eapply NS; left|]. destruct (_ <? _); [injection E' as _ <-; eapply NS; left|].
      destruct (get_cfilters _ _ _ _ _) as [[[s2 o] e]|]; [|done]. cbn [mbind_M] in E'. destruct e as [[]|]; [done| |];
      (destruct (r_process P (c_rescan s2)) as [[[r ms] es]|]; [|done]; cbn [mbind_M] in E'; injection E' as _ <-; eapply NS; left).
    - exists start, stop. eexists. split; [done|]. intros a b I. apply elem_of_app in I as [I|I]; [by eapply quiet_no_start; [apply Q|]|].
      apply elem_of_app in I as [I|I]; [|apply elem_of_list_fmap in I as (? & ? & _); done].
      destruct Pr as [(_ & _ & ->)|Pr]; [by apply elem_of_nil in I|]. by eapply processes_no_start. }
  destruct F as (start & stop & y & -> & NS). exists start, stop, y.
  destruct (scan_consecutive (y ++ concat xs) (Scan start start true) (scan_of s')) as (n & H1 & H2 & H3).
  - rewrite scan_outs_app. cbn [scan_outs scan_out] in X. rewrite X. exact S1.
  - intros a b I. apply elem_of_app in I as [I|I]; [by eapply NS|by eapply S2].
  - exists n. split; [done|]. split; [exact H1|]. split; [exact H3|exact H2].
Qed.

(** ** Requests *)
Lemma with_cached_none t a b r h : a <= h <= b -> with_cached t a b r h = None <-> ~ at_hand t r h.
Proof.
  intros L. unfold with_cached, at_hand. rewrite decide_True by done.
  destruct (fc_get (r_cache r) h) as [f|]; destruct (tr_at t h) as [hash|]; destruct (r_received r !! h) as [v|]; split; try done.
  all: try (intros X; exfalso; apply X; first [by left; eexists | right; split; by eexists]).
  all: intros _ [[? ?]|[[? ?] [? ?]]]; done.
Qed.

Lemma cycle_some order peers i : order (fst <$> map_to_list peers) <> [] -> is_Some (cycle_peer order peers i).
Proof.
  intros N. unfold cycle_peer. apply lookup_lt_is_Some. set (l := order _) in *. destruct l; [done|]. apply Nat.mod_upper_bound. cbn. lia.
Qed.
Lemma ask_all order t peers rs : order (fst <$> map_to_list peers) <> [] -> Forall (fun x => is_Some (tr_at t x.2)) rs ->
  forall i, exists o, ask_ranges order t peers i rs = (o, None) /\
    Forall2 (fun x r => exists p hash, x = CoGetCFilters p r.1 hash /\ tr_at t r.2 = Some hash) o rs.
Proof.
  intros N. induction 1 as [|[a b] rs [hash T] F IH]; intros i; cbn [ask_ranges]; [exists []; split; [done|constructor]|].
  destruct (cycle_some order peers i N) as [p ->]. cbn in T. rewrite T. destruct (IH (Datatypes.S i)) as (o & -> & F2).
  eexists. split; [done|]. constructor; [by exists p, hash|done].
Qed.

Lemma request_spec P k now t s a b : a <= b -> b <= f_height s -> b <= tr_height t -> c_peers s <> ∅ ->
  k_order k 0 (fst <$> map_to_list (c_peers s)) <> [] ->
  exists s' o rs, cbf_step P k now t (CRequestFilters a b) s = Val (s', o ++ [CoReply true]) /\
    Forall2 (fun x r => exists p hash, x = CoGetCFilters p r.1 hash /\ tr_at t r.2 = Some hash) o rs /\
    ascending rs /\ Forall (fun r => r.1 <= r.2 /\ r.2 - r.1 < 1000) rs /\
    (forall h, covered rs h <-> a <= h <= b /\ ~ at_hand t (c_rescan s) h /\ h ∉ r_requested (c_rescan s)) /\
    (forall h, h ∈ r_requested (c_rescan s') <-> h ∈ r_requested (c_rescan s) \/ covered rs h).
Proof.
  intros L1 L2 L3 Pe K. cbn [cbf_step]. unfold get_cfilters. rewrite decide_False by done.
  destruct (N.ltb_spec b a); [lia|]. unfold assertM. destruct (N.leb_spec b (f_height s)); [|lia].
  destruct (requests_spec a b t (c_rescan s)) as (r' & rs & -> & A & F & C & Rq & _). cbn [mbind_M].
  destruct (ask_all (k_order k 0) t (c_peers s) rs K) with (i := 0%nat) as (o & -> & F2).
  { apply Forall_forall. intros [x y] I. cbn. apply tr_at_some. rewrite Forall_forall in F. specialize (F _ I). cbn in F.
    assert (Cy : covered rs y) by (exists x, y; split; [done|lia]). apply C in Cy. lia. }
  exists (set_rescan r' s), o, rs. split; [done|]. split; [done|]. split; [done|]. split; [done|]. split; [|done].
  intros h. rewrite C. split.
  - intros (H1 & H2 & H3). split; [done|]. split; [|done]. by apply (with_cached_none t a b).
  - intros (H1 & H2 & H3). split; [done|]. split; [|done]. by apply with_cached_none.
Qed.

(** ** Serving filter headers *)
Lemma serve_spec P k now t s from start stop stop_hash : tr_get t stop_hash = Some stop -> start <= stop -> stop <= f_height s -> stop < two64 - 1 ->
  exists prev hashes, cbf_step P k now t (CGetCFHeaders from 0 start stop_hash) s = Val (s, [CoCFHeaders from stop_hash prev hashes]) /\
    lenN hashes = stop - start + 1 /\
    (forall h, start <= h <= stop -> exists e, f_entries P s !! N.to_nat h = Some e /\ hashes !! N.to_nat (h - start) = Some e.1) /\
    (start = 0 /\ prev = 0 \/ 0 < start /\ exists e, f_entries P s !! N.to_nat (start - 1) = Some e /\ prev = e.2).
Proof.
  intros T L1 L2 L3. cbn [cbf_step]. unfold received_getcfheaders. cbn [negb N.eqb]. rewrite T.
  assert (Le : length (f_entries P s) = Datatypes.S (N.to_nat (f_height s))) by (unfold f_entries, f_height, lenN; cbn; lia).
  assert (R : f_range P s start stop = take (N.to_nat (stop - start + 1)) (drop (N.to_nat start) (f_entries P s))).
  { unfold f_range. replace (stop + two64 - start + 1) with (stop - start + 1 + 1 * two64) by lia.
    rewrite N.mod_add by done. rewrite N.mod_small by lia. unfold lenN. rewrite Le. f_equal; [lia|]. f_equal. lia. }
  rewrite R. set (hs := take _ _).
  assert (Lh : length hs = N.to_nat (stop - start + 1)) by (unfold hs; rewrite take_length, drop_length, Le; lia).
  assert (Hh : forall h, start <= h <= stop -> hs !! N.to_nat (h - start) = f_entries P s !! N.to_nat h).
  { intros h L. unfold hs. rewrite lookup_take by lia. rewrite lookup_drop. f_equal. lia. }
  destruct hs as [|e0 hs0] eqn:Ehs; [cbn in Lh; lia|]. rewrite <- Ehs in *. clear Ehs.
  assert (X : exists prev, f_prev P s start = Some prev /\ (start = 0 /\ prev = 0 \/ 0 < start /\ exists e, f_entries P s !! N.to_nat (start - 1) = Some e /\ prev = e.2)).
  { unfold f_prev, f_get. destruct (N.eqb_spec start 0) as [->|N0]; [exists 0; split; [done|by left]|].
    destruct (lookup_lt_is_Some_2 (f_entries P s) (N.to_nat (start - 1))) as [e He]; [lia|]. rewrite He. exists e.2. split; [done|]. right.
    split; [lia|]. by exists e. }
  destruct X as (prev & -> & X). exists prev, (fst <$> hs). split; [done|]. split; [unfold lenN; rewrite fmap_length, Lh; lia|]. split; [|done].
  intros h L. destruct (lookup_lt_is_Some_2 (f_entries P s) (N.to_nat h)) as [e He]; [lia|]. exists e. split; [done|].
  rewrite list_lookup_fmap, Hh, He by done. done.
Qed.

(** ** Pending blocks *)
Lemma get_cfilters_pending o a b t s s' x e : get_cfilters o a b t s = Val (s', x, e) -> c_pending s' = c_pending s.
Proof.
  unfold get_cfilters, assertM. destruct (decide _); [by intros [= <- _ _]|]. destruct (_ <? _); [by intros [= <- _ _]|].
  destruct (_ <=? _); [|done]. destruct (r_requests a b t (c_rescan s)) as [[r rs]|]; [|done]. cbn [mbind_M].
  destruct (ask_ranges _ _ _ _ _). by intros [= <- _ _].
Qed.
Lemma get_cfheaders_pending P k now a h s : c_pending (get_cfheaders P k now a h s).1 = c_pending s.
Proof. unfold get_cfheaders. destruct (c_inflight s !! h); [done|]. by destruct (sample_peer _ _) as [[]|]. Qed.
Lemma sync_pending P k i now t s s' x : sync P k i now t s = Val (s', x) -> c_pending s' = c_pending s.
Proof.
  unfold sync, assertM. destruct (_ <=? _); [|done]. destruct (match tr_checkpoint t with Some _ => _ | None => _ end); [by intros [= <- _]|].
  destruct (if f_height s <? tr_height t then _ else _) as [[s1 o]|] eqn:E; [|done]. cbn [mbind_M].
  assert (E1 : c_pending s1 = c_pending s).
  { destruct (f_height s <? tr_height t); [|by injection E as <- _]. unfold send_getcfheaders in E.
    destruct (_ <? _); [by injection E as <- _|]. destruct (tr_at _ _) as [hash|]; [|done].
    pose proof (get_cfheaders_pending P k now (f_height s + 1) hash s) as X. destruct (get_cfheaders _ _ _ _ _ _). by injection E as <- _. }
  destruct (r_active (c_rescan s1)); [|by intros [= <- _]].
  destruct (get_cfilters _ _ _ _ _) as [[[s2 o'] e]|] eqn:G; [|done]. cbn [mbind_M]. intros [= <- _]. apply get_cfilters_pending in G. congruence.
Qed.
Lemma idle_pending P k now t s s' x : idle P k now t s = Val (s', x) -> c_pending s' = c_pending s.
Proof.
  unfold idle. destruct (_ <=? _); [|by intros [= <- _]]. destruct (sync _ _ _ _ _ _) as [[s1 o]|] eqn:E; [|done]. cbn [mbind_M].
  intros [= <- _]. cbn. by eapply sync_pending.
Qed.
Lemma expire_pending P k now hs : forall i s, c_pending (expire P k now i hs s).1 = c_pending s.
Proof.
  induction hs as [|h hs IH]; intros i s; cbn [expire]; [done|].
  assert (X : forall s1 o, c_pending s1 = c_pending s -> c_pending (let '(s, o') := expire P k now (Datatypes.S i) hs s1 in (s, o ++ o')).1 = c_pending s).
  { intros s1 o E. specialize (IH (Datatypes.S i) s1). destruct (expire _ _ _ _ _ s1). cbn in *. congruence. }
  destruct (c_inflight s !! h) as [[[start addr] expiry]|]; [|by apply X]. destruct (_ <=? _); [|by apply X].
  destruct (sample_peer _ _) as [[a persistent]|]; [|by apply X]. apply X. by destruct (_ && _).
Qed.
Lemma want_sub ms p : p ⊆ (want_blocks ms p).1.
Proof.
  revert p. induction ms as [|[h hash] ms IH]; intros p; cbn [want_blocks]; [done|]. destruct (decide (h ∈ p)); [done|].
  specialize (IH ({[h]} ∪ p)). destruct (want_blocks ms _) as [p' o]. cbn in *. set_solver.
Qed.

Lemma step_pending P i s s' x h : step_on P i s = Val (s', x) -> h ∈ c_pending s -> block_awaited h i -> h ∈ c_pending s'.
Proof.
  destruct i as [k now t o]. unfold step_on, block_awaited. cbn [i_k i_now i_tree i_op]. intros E I B.
  destruct o; cbn [cbf_step] in E.
  - apply idle_pending in E. by rewrite E.
  - unfold cbf_negotiated in E. destruct (_ && _); [apply sync_pending in E; by rewrite E|by injection E as <- _].
  - by injection E as <- _.
  - destruct (decide _); injection E as <- _; [|done]. cbn. set_solver.
  - injection E as <- _. cbn. set_solver.
  - destruct (match last reverted with Some _ => _ | None => _ end) as [[s1 o1]|] eqn:E1; [|done]. cbn [mbind_M] in E.
    destruct (sync _ _ _ _ _ _) as [[s2 o2]|] eqn:E2; [|done]. cbn [mbind_M] in E. injection E as <- _. apply sync_pending in E2. rewrite E2.
    destruct (last reverted) as [hh|]; [|by injection E1 as <- _]. unfold cbf_rollback in E1.
    destruct (_ <=? _); [by injection E1 as <- _|]. unfold r_rollback in E1. destruct (fc_rollback _ _ _) as [c|]; [|done]. cbn [mbind_M] in E1.
    unfold f_rollback in E1. destruct (k_rollback_ok k); [|by injection E1 as <- _].
    destruct (_ && _); by injection E1 as <- _.
  - by injection E as <- _.
  - by injection E as <- _.
  - unfold received_cfheaders in E. destruct (c_inflight s !! stop_hash); [|by injection E as <- _].
    destruct (negb _); [by injection E as <- _|]. destruct (tr_get _ _); [|by injection E as <- _]. destruct (_ <=? _); [by injection E as <- _|].
    destruct (negb _); [by injection E as <- _|]. destruct (_ <? _); [by injection E as <- _|]. destruct (_ =? 0); [by injection E as <- _|].
    destruct (negb _); [by injection E as <- _|]. unfold f_import in E. destruct (k_put k); [by injection E as <- _|].
    destruct (headers_imported _ _ _ _ _) as [[[s1 o1] e]|] eqn:E1; [|done]. cbn [mbind_M] in E.
    assert (X : h ∈ c_pending s1).
    { unfold headers_imported in E1. destruct (r_active _); [|by injection E1 as <- _ _]. destruct (_ <? _); [by injection E1 as <- _ _|].
      apply get_cfilters_pending in E1. by rewrite E1. }
    destruct e; [done|]. unfold assertM in E. destruct (_ <=? _); [|done]. destruct (_ =? _); [by injection E as <- _|].
    destruct (sync _ _ _ _ _ _) as [[s2 o2]|] eqn:E2; [|done]. cbn [mbind_M] in E. injection E as <- _. apply sync_pending in E2. by rewrite E2.
  - unfold received_getcfheaders in E. destruct (negb _); [by injection E as <- _|]. destruct (tr_get _ _); [|by injection E as <- _].
    destruct (f_range _ _ _ _); [by injection E as <- _|]. destruct (f_prev _ _ _); [by injection E as <- _|done].
  - unfold received_cfilter in E. destruct (negb _); [by injection E as <- _|]. destruct (tr_get _ _); [|by injection E as <- _].
    destruct (f_get _ _ _) as [[]|]; [|by injection E as <- _]. destruct (f_prev _ _ _); [|done]. destruct (negb _); [by injection E as <- _|].
    destruct (r_receive _ _ _ _) as [[r []]|]; [| |done]; cbn [mbind_M] in E.
    + destruct (r_process P r) as [[[r' ms] es]|]; [|done]. cbn [mbind_M] in E.
      set (s1 := if _ <? _ then _ else _) in E. assert (X : c_pending s1 = c_pending s) by (unfold s1; by destruct (_ <? _)).
      pose proof (want_sub ms (c_pending s1)) as W. destruct (want_blocks ms (c_pending s1)) as [p o]. injection E as <- _. cbn in *. set_solver.
    + cbn [want_blocks] in E. by injection E as <- _.
  - unfold cbf_timer in E. destruct (idle _ _ _ _ _) as [[s1 o1]|] eqn:E1; [|done]. cbn [mbind_M] in E. apply idle_pending in E1.
    pose proof (expire_pending P k now (k_order k 3 (fst <$> map_to_list (c_inflight s1))) 0 s1) as X. destruct (expire _ _ _ _ _ _) as [s2 o2]. cbn in X.
    destruct (_ && _); [|injection E as <- _; congruence].
    destruct (get_cfilters _ _ _ _ _) as [[[s3 o3] e]|] eqn:G; [|done]. cbn [mbind_M] in E. injection E as <- _. apply get_cfilters_pending in G. cbn in G. congruence.
  - by injection E as <- _.
  - by injection E as <- _.
  - unfold cbf_rescan in E. destruct (decide _); [by injection E as <- _|]. destruct (_ <? _); [by injection E as <- _|].
    destruct (get_cfilters _ _ _ _ _) as [[[s3 o3] e]|] eqn:G; [|done]. cbn [mbind_M] in E. apply get_cfilters_pending in G. cbn in G.
    destruct e as [[]|]; [done| |]; (destruct (r_process P (c_rescan s3)) as [[[r ms] es]|]; [|done]; cbn [mbind_M] in E; injection E as <- _; cbn; congruence).
  - destruct (get_cfilters _ _ _ _ _) as [[[s3 o3] e]|] eqn:G; [|done]. cbn [mbind_M] in E. injection E as <- _. apply get_cfilters_pending in G. congruence.
Qed.

Lemma run_pending P ins h : forall s s' xs, cbf_run P ins s = Val (s', xs) -> h ∈ c_pending s -> Forall (block_awaited h) ins -> h ∈ c_pending s'.
Proof.
  induction ins as [|i ins IH]; intros s s' xs; cbn [cbf_run]; [by intros [= <- <-]|].
  destruct (step_on P i s) as [[s1 x]|] eqn:E; [|done]. cbn [mbind_M].
  destruct (cbf_run P ins s1) as [[s2 xs']|] eqn:E2; [|done]. intros [= <- <-] I B. inversion B; subst.
  eapply IH; [done| |done]. by eapply step_pending.
Qed.

(** A block whose filter matched when it arrived is reported once the block
    arrives. *)
Lemma matched_reported P cap i ins s s1 x s' xs block h v c from ftype hash f k now t :
  cbf_ok P cap s -> i_op i = CCFilter from ftype hash f -> step_on P i s = Val (s1, x) -> CoFilterProcessed block h v true c ∈ x ->
  cbf_run P ins s1 = Val (s', xs) -> Forall (block_awaited h) ins ->
  exists s2 y, step_on P (Input k now t (CBlockProcessed block h)) s' = Val (s2, CoBlockMatched block h :: y).
Proof.
  intros Ok Eo E I R B. destruct (step_origin P cap i s s1 x Ok E) as [_ O]. destruct (O _ _ _ _ _ I) as (g & _ & _ & M).
  destruct (M eq_refl) as [_ Pn]. assert (h ∈ c_pending s1) as Pn1 by (apply Pn; rewrite Eo; done).
  pose proof (run_pending P ins h s1 s' xs R Pn1 B) as X. unfold step_on. cbn. rewrite decide_True by done. by eexists _, _.
Qed.

(** ** Filters received *)
Lemma step_received P cap i s s' x from hash h f : cbf_ok P cap s -> step_on P i s = Val (s', x) -> CoFilterReceived from hash h f ∈ x ->
  i_op i = CCFilter from 0 hash f /\ tr_get (i_tree i) hash = Some h /\ authentic P s h f.
Proof.
  intros Ok E I. apply (step_effect P cap) in E; [|done].
  assert (NQ : forall x, Forall quiet_out x -> CoFilterReceived from hash h f ∈ x -> False).
  { intros y F J. rewrite Forall_forall in F. exact (F _ J). }
  assert (NE : forall r r' ms es, processes P r r' ms es -> CoFilterReceived from hash h f ∈ es -> False).
  { intros r r' ms es [_ _ _ _ _ (l & _ & _ & ->) _] J. apply elem_of_app in J as [J|J].
    - apply elem_of_lookup_imap in J as (j & [[g b] c] & X & _). done.
    - destruct (bool_decide _); [apply elem_of_list_singleton in J; done|by apply elem_of_nil in J]. }
  destruct E as [s' x NR Q|from' sh prev hs stop st s' x Eo Ei T L1 Ep Lh L2 Est Q|from' hash' height f' s' x Eo T A R Q|
    from' hash' height f' c b' r' ms es s' x Eo T A _ Ec Pr E1 E2 E3 E4 Ex|rev h' c s' x ok Eo El L2 -> Ec Q|from' to w start stop s1 r' ms es x y Eo Q Pr ->].
  - exfalso. eapply NQ; [apply Q|done].
  - exfalso. eapply NQ; [apply Q|done].
  - apply elem_of_cons in I as [[= -> -> -> ->]|I]; [done|]. exfalso. eapply NQ; [apply Q|done].
  - apply elem_of_cons in I as [[= -> -> -> ->]|I]; [done|]. exfalso. apply elem_of_app in I as [I|I]; [by eapply NE|].
    pose proof (want_quiet_out ms (c_pending s)) as W. destruct (want_blocks ms (c_pending s)) as [p o]. injection Ex as _ ->. cbn in W.
    eapply NQ; [|exact I]. apply Forall_app. split; [done|]. destruct (decide _); repeat constructor.
  - exfalso. eapply NQ; [apply Q|done].
  - exfalso. apply elem_of_cons in I as [I|I]; [done|]. apply elem_of_app in I as [I|I]; [eapply NQ; [apply Q|done]|].
    apply elem_of_app in I as [I|I]; [|apply elem_of_list_fmap in I as (? & ? & _); done].
    destruct Pr as [(_ & _ & ->)|Pr]; [by apply elem_of_nil in I|]. by eapply NE.
Qed.

(** ** Histories from the start *)
Lemma reach_ok P cap st ins s outs : chained P ((p_genesis P, p_header P (p_genesis P) 0) :: st) -> cbf_reach P cap st ins s outs -> cbf_ok P cap s.
Proof. intros C R. eapply run_ok; [|exact R]. by apply cbf0_ok. Qed.

Lemma processed_on_chain P cap st ins s outs h b : chained P ((p_genesis P, p_header P (p_genesis P) 0) :: st) -> cbf_reach P cap st ins s outs ->
  (forall i, i ∈ ins -> tr_at (i_tree i) h = Some b) -> forall block v m c, CoFilterProcessed block h v m c ∈ concat outs -> block = b.
Proof.
  intros C R T block v m c I. destruct (run_origin P cap ins _ _ _ (cbf0_ok P cap st C) R) as [_ O].
  destruct (O _ _ _ _ _ I) as (f & [X|V]); [done|]. destruct (vouched_at _ _ _ _ _ _ V) as (i & Ii & Ti). rewrite (T _ Ii) in Ti. congruence.
Qed.
Lemma processed_vouched P cap st ins s outs block h v m c : chained P ((p_genesis P, p_header P (p_genesis P) 0) :: st) -> cbf_reach P cap st ins s outs ->
  CoFilterProcessed block h v m c ∈ concat outs -> exists f, vouched P h block f ins (cbf0 cap st).
Proof.
  intros C R I. destruct (run_origin P cap ins _ _ _ (cbf0_ok P cap st C) R) as [_ O].
  destruct (O _ _ _ _ _ I) as (f & [X|V]); [done|]. by exists f.
Qed.

Lemma faithful_snoc ins i : forall old, faithful old (ins ++ [i]) -> faithful old ins /\ env_ok (final_tree old ins) i.
Proof. induction ins as [|j ins IH]; intros old; cbn; [by intros [? _]|]. intros [F G]. destruct (IH _ G). done. Qed.

Lemma only_panics P cap st ins s outs old i p : chained P ((p_genesis P, p_header P (p_genesis P) 0) :: st) -> lenN st <= tr_height old ->
  cbf_reach P cap st ins s outs -> faithful old (ins ++ [i]) -> Forall io_ok (ins ++ [i]) -> step_on P i s = Panic p ->
  (p = PAssert 449 /\ exists a b, i_op i = CRequestFilters a b /\ f_height s < b) \/
  (p = PAssert 707 /\ (exists from stop_hash prev hashes, i_op i = CCFHeaders from 0 stop_hash prev hashes /\ is_Some (c_inflight s !! stop_hash)) /\
   r_active (c_rescan s) = true /\ c_peers s = ∅).
Proof.
  intros C L R F Io E. apply faithful_snoc in F as [F V]. apply Forall_app in Io as [Io1 Io2]. inversion Io2; subst.
  destruct (run_heights P cap ins old _ s outs (cbf0_ok P cap st C) eq_refl L F Io1 R) as (Q1 & Q2 & Q3).
  by apply (step_panic P cap (final_tree old ins) i s p).
Qed.
