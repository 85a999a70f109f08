(** Scans: order of the reported heights, origin of the scanned filters. *)
From Coq Require Import Sorting.Sorted.
From Verif Require Import Base UtilModel UtilSpec UtilProofs CbfModel CbfSpec CbfProofs CbfStep CbfMain.
Open Scope N_scope.

(** ** The order of the reported heights *)
Definition scan_of (s : cbf) : scan := Scan (r_start (c_rescan s)) (r_current (c_rescan s)) (r_active (c_rescan s)).

Lemma scan_outs_app x y : forall sc, scan_outs sc (x ++ y) = match scan_outs sc x with Some sc' => scan_outs sc' y | None => None end.
Proof. induction x as [|o x IH]; intros sc; cbn; [done|]. destruct (scan_out sc o); [apply IH|done]. Qed.
Lemma scan_outs_quiet sc x : Forall quiet_out x -> scan_outs sc x = Some sc.
Proof.
  induction 1 as [|o x Q _ IH]; cbn; [done|]. assert (E : scan_out sc o = Some sc) by (by destruct o).
  by rewrite E.
Qed.
Lemma scan_of_quiet t s s' o : quiet t s s' o -> scan_of s' = scan_of s.
Proof. intros [_ _ (E1 & E2 & E3 & E4 & E5) _ _ _]. unfold scan_of. by rewrite E1, E2, E3. Qed.

Lemma scan_outs_processed P r l : forall b st run,
  scan_outs (Scan st b run) (imap (fun i '(f, hash, c) => CoFilterProcessed hash (b + N.of_nat i) (bool_decide (is_Some (match_filter P r f hash)))
     (default false (match_filter P r f hash)) c) l) = Some (Scan st (b + N.of_nat (length l)) run).
Proof.
  induction l as [|[[f hash] c] l IH]; intros b st run; cbn [imap]; [cbn; by rewrite N.add_0_r|].
  cbn [scan_outs scan_out sc_next sc_start sc_running]. change (N.of_nat 0) with 0. rewrite N.add_0_r, N.eqb_refl.
  replace (b + N.of_nat (length ((f, hash, c) :: l))) with (b + 1 + N.of_nat (length l)) by (cbn; lia).
  rewrite <- IH. f_equal. apply imap_ext. intros i [[f' hash'] c'] _. cbn. f_equal. lia.
Qed.

Lemma scan_outs_processes P r r' ms es : processes P r r' ms es ->
  scan_outs (Scan (r_start r) (r_current r) (r_active r)) es = Some (Scan (r_start r') (r_current r') (r_active r')).
Proof.
  intros [Cu Ac (S1 & S2 & _) _ _ (l & L1 & _ & ->) _]. rewrite scan_outs_app, scan_outs_processed, L1.
  replace (r_current r + (r_current r' - r_current r)) with (r_current r') by lia. rewrite S1, Ac.
  destruct (bool_decide (r_end r = Some (r_current r'))); cbn.
  - rewrite N.eqb_refl. by rewrite andb_false_r.
  - by rewrite andb_true_r.
Qed.

Lemma want_quiet_out ms p : Forall quiet_out (want_blocks ms p).2.
Proof. eapply Forall_impl; [apply want_quiet|]. by intros ? [? ->]. Qed.

Lemma step_scan P cap i s s' x : cbf_ok P cap s -> step_on P i s = Val (s', x) -> keeps_genesis i ->
  scan_outs (scan_reorg i (f_height s) (scan_of s)) x = Some (scan_of s').
Proof.
  intros Ok E KG. apply (step_effect P cap) in E; [|done].
  destruct E as [s' x NR Q|from sh prev hs stop st s' x Eo Ei T L1 Ep Lh L2 Est Q|from hash height f s' x Eo _ _ R Q|
    from hash height f c b r' ms es s' x Eo _ A _ Ec Pr E1 E2 E3 E4 Ex|rev h c s' x ok Eo El L2 -> Ec Q|from to w start stop s1 r' ms es x y Eo Q Pr ->].
  - rewrite scan_outs_quiet by apply Q. rewrite (scan_of_quiet _ _ _ _ Q). unfold scan_reorg. destruct (i_op i); try done.
    destruct (last _) as [h|] eqn:El; [|done]. specialize (NR _ _ eq_refl El).
    destruct (N.ltb_spec (h - 1) (f_height s)); [lia|done].
  - rewrite scan_outs_quiet by apply Q. rewrite (scan_of_quiet _ _ _ _ Q). unfold scan_reorg. by rewrite Eo.
  - unfold scan_reorg. rewrite Eo. cbn [scan_outs scan_out]. rewrite scan_outs_quiet by apply Q. by rewrite (scan_of_quiet _ _ _ _ Q).
  - unfold scan_reorg. rewrite Eo. cbn [scan_outs scan_out]. rewrite scan_outs_app.
    pose proof (scan_outs_processes _ _ _ _ _ Pr) as X. cbn in X. unfold scan_of. rewrite X, E4. apply scan_outs_quiet.
    pose proof (want_quiet_out ms (c_pending s)) as W. destruct (want_blocks ms (c_pending s)) as [p o]. injection Ex as _ ->. cbn in W.
    apply Forall_app. split; [done|]. destruct (decide _); repeat constructor.
  - rewrite scan_outs_quiet by apply Q. rewrite (scan_of_quiet _ _ _ _ Q). unfold scan_reorg. rewrite Eo, El.
    destruct (N.ltb_spec (h - 1) (f_height s)); [|lia]. cbn [andb]. f_equal. unfold rolled_back, scan_of. cbn [sc_running sc_next sc_start].
    destruct (k_rollback_ok (i_k i)); cbn [andb]; [|done]. cbn.
    destruct (r_active (c_rescan s)); cbn; [|done].
    assert (N0 : h <> 0) by (intros ->; unfold keeps_genesis in KG; by rewrite Eo in KG).
    replace (h - 1 + 1) with h by lia. destruct (N.ltb_spec h (r_current (c_rescan s))); done.
  - unfold scan_reorg. rewrite Eo. cbn [scan_outs scan_out].
    pose proof (q_scan _ _ _ _ Q) as (Q1 & Q2 & Q3 & Q4 & Q5). cbn in Q1, Q2, Q3, Q4.
    assert (X : scan_outs (Scan start start true) es = Some (Scan (r_start r') (r_current r') (r_active r'))).
    { destruct Pr as [(-> & _ & ->)|Pr]; [cbn; by rewrite Q1, Q2, Q3|]. rewrite <- (scan_outs_processes _ _ _ _ _ Pr). by rewrite Q1, Q2, Q3. }
    rewrite scan_outs_app, scan_outs_quiet by apply Q. rewrite scan_outs_app, X. apply scan_outs_quiet. apply Forall_fmap, Forall_true. done.
Qed.

Lemma run_scan P cap ins : forall s, cbf_ok P cap s -> Forall keeps_genesis ins -> scan_follows P ins s (scan_of s).
Proof.
  induction ins as [|i ins IH]; intros s Ok K; cbn [scan_follows]; [done|]. inversion K; subst.
  destruct (step_on P i s) as [[s' x]|] eqn:E; [|done]. rewrite (step_scan P cap i s s' x) by done. apply IH; [|done]. by eapply step_ok.
Qed.

(** ** The origin of scanned filters *)
Lemma wanted_spec P r f hash : default false (match_filter P r f hash) = true <-> wanted P r f hash.
Proof.
  unfold match_filter, wanted. destruct (decide (r_watch r = ∅)) as [E|N].
  - cbn [default id from_option]. rewrite existsb_exists. split.
    + intros (outs & I & A). right. split; [by rewrite E|]. apply elem_of_list_In, elem_of_list_fmap in I as ([txid o] & -> & I).
      apply elem_of_map_to_list in I. exists txid, o. split; [done|]. cbn in A. by destruct (p_all P f hash o) as [[]|].
    + intros [[? _]|[_ (txid & outs & I & A)]]; [done|]. exists outs. rewrite A. split; [|done].
      apply elem_of_list_In, elem_of_list_fmap. exists (txid, outs). split; [done|]. by apply elem_of_map_to_list.
  - destruct (p_any P f hash (r_watch r)) as [[]|] eqn:Ea; cbn.
    + split; [|done]. intros _. by left.
    + rewrite existsb_exists. split.
      * intros (outs & I & A). right. split; [done|]. apply elem_of_list_In, elem_of_list_fmap in I as ([txid o] & -> & I).
        apply elem_of_map_to_list in I. exists txid, o. split; [done|]. cbn in A. by destruct (p_all P f hash o) as [[]|].
      * intros [[_ ?]|[_ (txid & outs & I & A)]]; [done|]. exists outs. rewrite A. split; [|done].
        apply elem_of_list_In, elem_of_list_fmap. exists (txid, outs). split; [done|]. by apply elem_of_map_to_list.
    + split; [done|]. intros [[_ ?]|[A _]]; [done|]. by destruct (A N).
Qed.

Lemma processes_event P r r' ms es block h v m c : processes P r r' ms es -> CoFilterProcessed block h v m c ∈ es ->
  exists f, r_received r !! h = Some (f, block, c) /\ (m = true <-> wanted P r' f block) /\ r_current r <= h < r_current r' /\
    (m = true <-> (h, block) ∈ ms) /\ (forall b', (h, b') ∈ ms -> b' = block).
Proof.
  intros Pr I. pose proof Pr as [Cu Ac (S1 & S2 & S3 & S4 & S5 & S6) _ _ (l & L1 & L2 & E) Em].
  assert (W : forall f b, wanted P r' f b <-> wanted P r f b) by (intros; unfold wanted; by rewrite S4, S5).
  assert (Uni : forall block' v' m' c', CoFilterProcessed block' h v' m' c' ∈ es -> block' = block /\ v' = v /\ m' = m /\ c' = c).
  { intros b' v' m' c' I'. rewrite E in I, I'.
    apply elem_of_app in I as [I|I]; [|destruct (bool_decide _); [apply elem_of_list_singleton in I; discriminate|by apply elem_of_nil in I]].
    apply elem_of_app in I' as [I'|I']; [|destruct (bool_decide _); [apply elem_of_list_singleton in I'; discriminate|by apply elem_of_nil in I']].
    apply elem_of_lookup_imap in I as (i & [[f hash] c0] & Ei & Hi). apply elem_of_lookup_imap in I' as (i' & [[f' hash'] c0'] & Ei' & Hi').
    injection Ei as -> Eh -> -> ->. injection Ei' as -> Eh' -> -> ->. assert (i = i') as <- by lia. rewrite Hi in Hi'. by injection Hi' as <- <- <-. }
  assert (Mm : m = true <-> (h, block) ∈ ms).
  { rewrite Em. rewrite elem_of_list_omap. split.
    - intros ->. eexists. split; [done|]. done.
    - intros ([] & I' & Q); try done. destruct matched; [|done]. injection Q as -> ->. by destruct (Uni _ _ _ _ I') as (_ & _ & <- & _). }
  assert (Mu : forall b', (h, b') ∈ ms -> b' = block).
  { intros b'. rewrite Em, elem_of_list_omap. intros ([] & I' & Q); try done. destruct matched; [|done]. injection Q as -> ->. by destruct (Uni _ _ _ _ I'). }
  rewrite E in I.
  apply elem_of_app in I as [I|I]; [|destruct (bool_decide _); [apply elem_of_list_singleton in I; discriminate|by apply elem_of_nil in I]].
  apply elem_of_lookup_imap in I as (i & [[f hash] c0] & Ei & Hi). injection Ei as -> Eh _ -> ->.
  exists f. split; [rewrite Eh; by apply L2|]. split; [rewrite W; apply wanted_spec|]. split; [|by split].
  apply lookup_lt_Some in Hi. lia.
Qed.

Definition sound (P : params) (i : input) (s s' : cbf) (h hash : N) (f : bfilter) (c : bool) : Prop :=
  r_received (c_rescan s) !! h = Some (f, hash, c) \/ (tr_at (i_tree i) h = Some hash /\ authentic P s' h f).

Lemma quiet_sound P i s1 s' x h f hash c : (forall h f, fc_get (r_cache (c_rescan s')) h = Some f -> authentic P s' h f) ->
  quiet (i_tree i) s1 s' x -> r_received (c_rescan s') !! h = Some (f, hash, c) -> sound P i s1 s' h hash f c.
Proof.
  intros A Q R. destruct (q_received _ _ _ _ Q _ _ R) as [?|(f' & hash' & [= -> -> ->] & G & T)]; [by left|].
  right. split; [done|]. apply A. by destruct (q_scan _ _ _ _ Q) as (_ & _ & _ & _ & ->).
Qed.

Lemma want_blocks_spec ms : forall p h b, (h, b) ∈ ms -> (forall b', (h, b') ∈ ms -> b' = b) ->
  (CoGetBlock b ∈ (want_blocks ms p).2 \/ h ∈ p) /\ h ∈ (want_blocks ms p).1 /\ p ⊆ (want_blocks ms p).1.
Proof.
  assert (Sub : forall ms p, p ⊆ (want_blocks ms p).1).
  { clear. induction ms as [|[h hash] ms IH]; intros p; cbn [want_blocks]; [done|]. destruct (decide (h ∈ p)); [done|].
    specialize (IH ({[h]} ∪ p)). destruct (want_blocks ms _) as [p' o]. cbn in *. set_solver. }
  induction ms as [|[h0 hash] ms IH]; intros p h b I U; [by apply elem_of_nil in I|]. split; [|split; [|apply Sub]].
  - cbn [want_blocks]. apply elem_of_cons in I as [[= <- <-]|I].
    + destruct (decide (h ∈ p)); [by right|]. destruct (want_blocks ms _) as [p' o]. left. cbn. left.
    + destruct (decide (h0 ∈ p)); [destruct (IH p h b I) as (X & X' & _); [intros b' ?; apply (U b'); by right|done]|].
      destruct (IH ({[h0]} ∪ p) h b I) as [[X|X] _]; [intros b' ?; apply (U b'); by right| |].
      * left. destruct (want_blocks ms _) as [p' o]. cbn in *. by right.
      * apply elem_of_union in X as [X|X]; [|by right]. apply elem_of_singleton in X as ->. left.
        rewrite (U hash) by left. destruct (want_blocks ms _) as [p' o]. cbn. left.
  - cbn [want_blocks]. apply elem_of_cons in I as [[= <- <-]|I].
    + destruct (decide (h ∈ p)); [by apply Sub|]. pose proof (Sub ms ({[h]} ∪ p)). destruct (want_blocks ms _) as [p' o]. cbn in *. set_solver.
    + destruct (decide (h0 ∈ p)); [destruct (IH p h b I) as (X & X' & _); [intros b' ?; apply (U b'); by right|done]|].
      destruct (IH ({[h0]} ∪ p) h b I) as (_ & X & _); [intros b' ?; apply (U b'); by right|].
      destruct (want_blocks ms _) as [p' o]. done.
Qed.

Lemma step_origin P cap i s s' x : cbf_ok P cap s -> step_on P i s = Val (s', x) ->
  (forall h f hash c, r_received (c_rescan s') !! h = Some (f, hash, c) -> sound P i s s' h hash f c) /\
  (forall block h v m c, CoFilterProcessed block h v m c ∈ x ->
     exists f, sound P i s s' h block f c /\ (m = true <-> wanted P (c_rescan s') f block) /\ 
     (m = true -> (CoGetBlock block ∈ x \/ h ∈ c_pending s) /\ ((forall from to watch, i_op i <> CRescan from to watch) -> h ∈ c_pending s'))).
Proof.
  intros Ok E. pose proof (step_ok _ _ _ _ _ _ Ok E) as Ok'. apply (step_effect P cap) in E; [|done].
  assert (NP : forall block h v m c x, Forall quiet_out x -> CoFilterProcessed block h v m c ∈ x -> False).
  { intros block h v m c y F I. rewrite Forall_forall in F. exact (F _ I). }
  destruct E as [s' x NR Q|from sh prev hs stop st s' x Eo Ei T L1 Ep Lh L2 Est Q|from hash height f s' x Eo _ _ R Q|
    from hash height f c b r' ms es s' x Eo Tg A _ Ec Pr E1 E2 E3 E4 Ex|rev h c s' x ok Eo El L2 -> Ec Q|from to w start stop s1 r' ms es x y Eo Q Pr ->].
  - split; [intros; eapply quiet_sound; [apply Ok'|done|done]|]. intros ? ? ? ? ? I. exfalso. eapply NP; [apply Q|done].
  - split; [intros ? ? ? ? I; by eapply (quiet_sound _ _ _ _ _ _ _ _ _ (ok_auth _ _ _ Ok') Q) in I|].
    intros ? ? ? ? ? I. exfalso. eapply NP; [apply Q|done].
  - split; [intros; eapply quiet_sound; [apply Ok'|done|done]|]. intros ? ? ? ? ? I. apply elem_of_cons in I as [I|I]; [done|]. exfalso. eapply NP; [apply Q|done].
  - assert (Af : authentic P s' height f) by (eapply authentic_ext; [|done]; intros; unfold f_entries; by rewrite E1).
    assert (Rc : forall h g b' c', r_received (after_receive height f hash c (c_rescan s)) !! h = Some (g, b', c') -> sound P i s s' h b' g c').
    { intros h g b' c'. cbn. destruct (decide (height = h)) as [<-|N].
      - rewrite lookup_insert. intros [= <- <- <-]. right. split; [by apply tr_get_at|done].
      - rewrite lookup_insert_ne by done. by left. }
    split.
    + intros h g b' c' I. rewrite E4, (ps_received _ _ _ _ _ Pr) in I. destruct (decide _); [done|]. by apply Rc.
    + intros block h v m c' I. apply elem_of_cons in I as [I|I]; [done|]. apply elem_of_app in I as [I|I].
      2: { exfalso. pose proof (want_quiet_out ms (c_pending s)) as W. destruct (want_blocks ms (c_pending s)) as [p o]. injection Ex as _ ->. cbn in W.
           eapply NP; [|exact I]. apply Forall_app. split; [done|]. destruct (decide _); repeat constructor. }
      destruct (processes_event _ _ _ _ _ _ _ _ _ _ Pr I) as (g & R & W & L & M & Mu). exists g. split; [by apply Rc|]. rewrite E4. split; [done|].
      intros Hm. destruct (want_blocks_spec ms (c_pending s) h block) as (X1 & X2 & _); [by apply M|done|].
      destruct (want_blocks ms (c_pending s)) as [p o]. injection Ex as -> ->. cbn in X1, X2. split; [|by intros _].
      destruct X1 as [X1|X1]; [left|by right]. right. apply elem_of_app. right. apply elem_of_app. by left.
  - split; [intros ? ? ? ? I; eapply (quiet_sound _ _ _ _ _ _ _ _ _ (ok_auth _ _ _ Ok') Q) in I|].
    + unfold sound in *. unfold rolled_back in I. by destruct (k_rollback_ok (i_k i)).
    + intros ? ? ? ? ? I. exfalso. eapply NP; [apply Q|done].
  - assert (A1 : forall h f, fc_get (r_cache (c_rescan s1)) h = Some f -> authentic P s1 h f).
    { intros h f G. pose proof (ok_auth _ _ _ Ok' h f) as X. cbn in X.
      assert (Er : r_cache r' = r_cache (c_rescan s1)) by (destruct Pr as [(-> & _)|Pr]; [done|]; by destruct (ps_same _ _ _ _ _ Pr) as (_ & _ & -> & _)).
      rewrite Er in X. by specialize (X G). }
    assert (Rc : forall h g b' c', r_received (c_rescan s1) !! h = Some (g, b', c') -> sound P i s (set_rescan r' s1) h b' g c').
    { intros h g b' c' I. by destruct (quiet_sound P i _ _ _ _ _ _ _ A1 Q I) as [X|X]; [left|right]. }
    split.
    + intros h g b' c' I. cbn in I. destruct Pr as [(-> & _)|Pr]; [by apply Rc|].
      rewrite (ps_received _ _ _ _ _ Pr) in I. destruct (decide _); [done|]. by apply Rc.
    + intros block h v m c' I. apply elem_of_cons in I as [I|I]; [done|]. apply elem_of_app in I as [I|I]; [exfalso; eapply NP; [apply Q|done]|].
      apply elem_of_app in I as [I|I]; [|apply elem_of_list_fmap in I as (? & ? & _); done].
      destruct Pr as [(_ & _ & ->)|Pr]; [by apply elem_of_nil in I|].
      destruct (processes_event _ _ _ _ _ _ _ _ _ _ Pr I) as (g & R & W & L & M & Mu). exists g. split; [by apply Rc|]. split; [done|].
      intros Hm. apply M in Hm. split; [|intros X; by destruct (X from to w)]. left. right. apply elem_of_app. right. apply elem_of_app. right.
      apply elem_of_list_fmap. exists block. split; [done|]. apply elem_of_list_fmap. by exists (h, block).
Qed.

(** Everything in the queue and everything processed was vouched for. *)
Lemma run_origin P cap ins : forall s s' xs, cbf_ok P cap s -> cbf_run P ins s = Val (s', xs) ->
  (forall h f hash c, r_received (c_rescan s') !! h = Some (f, hash, c) -> r_received (c_rescan s) !! h = Some (f, hash, c) \/ vouched P h hash f ins s) /\
  (forall block h v m c, CoFilterProcessed block h v m c ∈ concat xs ->
     exists f, r_received (c_rescan s) !! h = Some (f, block, c) \/ vouched P h block f ins s).
Proof.
  induction ins as [|i ins IH]; intros s s' xs Ok; cbn [cbf_run vouched].
  { intros [= <- <-]. split; [intros; by left|]. intros ? ? ? ? ? I. by apply elem_of_nil in I. }
  destruct (step_on P i s) as [[s1 x]|] eqn:E; [|done]. cbn [mbind_M].
  destruct (cbf_run P ins s1) as [[s2 xs']|] eqn:E2; [|done]. intros [= <- <-].
  destruct (step_origin P cap i s s1 x Ok E) as [O1 O2]. destruct (IH s1 s2 xs' (step_ok _ _ _ _ _ _ Ok E) E2) as [I1 I2].
  assert (O3 : forall h f hash c, r_received (c_rescan s1) !! h = Some (f, hash, c) \/ vouched P h hash f ins s1 ->
    r_received (c_rescan s) !! h = Some (f, hash, c) \/ (tr_at (i_tree i) h = Some hash /\ authentic P s1 h f) \/ vouched P h hash f ins s1).
  { intros h f hash c [X|X]; [|by right; right]. destruct (O1 _ _ _ _ X) as [Y|Y]; [by left|by right; left]. }
  split.
  - intros h f hash c I. by apply O3, (I1 _ _ _ c).
  - intros block h v m c I. cbn in I. apply elem_of_app in I as [I|I].
    + destruct (O2 _ _ _ _ _ I) as (f & [X|X] & _); exists f; [by left|by right; left].
    + destruct (I2 _ _ _ _ _ I) as (f & X). exists f. by apply (O3 _ _ _ c).
Qed.

Lemma vouched_at P h hash f ins : forall s, vouched P h hash f ins s -> exists i, i ∈ ins /\ tr_at (i_tree i) h = Some hash.
Proof.
  induction ins as [|i ins IH]; intros s; cbn; [done|]. destruct (step_on P i s) as [[s' x]|]; [|done].
  intros [[T _]|V]; [exists i; split; [left|done]|]. destruct (IH _ V) as (j & I & T). exists j. split; [by right|done].
Qed.
