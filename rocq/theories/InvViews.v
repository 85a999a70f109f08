(** What an observer knows of the inventory manager agrees with its state;
    requested blocks and served transactions. *)
From Verif Require Import Base SortProofs FeeModel InvModel InvSpec InvProofs InvTrack.
Open Scope N_scope.

Definition pv (p : ipeer) : pview := PView (ip_network p) (ip_relay p) (ip_wtx p) (ip_last p) (ip_attempts p).
Definition same_views (s s' : inv) : Prop := forall a, pv <$> iv_peers s' !! a = pv <$> iv_peers s !! a.

Lemma same_views_fmap (f : ipeer -> ipeer) s s' : (forall p, pv (f p) = pv p) -> iv_peers s' = f <$> iv_peers s -> same_views s s'.
Proof. intros F E a. rewrite E, lookup_fmap. destruct (iv_peers s !! a) as [p|]; [|done]. cbn. by rewrite F. Qed.
Lemma same_views_trans s1 s2 s3 : same_views s1 s2 -> same_views s2 s3 -> same_views s1 s3.
Proof. intros A B a. by rewrite B, A. Qed.

Lemma announce_views t s s' o : announce t s = (s', o) -> same_views s s'.
Proof. intros A. destruct (announce_facts _ _ _ _ A) as (_ & _ & _ & _ & _ & _ & E). eapply same_views_fmap; [|exact E]. intros p. cbn beta. destruct (ip_relay p); reflexivity. Qed.
Lemma revert_txs_views ts : forall s s' o, revert_txs ts s = (s', o) -> same_views s s'.
Proof.
  induction ts as [|t ts IH]; intros s s' o; cbn [revert_txs]; [intros [= <- <-] a; done|].
  destruct (announce t s) as [s1 o1] eqn:A. destruct (revert_txs ts s1) as [s2 o2] eqn:R. intros [= <- <-].
  eapply same_views_trans; [by eapply announce_views|by eapply IH].
Qed.
Lemma blocks_reverted_views hs : forall s s' o, blocks_reverted hs s = Val (s', o) -> same_views s s'.
Proof.
  induction hs as [|h hs IH]; intros s s' o; cbn [blocks_reverted]; [intros [= <- <-] a; done|].
  destruct (block_reverted h s) as [[s1 o1]|] eqn:B; [|done]. cbn [mbind_M].
  destruct (blocks_reverted hs s1) as [[s2 o2]|] eqn:R; [|done]. cbn [mbind_M]. intros X. injection X as <- <-.
  eapply same_views_trans; [|by eapply IH]. revert B. unfold block_reverted.
  destruct (fee_rollback _ (iv_est s)) as [e|]; [|done]. cbn [mbind_M]. change (iv_confirmed (set_est e s)) with (iv_confirmed s).
  destruct (iv_confirmed s !! h) as [ts|].
  - intros [= X]. apply revert_txs_views in X. exact X.
  - intros [= <- <-] a. done.
Qed.
Lemma confirm_txs_views hash h ts : forall s s' o, confirm_txs hash h ts s = (s', o) -> same_views s s'.
Proof.
  induction ts as [|t ts IH]; intros s s' o; cbn [confirm_txs]; [intros [= <- <-] a; done|].
  destruct (confirm_tx hash h t s) as [s1 o1] eqn:A. destruct (confirm_txs hash h ts s1) as [s2 o2] eqn:R. intros [= <- <-].
  eapply same_views_trans; [|by eapply IH]. revert A. unfold confirm_tx. destruct (iv_mempool s !! t_wid t); intros [= <- <-]; [|intros a; done].
  by eapply (same_views_fmap (fun p => set_outbox (delete (t_wid t) (ip_outbox p)) p)).
Qed.
Lemma process_queue_views hs : forall s s' o, process_queue hs s = Val (s', o) -> same_views s s'.
Proof.
  induction hs as [|h hs IH]; intros s s' o; cbn [process_queue]; [intros [= <- <-] a; done|].
  destruct (iv_received s !! h) as [b|]; [|apply IH].
  unfold process_block. destruct (confirm_txs (b_hash b) h (b_txs b) _) as [s1 o1] eqn:C.
  destruct (fee_process (b_txs b) h (iv_est s1)) as [[e f]|]; [|done]. cbn [mbind_M].
  destruct (process_queue hs (set_est e s1)) as [[s2 o2]|] eqn:Q; [|done]. cbn [mbind_M]. intros X. injection X as <- <-.
  apply confirm_txs_views in C. apply IH in Q. eapply same_views_trans; [exact C|exact Q].
Qed.
Lemma received_block_views b hof s s' o : received_block b hof s = Val (s', o) -> same_views s s'.
Proof.
  unfold received_block. destruct (iv_remaining s !! b_hash b); [|intros [= <- <-] a; done].
  destruct (hof (b_hash b)) as [h|]; [|intros [= <- <-] a; done].
  case_bool_decide; [|intros [= <- <-] a; done]. intros X. apply process_queue_views in X. exact X.
Qed.

Lemma existsb_zero {A} (f : A -> bool) l : count f l = 0%nat -> existsb f l = false.
Proof. intros C. by rewrite existsb_count, C. Qed.
Lemma existsb_pos {A} (f : A -> bool) l : (0 < count f l)%nat -> existsb f l = true.
Proof. intros C. rewrite existsb_count. destruct (count f l); [lia|done]. Qed.

(** A peer that fetches something. *)
Lemma acknowledge_views addr w txid s s' o a : acknowledge addr w txid s = (s', o) ->
  pv <$> iv_peers s' !! a = if existsb (acked_by a) o then (fun v => PView (pv_network v) (pv_relay v) (pv_wtx v) None 0) <$> (pv <$> iv_peers s !! a) else pv <$> iv_peers s !! a.
Proof.
  unfold acknowledge. destruct (iv_peers s !! addr) as [p|] eqn:E; [|by intros [= <- <-]].
  destruct (ip_outbox p !! w) as [t|]; [|by intros [= <- <-]]. intros [= <- <-]. cbn [existsb acked_by set_peers iv_peers].
  destruct (N.eqb_spec addr a) as [->|NE]; cbn [orb]; [rewrite lookup_insert, E; done|by rewrite lookup_insert_ne].
Qed.
Lemma getdata_views addr is a : forall s s' o, getdata addr is s = (s', o) ->
  pv <$> iv_peers s' !! a = if existsb (acked_by a) o then (fun v => PView (pv_network v) (pv_relay v) (pv_wtx v) None 0) <$> (pv <$> iv_peers s !! a) else pv <$> iv_peers s !! a.
Proof.
  induction is as [|i is IH]; intros s s' o; cbn [getdata]; [by intros [= <- <-]|].
  destruct (getdata_one addr i s) as [s1 o1] eqn:A. destruct (getdata addr is s1) as [s2 o2] eqn:B. intros [= <- <-].
  apply IH in B. assert (E : pv <$> iv_peers s1 !! a = if existsb (acked_by a) o1 then (fun v => PView (pv_network v) (pv_relay v) (pv_wtx v) None 0) <$> (pv <$> iv_peers s !! a) else pv <$> iv_peers s !! a).
  { destruct i as [id|id|w|h|]; cbn [getdata_one] in A; try (by injection A as <- <-).
    1,2: destruct (find_txid id (iv_mempool s)) as [t|]; [|by injection A as <- <-];
         destruct (acknowledge addr (t_wid t) (Some id) s) as [s3 o3] eqn:K; injection A as <- <-; cbn [existsb acked_by orb]; by eapply acknowledge_views.
    destruct (acknowledge addr w None s) as [s3 o3] eqn:K. injection A as <- <-. rewrite existsb_app.
    replace (existsb (acked_by a) (match iv_mempool s !! w with Some t => [IoTx addr t] | None => [] end)) with false by by destruct (iv_mempool s !! w).
    cbn [orb]. by eapply acknowledge_views. }
  rewrite B, existsb_app, E. destruct (existsb (acked_by a) o1), (existsb (acked_by a) o2); cbn [orb]; try done.
  by destruct (iv_peers s !! a).
Qed.

Lemma step_views a o s s' x : inv_ok s -> inv_step o s = Val (s', x) -> pv <$> iv_peers s' !! a = view_step a o x (pv <$> iv_peers s !! a).
Proof.
  intros I. destruct o as [a' n r w|a'|hs|b hof|a' is|now th pick|t|h]; cbn [inv_step view_step].
  - unfold inv_negotiated, schedule_tick. intros [= <- <-]. cbn [set_peers iv_peers]. destruct (N.eqb_spec a' a) as [->|NE]; [by rewrite lookup_insert|by rewrite lookup_insert_ne].
  - intros [= <- <-]. cbn [set_peers iv_peers]. destruct (N.eqb_spec a' a) as [->|NE]; [by rewrite lookup_delete|by rewrite lookup_delete_ne].
  - intros X. destruct (blocks_reverted_facts _ _ _ _ I X) as (_ & _ & _ & _ & _ & K & _). rewrite existsb_zero by apply K. by eapply blocks_reverted_views.
  - intros X. pose proof (received_block_views _ _ _ _ _ X) as V. rewrite existsb_zero; [apply V|].
    apply received_block_facts in X as [(-> & -> & _)|(t & Et & [(-> & -> & _)|(h & _ & [(_ & -> & ->)|(D & R1 & R2 & P & S & L)])])]; try done.
    apply count_zero. intros y Hy. by destruct (r_outs _ _ _ P y Hy) as [(? & ? & ? & ->)|(? & ? & ? & ? & _ & _ & _ & ->)].
  - intros [= X]. by eapply getdata_views.
  - intros X. apply inv_timer_facts in X. destruct (iv_peers s !! a) as [p|] eqn:E.
    + destruct (t_peers _ _ _ _ _ X a p E) as (p' & o' & Q & -> & Fl & _).
      assert (C : count (announces_to a) x = count (announces_to a) o').
      { apply (count_filter_about _ a); [|done]. intros z Hz. unfold about. by rewrite Hz. }
      assert (C' : count (drops a) x = count (drops a) o').
      { apply (count_filter_about _ a); [|done]. intros z Hz. unfold about. by rewrite Hz, orb_true_r. }
      rewrite !existsb_count, C, C'.
      apply peer_tick_facts in Q as [(-> & ->)|[(-> & -> & L)|(invs & _ & -> & -> & L & T & _)]]; [done| |];
        rewrite !count_cons, !count_nil; cbn [announces_to drops]; rewrite ?N.eqb_refl; done.
    + rewrite (t_nopeer _ _ _ _ _ X a E). destruct (existsb (drops a) x), (existsb (announces_to a) x); reflexivity.
  - destruct (announce t s) as [s1 x1] eqn:A. intros [= <- <-]. destruct (announce_facts _ _ _ _ A) as (-> & _). cbn. by eapply announce_views.
  - unfold get_block, schedule_tick. intros [= <- <-]. cbn. by destruct (iv_remaining s !! h).
Qed.

Lemma run_views a os : forall s s' xs, inv_ok s -> inv_run os s = Val (s', xs) -> pv <$> iv_peers s' !! a = views a os xs (pv <$> iv_peers s !! a).
Proof.
  induction os as [|o os IH]; intros s s' xs I R.
  - cbn in R. by injection R as <- <-.
  - apply run_cons in R as (s1 & x & xs1 & E & R & ->). cbn [views]. rewrite <- (step_views a o s s1 x I E). apply IH; [by eapply inv_step_ok|done].
Qed.
Lemma reach_views a os s outs : inv_reach os s outs -> views a os outs None = pv <$> iv_peers s !! a.
Proof. intros R. by rewrite (run_views a os inv0 s outs inv0_ok R). Qed.

(** ** Requested blocks *)
Definition servers (peers : gmap N ipeer) : list N := map fst (List.filter (fun ap : N * ipeer => ip_network ap.2) (map_to_list peers)).
Lemma elem_servers peers a : a ∈ servers peers <-> exists p, peers !! a = Some p /\ ip_network p = true.
Proof.
  unfold servers. rewrite elem_of_list_fmap. split.
  - intros ([a' p] & -> & H). apply elem_of_list_In, List.filter_In in H as [H E]. apply elem_of_list_In, elem_of_map_to_list in H. by exists p.
  - intros (p & H & E). exists (a, p). split; [done|]. apply elem_of_list_In, List.filter_In. split; [|done]. by apply elem_of_list_In, elem_of_map_to_list.
Qed.

Lemma request_blocks_spec now pick peers r r' o : request_blocks now pick peers r = (r', o) ->
  exists target : N -> option N -> option N,
    (forall h t a, target h t = Some a -> default 0 t + 15000 <= now /\ a ∈ servers peers) /\
    (forall h t, default 0 t + 15000 <= now -> servers peers <> [] -> is_Some (target h t)) /\
    (forall h, r' !! h = (fun t => if target h t then Some now else t) <$> r !! h) /\
    o = concat (map (fun '(h, t) => match target h t with Some a => [IoGetData a h; IoTimer 15000] | None => [] end) (map_to_list r)).
Proof.
  unfold request_blocks. fold (servers peers). intros [= <- <-]. eexists. split; [|split; [|split; [|reflexivity]]].
  - intros h t a. cbn beta. destruct (N.leb_spec request_timeout (now - default 0 t)) as [L|L]; [|done]. unfold request_timeout in L.
    intros E. split; [lia|]. destruct (pick h (servers peers)) as [b|].
    + case_bool_decide; [by injection E as <-|]. destruct (servers peers); [done|]. injection E as <-. by left.
    + destruct (servers peers); [done|]. injection E as <-. by left.
  - intros h t L NE. cbn beta. unfold request_timeout. destruct (N.leb_spec 15000 (now - default 0 t)); [|lia].
    destruct (pick h (servers peers)) as [b|]; [case_bool_decide; [by eexists|]|]; (destruct (servers peers); [done|by eexists]).
  - intros h. rewrite map_lookup_imap. by destruct (r !! h).
Qed.

(** The requests of a timer tick, in terms of the state. *)
Lemma timer_requests now th pick s s' x : inv_timer now th pick s = Val (s', x) ->
  (forall h, iv_remaining s' !! h = want_step h (ITimer now th pick) x (iv_remaining s !! h)) /\
  (forall h, (count (asks h) x <= 1)%nat) /\
  (forall a h, IoGetData a h ∈ x -> exists t p, iv_remaining s !! h = Some t /\ default 0 t + 15000 <= now /\ iv_peers s' !! a = Some p /\ ip_network p = true) /\
  (forall h t a p, iv_remaining s !! h = Some t -> default 0 t + 15000 <= now -> iv_peers s' !! a = Some p -> ip_network p = true ->
     exists b, IoGetData b h ∈ x /\ IoTimer 15000 ∈ x).
Proof.
  intros X. revert X. unfold inv_timer. set (due := inv_idle_timeout <=? now - default 0 (iv_tick s)).
  set (s1 := if due then set_tick (Some now) s else s).
  assert (E1 : iv_mempool s1 = iv_mempool s /\ iv_remaining s1 = iv_remaining s /\ iv_peers s1 = iv_peers s) by (unfold s1; destruct due; done).
  clearbody s1. destruct E1 as (A1 & A4 & A6).
  cbn [set_confirmed iv_mempool iv_peers iv_remaining set_peers]. rewrite A1, A4, A6.
  destruct (peers_tick now (iv_mempool s) (map_to_list (iv_peers s))) as [[l o2]|] eqn:P; [|done]. cbn [mbind_M].
  destruct (request_blocks now pick (list_to_map l) (iv_remaining s)) as [r o3] eqn:R. intros X. injection X as <- <-.
  destruct (peers_tick_facts _ _ _ _ _ (NoDup_fst_map_to_list _) P) as (_ & _ & P3 & _).
  cbn [set_remaining iv_remaining iv_peers set_peers].
  set (o1 := if due then [IoTimer inv_idle_timeout] else []).
  assert (O1 : forall h, count (asks h) o1 = 0%nat) by (intros h; unfold o1; by destruct due).
  assert (O2 : forall h, count (asks h) o2 = 0%nat).
  { intros h. apply count_zero. intros y Hy. by destruct (P3 y Hy) as [(? & ? & _ & [->|[? ->]])|[? ->]]. }
  assert (In3 : forall a h, IoGetData a h ∈ o1 ++ o2 ++ o3 -> IoGetData a h ∈ o3).
  { intros a h H. apply elem_of_app in H as [H|H]; [|apply elem_of_app in H as [H|H]; [|done]].
    - pose proof (count_zero_in _ _ _ (O1 h) H) as Z. cbn in Z. by rewrite N.eqb_refl in Z.
    - pose proof (count_zero_in _ _ _ (O2 h) H) as Z. cbn in Z. by rewrite N.eqb_refl in Z. }
  destruct (request_blocks_spec _ _ _ _ _ _ R) as (target & T1 & T2 & T3 & T4).
  assert (C3 : forall h, count (asks h) o3 = match iv_remaining s !! h with Some t => if target h t then 1%nat else 0%nat | None => 0%nat end).
  { intros h. assert (G : forall l : list (N * option N), NoDup (map fst l) ->
      count (asks h) (concat (map (fun '(h, t) => match target h t with Some a => [IoGetData a h; IoTimer 15000] | None => [] end) l)) =
      match (list_to_map l : gmap N (option N)) !! h with Some t => if target h t then 1%nat else 0%nat | None => 0%nat end).
    { clear. induction l as [|[k t] l IH]; intros ND; [reflexivity|]. cbn [map fst] in ND. apply NoDup_cons in ND as [Ni ND].
      cbn [map concat list_to_map foldr fst snd]. rewrite count_app, IH by done. destruct (decide (k = h)) as [->|NE].
      - cbn [fst snd]. rewrite lookup_insert, (not_elem_of_list_to_map_1 l h) by done. destruct (target h t); [|done].
        rewrite !count_cons, count_nil. cbn [asks]. by rewrite N.eqb_refl.
      - cbn [fst snd]. rewrite lookup_insert_ne by done. destruct (target k t); [|done].
        rewrite !count_cons, count_nil. cbn [asks]. by rewrite (proj2 (N.eqb_neq k h)). }
    rewrite T4, G by apply NoDup_fst_map_to_list. by rewrite list_to_map_to_list. }
  assert (C : forall h, count (asks h) (o1 ++ o2 ++ o3) = match iv_remaining s !! h with Some t => if target h t then 1%nat else 0%nat | None => 0%nat end).
  { intros h. by rewrite !count_app, O1, O2, C3. }
  split; [|split; [|split]].
  - intros h. cbn [want_step]. rewrite existsb_count, C, T3. destruct (iv_remaining s !! h) as [t|]; [|done]. cbn. by destruct (target h t).
  - intros h. rewrite C. destruct (iv_remaining s !! h) as [t|]; [|lia]. destruct (target h t); lia.
  - intros a h H. apply In3 in H. rewrite T4 in H. apply elem_of_list_In, in_concat in H as (y & Hy & H).
    apply in_map_iff in Hy as ([k t] & <- & Hk). apply elem_of_list_In in H. apply elem_of_list_In, elem_of_map_to_list in Hk.
    destruct (target k t) as [b|] eqn:Et; [|by apply elem_of_nil in H]. apply elem_of_cons in H as [[= -> ->]|H].
    2:{ by apply elem_of_list_singleton in H. }
    destruct (T1 _ _ _ Et) as [L S]. apply elem_servers in S as (p & Ep & En). by exists t, p.
  - intros h t a p Er L Ep En. assert (S : servers (list_to_map l) <> []).
    { intros E0. assert (S : a ∈ servers (list_to_map l)) by (apply elem_servers; by exists p). rewrite E0 in S. by apply elem_of_nil in S. }
    destruct (T2 h t L S) as [b Eb]. exists b.
    assert (G : forall y, y ∈ [IoGetData b h; IoTimer 15000] -> y ∈ o1 ++ o2 ++ o3).
    { intros y Hy. apply elem_of_app. right. apply elem_of_app. right. rewrite T4. apply elem_of_list_In, in_concat.
      exists [IoGetData b h; IoTimer 15000]. split; [|by apply elem_of_list_In]. apply in_map_iff. exists (h, t). rewrite Eb. split; [done|].
      by apply elem_of_list_In, elem_of_map_to_list. }
    split; apply G; [by left|right; by left].
Qed.

Lemma step_wants h o s s' x : inv_ok s -> inv_step o s = Val (s', x) -> iv_remaining s' !! h = want_step h o x (iv_remaining s !! h).
Proof.
  intros I. destruct o as [a' n r w|a'|hs|b hof|a' is|now th pick|t|k]; cbn [inv_step want_step].
  - by intros [= <- <-].
  - by intros [= <- <-].
  - intros X. by destruct (blocks_reverted_facts _ _ _ _ I X) as (_ & -> & _).
  - intros X. apply received_block_facts in X as [(-> & -> & E)|(t & Et & X)].
    + destruct (N.eqb_spec (b_hash b) h) as [<-|]; [done|done].
    + assert (E : iv_remaining s' = delete (b_hash b) (iv_remaining s)).
      { destruct X as [(-> & _)|(k & _ & [(_ & _ & ->)|(D & R1 & _)])]; [done|done|congruence]. }
      rewrite E. destruct (N.eqb_spec (b_hash b) h) as [<-|NE]; [by rewrite lookup_delete|by rewrite lookup_delete_ne].
  - intros [= X]. apply getdata_fetch in X. by destruct (f_rest _ _ _ _ X) as [ps ->].
  - intros X. by apply timer_requests in X as (-> & _).
  - intros [= <- <-]. done.
  - unfold get_block, schedule_tick. intros [= <- <-]. destruct (N.eqb_spec k h) as [->|NE].
    + destruct (iv_remaining s !! h) as [t|] eqn:E; cbn; [done|by rewrite lookup_insert].
    + destruct (iv_remaining s !! k) as [t|] eqn:E; cbn; [done|by rewrite lookup_insert_ne].
Qed.
Lemma run_wants h os : forall s s' xs, inv_ok s -> inv_run os s = Val (s', xs) -> iv_remaining s' !! h = wants h os xs (iv_remaining s !! h).
Proof.
  induction os as [|o os IH]; intros s s' xs I R.
  - cbn in R. by injection R as <- <-.
  - apply run_cons in R as (s1 & x & xs1 & E & R & ->). cbn [wants]. rewrite <- (step_wants h o s s1 x I E). apply IH; [by eapply inv_step_ok|done].
Qed.
Lemma reach_wants h os s outs : inv_reach os s outs -> wants h os outs None = iv_remaining s !! h.
Proof. intros R. by rewrite (run_wants h os inv0 s outs inv0_ok R). Qed.

(** Only timers ask for blocks. *)
Lemma asks_timer o s s' x a h : inv_ok s -> inv_step o s = Val (s', x) -> IoGetData a h ∈ x -> exists now th pick, o = ITimer now th pick.
Proof.
  intros I. destruct o as [a' n r w|a'|hs|b hof|a' is|now th pick|t|k]; cbn [inv_step]; intros X H; try (by eauto).
  - injection X as <- <-. by apply elem_of_list_singleton in H.
  - injection X as <- <-. by apply elem_of_nil in H.
  - exfalso. revert s s' x I X H. induction hs as [|k hs IH]; intros s s' x I; cbn [blocks_reverted]; [intros [= <- <-] H; by apply elem_of_nil in H|].
    destruct (block_reverted k s) as [[s1 o1]|] eqn:B; [|done]. cbn [mbind_M].
    destruct (blocks_reverted hs s1) as [[s2 o2]|] eqn:R; [|done]. cbn [mbind_M]. intros X. injection X as <- <-. intros H.
    destruct (block_reverted_facts _ _ _ _ I B) as (I1 & _). apply elem_of_app in H as [H|H]; [|by eapply IH].
    revert B. unfold block_reverted. destruct (fee_rollback _ (iv_est s)) as [e|]; [|done]. cbn [mbind_M].
    change (iv_confirmed (set_est e s)) with (iv_confirmed s). destruct (iv_confirmed s !! k) as [ts|]; [|intros [= <- <-]; by apply elem_of_nil in H].
    intros [= B]. revert B. generalize (set_confirmed (delete k (iv_confirmed s)) (set_est e s)). clear -H. revert s1 o1 H.
    induction ts as [|t ts IH]; intros s1 o1 H s0; cbn [revert_txs]; [intros [= <- <-]; by apply elem_of_nil in H|].
    destruct (announce t s0) as [s2 o2] eqn:A. destruct (revert_txs ts s2) as [s3 o3] eqn:R. intros [= <- <-].
    destruct (announce_facts _ _ _ _ A) as (-> & _). cbn in H. apply elem_of_cons in H as [H|H]; [done|].
    apply elem_of_cons in H as [H|H]; [done|]. by eapply IH.
  - exfalso. apply received_block_facts in X as [(-> & -> & _)|(t & Et & [(-> & -> & _)|(k & _ & [(_ & -> & ->)|(D & R1 & R2 & P & S & L)])])]; try (by apply elem_of_nil in H).
    by destruct (r_outs _ _ _ P _ H) as [(? & ? & ? & ?)|(? & ? & ? & ? & _ & _ & _ & ?)].
  - injection X as X. apply getdata_fetch in X. by destruct (f_outs _ _ _ _ X _ H) as [[? ?]|[? ?]].
  - destruct (announce t s) as [s1 x1] eqn:A. injection X as <- <-. destruct (announce_facts _ _ _ _ A) as (-> & _). by apply elem_of_list_singleton in H.
  - injection X as <- <-. by apply elem_of_list_singleton in H.
Qed.

Lemma inv_run_app os o s : inv_run (os ++ [o]) s = ('(s1, xs) <-- inv_run os s ;; '(s2, x) <-- inv_step o s1 ;; Val (s2, xs ++ [x])).
Proof.
  revert s. induction os as [|o' os IH]; intros s; cbn [inv_run app].
  - cbn [mbind_M]. by destruct (inv_step o s) as [[s2 x]|].
  - destruct (inv_step o' s) as [[s1 x]|]; [|done]. cbn [mbind_M]. rewrite IH.
    destruct (inv_run os s1) as [[s2 xs]|]; [|done]. cbn [mbind_M]. by destruct (inv_step o s2) as [[s3 y]|].
Qed.
Lemma reach_snoc os s outs o s' x : inv_reach os s outs -> inv_step o s = Val (s', x) -> inv_reach (os ++ [o]) s' (outs ++ [x]).
Proof. intros R E. unfold inv_reach. rewrite inv_run_app. rewrite R. cbn [mbind_M]. by rewrite E. Qed.

Lemma requested os s outs o s' x a h : inv_reach os s outs -> inv_step o s = Val (s', x) -> IoGetData a h ∈ x ->
  exists now th pick last v, o = ITimer now th pick /\ wants h os outs None = Some last /\ default 0 last + 15000 <= now /\
    views a (os ++ [o]) (outs ++ [x]) None = Some v /\ pv_network v = true /\ count (asks h) x = 1%nat.
Proof.
  intros R E H. pose proof (inv_run_ok _ _ _ _ inv0_ok R) as I. destruct (asks_timer _ _ _ _ _ _ I E H) as (now & th & pick & ->).
  pose proof (reach_snoc _ _ _ _ _ _ R E) as R'. cbn [inv_step] in E. destruct (timer_requests _ _ _ _ _ _ E) as (_ & Q2 & Q3 & _).
  destruct (Q3 a h H) as (t & p & Er & L & Ep & En). exists now, th, pick, t, (pv p).
  rewrite (reach_wants h _ _ _ R), (reach_views a _ _ _ R'), Ep. do 3 (split; [done|]). split; [done|]. split; [done|].
  assert (0 < count (asks h) x)%nat by (eapply count_in; [exact H|cbn; apply N.eqb_refl]). specialize (Q2 h). lia.
Qed.
Lemma repeated os s outs now th pick s' x h last a v : inv_reach os s outs -> inv_step (ITimer now th pick) s = Val (s', x) ->
  wants h os outs None = Some last -> default 0 last + 15000 <= now ->
  views a (os ++ [ITimer now th pick]) (outs ++ [x]) None = Some v -> pv_network v = true ->
  exists b, IoGetData b h ∈ x /\ IoTimer 15000 ∈ x.
Proof.
  intros R E W L V N1. pose proof (reach_snoc _ _ _ _ _ _ R E) as R'. cbn [inv_step] in E. destruct (timer_requests _ _ _ _ _ _ E) as (_ & _ & _ & Q4).
  rewrite (reach_wants h _ _ _ R) in W. rewrite (reach_views a _ _ _ R') in V. destruct (iv_peers s' !! a) as [p|] eqn:Ep; [|done]. injection V as <-.
  by eapply Q4.
Qed.

(** ** Announcements *)
Lemma outbox_announced os s outs a p w now th pick s' x : inv_reach os s outs -> iv_peers s !! a = Some p -> is_Some (ip_outbox p !! w) ->
  inv_step (ITimer now th pick) s = Val (s', x) -> default 0 (ip_last p) + 60000 <= now ->
  ((3 <= ip_attempts p)%nat /\ IoTimedOut a ∈ x) \/ (ip_attempts p < 3)%nat /\ exists invs t, iv_mempool s !! w = Some t /\ IoInv a invs ∈ x /\ (if ip_wtx p then InvWTx w else InvTx (t_id t)) ∈ invs.
Proof.
  intros R Ep Hw ET L. pose proof (inv_run_ok _ _ _ _ inv0_ok R) as I2. cbn [inv_step] in ET. apply inv_timer_facts in ET.
  destruct (t_peers _ _ _ _ _ ET a p Ep) as (p' & o' & Q & _ & _ & Sub). destruct I2 as (I2 & I3 & _). destruct (I3 a p w Ep Hw) as [t Ht].
  unfold peer_tick in Q. case_bool_decide as E0.
  { rewrite E0, lookup_empty in Hw. by destruct Hw. }
  destruct (N.ltb_spec (now - default 0 (ip_last p)) rebroadcast_timeout) as [L'|_]; [unfold rebroadcast_timeout in L'; lia|].
  destruct (Nat.leb_spec max_attempts (ip_attempts p)) as [At|At]; [injection Q as <- <-; left; split; [exact At|apply Sub; by left]|].
  destruct (announced (iv_mempool s) p) as [invs|] eqn:An; [|done]. cbn [mbind_M] in Q. injection Q as <- <-. right. split; [exact At|]. exists invs, t. split; [done|].
  split; [apply Sub; by left|]. pose proof (announced_all _ _ _ _ _ An Hw Ht) as X. by rewrite (I2 w t Ht) in X.
Qed.

(** A transaction is put into the outbox of the peer by one step; then it is
    announced until something happens to it. *)
Lemma announced_session os s outs o s1 y a p1 w os' s2 xs now th pick s3 x :
  inv_reach os s outs -> inv_step o s = Val (s1, y) -> iv_peers s1 !! a = Some p1 -> is_Some (ip_outbox p1 !! w) ->
  inv_run os' s1 = Val (s2, xs) -> Forall (same_session a) os' ->
  count (acked_by a) (concat xs) = 0%nat -> count (drops a) (concat xs) = 0%nat -> ~ includes w (concat xs) ->
  inv_step (ITimer now th pick) s2 = Val (s3, x) ->
  exists v, views a (os ++ o :: os') (outs ++ y :: xs) None = Some v /\
    (default 0 (pv_last v) + 60000 <= now ->
      ((3 <= pv_tries v)%nat /\ IoTimedOut a ∈ x) \/ (pv_tries v < 3)%nat /\ exists invs t, iv_mempool s2 !! w = Some t /\ IoInv a invs ∈ x /\ (if pv_wtx v then InvWTx w else InvTx (t_id t)) ∈ invs).
Proof.
  intros R E Ep Hw R' F Ca Cd NI ET. pose proof (reach_snoc _ _ _ _ _ _ R E) as R1. pose proof (inv_run_ok _ _ _ _ inv0_ok R1) as I1.
  destruct (run_outbox a w os' s1 s2 xs p1 I1 F R' Ep Hw Ca Cd NI) as (p2 & Ep2 & Hw2).
  assert (R2 : inv_reach (os ++ o :: os') s2 (outs ++ y :: xs)).
  { clear -R1 R'. replace (os ++ o :: os') with ((os ++ [o]) ++ os') by by rewrite <- app_assoc.
    replace (outs ++ y :: xs) with ((outs ++ [y]) ++ xs) by by rewrite <- app_assoc.
    unfold inv_reach in *. revert R1. generalize inv0 as s0, (os ++ [o]) as l, (outs ++ [y]) as k. intros s0 l. revert s0.
    induction l as [|q l IH]; intros s0 k R1; [cbn in R1; by injection R1 as <- <-|].
    apply run_cons in R1 as (s3 & z & zs & E & R1 & ->). cbn [app inv_run]. rewrite E. cbn [mbind_M]. by rewrite (IH _ _ R1). }
  exists (pv p2). split; [by rewrite (reach_views a _ _ _ R2), Ep2|]. intros L.
  exact (outbox_announced _ _ _ _ _ _ _ _ _ _ _ R2 Ep2 Hw2 ET L).
Qed.

(** Only tracked transactions are announced, by the id the peer wants. *)
Lemma announced_sound m p invs i : announced m p = Val invs -> i ∈ invs ->
  exists w t, is_Some (ip_outbox p !! w) /\ m !! w = Some t /\ i = (if ip_wtx p then InvWTx (t_wid t) else InvTx (t_id t)).
Proof.
  unfold announced. intros A Hi.
  assert (G : forall w, w ∈ map fst (map_to_list (ip_outbox p)) -> is_Some (ip_outbox p !! w)).
  { intros w Hw. apply elem_of_list_fmap in Hw as ([w' t] & -> & Hw). apply elem_of_map_to_list in Hw. by eexists. }
  revert invs A Hi G. generalize (map fst (map_to_list (ip_outbox p))). intros l. induction l as [|u l IH]; intros invs A Hi G; cbn in A.
  - injection A as <-. by apply elem_of_nil in Hi.
  - match type of A with mbind_M ?x _ = _ => destruct x as [k|] eqn:Ek; [|done] end. cbn [mbind_M] in A.
    destruct (m !! u) as [t|] eqn:Eu; [|done]. injection A as <-. apply elem_of_cons in Hi as [->|Hi].
    + exists u, t. split; [apply G; by left|done].
    + eapply IH; [reflexivity|done|]. intros w Hw. apply G. by right.
Qed.
Lemma announced_only os s outs o s' x a invs i : inv_reach os s outs -> inv_step o s = Val (s', x) -> IoInv a invs ∈ x -> i ∈ invs ->
  exists v w t, views a os outs None = Some v /\ iv_mempool s !! w = Some t /\ i = (if pv_wtx v then InvWTx w else InvTx (t_id t)).
Proof.
  intros R E H Hi. pose proof (inv_run_ok _ _ _ _ inv0_ok R) as I.
  assert (T : exists now th pick, o = ITimer now th pick).
  { destruct o as [a' n r w|a'|hs|b hof|a' is|now th pick|t|k]; try (by eauto); exfalso;
      (assert (Z : (0 < count (announces_to a) x)%nat) by (eapply count_in; [exact H|cbn; apply N.eqb_refl])); cbn [inv_step] in E.
    - injection E as <- <-. cbn in Z. lia.
    - injection E as <- <-. cbn in Z. lia.
    - destruct (blocks_reverted_facts _ _ _ _ I E) as (_ & _ & _ & _ & _ & K & _). destruct (K a) as (K1 & _). lia.
    - apply received_block_facts in E as [(-> & -> & _)|(t & Et & [(-> & -> & _)|(h & _ & [(_ & -> & ->)|(D & R1 & R2 & P & S & L)])])]; try (cbn in Z; lia).
      by destruct (r_outs _ _ _ P _ H) as [(? & ? & ? & ?)|(? & ? & ? & ? & _ & _ & _ & ?)].
    - injection E as E. apply getdata_fetch in E. by destruct (f_outs _ _ _ _ E _ H) as [[? ?]|[? ?]].
    - destruct (announce t s) as [s1 x1] eqn:A. injection E as <- <-. destruct (announce_facts _ _ _ _ A) as (-> & _). cbn in Z. lia.
    - injection E as <- <-. cbn in Z. lia. }
  destruct T as (now & th & pick & ->). cbn [inv_step] in E. apply inv_timer_facts in E. rewrite (reach_views a _ _ _ R).
  destruct (iv_peers s !! a) as [p|] eqn:Ep.
  2:{ destruct (t_outs _ _ _ _ _ E _ H) as [(b & q & Eb & [Q|[j Q]])|[[? Q]|(? & ? & Q)]]; try done. injection Q as <- _. congruence. }
  destruct (t_peers _ _ _ _ _ E a p Ep) as (p' & o' & Q & _ & Fl & _).
  assert (H' : IoInv a invs ∈ o').
  { assert (X : IoInv a invs ∈ List.filter (about a) o').
    { rewrite <- Fl. apply elem_of_list_In, List.filter_In. split; [by apply elem_of_list_In|]. unfold about. cbn. by rewrite N.eqb_refl. }
    apply elem_of_list_In, List.filter_In in X as [X _]. by apply elem_of_list_In. }
  apply peer_tick_facts in Q as [(_ & ->)|[(_ & -> & _)|(j & An & -> & _)]]; [by apply elem_of_nil in H'|by apply elem_of_list_singleton in H'|].
  apply elem_of_cons in H' as [[= ->]|H']; [|by apply elem_of_list_singleton in H'].
  destruct (announced_sound _ _ _ _ An Hi) as (w & t & _ & Ht & ->). exists (pv p), w, t. split; [done|]. split; [done|].
  destruct I as (I1 & _). by rewrite (I1 w t Ht).
Qed.

(** ** Served transactions *)
Lemma find_txid_spec id m : match find_txid id m with
  | Some t => t_id t = id /\ exists w, m !! w = Some t
  | None => forall w t, m !! w = Some t -> t_id t <> id end.
Proof.
  unfold find_txid. destruct (sortN _) as [|w l] eqn:E.
  - intros w t Hw Eid. assert (X : w ∈ sortN (map fst (List.filter (fun p : N * tx => t_id p.2 =? id) (map_to_list m)))).
    { rewrite sortN_perm. apply elem_of_list_fmap. exists (w, t). split; [done|]. apply elem_of_list_In, List.filter_In.
      split; [by apply elem_of_list_In, elem_of_map_to_list|]. cbn. by apply N.eqb_eq. }
    rewrite E in X. by apply elem_of_nil in X.
  - assert (X : w ∈ sortN (map fst (List.filter (fun p : N * tx => t_id p.2 =? id) (map_to_list m)))) by (rewrite E; by left).
    rewrite sortN_perm in X. apply elem_of_list_fmap in X as ([w' t] & -> & X). apply elem_of_list_In, List.filter_In in X as [X Y].
    apply elem_of_list_In, elem_of_map_to_list in X. cbn in *. rewrite X. split; [by apply N.eqb_eq|]. by eexists.
Qed.
Lemma acknowledge_outs addr w txid s s' o : acknowledge addr w txid s = (s', o) ->
  iv_mempool s' = iv_mempool s /\ forall x, x ∈ o -> exists id, x = IoStatus id (StAcknowledged addr).
Proof.
  unfold acknowledge. destruct (iv_peers s !! addr) as [p|]; [|intros [= <- <-]; split; [done|]; intros x H; by apply elem_of_nil in H].
  destruct (ip_outbox p !! w); intros [= <- <-]; (split; [done|]); intros x H; [apply elem_of_list_singleton in H as ->; by eexists|by apply elem_of_nil in H].
Qed.
Lemma getdata_served addr is : forall s s' x, (forall w t, iv_mempool s !! w = Some t -> t_wid t = w) -> getdata addr is s = (s', x) ->
  (forall b t, IoTx b t ∈ x -> b = addr /\ iv_mempool s !! t_wid t = Some t /\ exists i, i ∈ is /\ names i t) /\
  (forall i w t, i ∈ is -> iv_mempool s !! w = Some t -> names i t -> exists t', IoTx addr t' ∈ x /\ names i t').
Proof.
  induction is as [|i is IH]; intros s s' x Hw; cbn [getdata].
  { intros [= <- <-]. split; [intros b t H; by apply elem_of_nil in H|intros i w t H; by apply elem_of_nil in H]. }
  destruct (getdata_one addr i s) as [s1 o1] eqn:A. destruct (getdata addr is s1) as [s2 o2] eqn:B. intros [= <- <-].
  assert (G : iv_mempool s1 = iv_mempool s /\
    (forall b t, IoTx b t ∈ o1 -> b = addr /\ iv_mempool s !! t_wid t = Some t /\ names i t) /\
    (forall w t, iv_mempool s !! w = Some t -> names i t -> exists t', IoTx addr t' ∈ o1 /\ names i t')).
  { destruct i as [id|id|w|h|]; cbn [getdata_one] in A.
    4,5: injection A as <- <-; split; [done|]; split; [intros b t H; by apply elem_of_nil in H|intros w t _ []].
    1,2: pose proof (find_txid_spec id (iv_mempool s)) as F; destruct (find_txid id (iv_mempool s)) as [t|];
      [|injection A as <- <-; split; [done|]; split; [intros b t H; by apply elem_of_nil in H|intros w t H1 H2; by destruct (F w t H1)]];
      destruct (acknowledge addr (t_wid t) (Some id) s) as [s3 o3] eqn:K; injection A as <- <-; destruct (acknowledge_outs _ _ _ _ _ _ K) as [-> K2];
      destruct F as [F1 [w0 F2]]; split; [done|]; split;
      [intros b t' H; apply elem_of_cons in H as [[= -> ->]|H]; [split; [done|]; split; [by rewrite (Hw _ _ F2)|done]|by destruct (K2 _ H)]
      |intros w t' _ _; exists t; split; [by left|done]].
    destruct (acknowledge addr w None s) as [s3 o3] eqn:K. injection A as <- <-. destruct (acknowledge_outs _ _ _ _ _ _ K) as [-> K2]. split; [done|]. split.
    - intros b t H. apply elem_of_app in H as [H|H]; [|by destruct (K2 _ H)].
      destruct (iv_mempool s !! w) as [t'|] eqn:E; [|by apply elem_of_nil in H]. apply elem_of_list_singleton in H as [= -> ->].
      rewrite (Hw _ _ E). split; [done|]. split; [done|]. by apply Hw.
    - intros w' t E Hn. cbn [names] in Hn. rewrite (Hw _ _ E) in Hn. subst w'. rewrite E. exists t. split; [by left|]. by apply Hw. }
  destruct G as (Em & G1 & G2). destruct (IH s1 s2 o2) as [I1 I2]; [by rewrite Em|done|]. rewrite Em in I1, I2. split.
  - intros b t H. apply elem_of_app in H as [H|H].
    + destruct (G1 b t H) as (Q1 & Q2 & Q3). split; [done|]. split; [done|]. exists i. split; [by left|done].
    + destruct (I1 b t H) as (Q1 & Q2 & j & Hj & Q3). split; [done|]. split; [done|]. exists j. split; [by right|done].
  - intros j w t Hj E Hn. apply elem_of_cons in Hj as [->|Hj].
    + destruct (G2 w t E Hn) as (t' & H & Hn'). exists t'. split; [apply elem_of_app; by left|done].
    + destruct (I2 j w t Hj E Hn) as (t' & H & Hn'). exists t'. split; [apply elem_of_app; by right|done].
Qed.
Lemma served os s outs a is s' x : inv_reach os s outs -> inv_step (IGetDataMsg a is) s = Val (s', x) ->
  (forall b t, IoTx b t ∈ x -> b = a /\ iv_mempool s !! t_wid t = Some t /\ exists i, i ∈ is /\ names i t) /\
  (forall i w t, i ∈ is -> iv_mempool s !! w = Some t -> names i t -> exists t', IoTx a t' ∈ x /\ names i t').
Proof.
  intros R E. destruct (inv_run_ok _ _ _ _ inv0_ok R) as (I & _). cbn [inv_step] in E. injection E as E. exact (getdata_served a is s s' x I E).
Qed.

Lemma submitted_announced os s outs t s1 y a v os' s2 xs now th pick s3 x :
  inv_reach os s outs -> inv_step (IAnnounce t) s = Val (s1, y) ->
  views a os outs None = Some v -> pv_relay v = true ->
  inv_run os' s1 = Val (s2, xs) -> Forall (same_session a) os' ->
  count (acked_by a) (concat xs) = 0%nat -> count (drops a) (concat xs) = 0%nat -> ~ includes (t_wid t) (concat xs) ->
  inv_step (ITimer now th pick) s2 = Val (s3, x) ->
  exists v2, views a (os ++ IAnnounce t :: os') (outs ++ y :: xs) None = Some v2 /\
    (default 0 (pv_last v2) + 60000 <= now ->
      ((3 <= pv_tries v2)%nat /\ IoTimedOut a ∈ x) \/ (pv_tries v2 < 3)%nat /\ exists invs t', iv_mempool s2 !! t_wid t = Some t' /\ IoInv a invs ∈ x /\ (if pv_wtx v2 then InvWTx (t_wid t) else InvTx (t_id t')) ∈ invs).
Proof.
  intros R E V Vr. rewrite (reach_views a _ _ _ R) in V. destruct (iv_peers s !! a) as [p|] eqn:Ep; [|done]. injection V as <-. cbn in Vr.
  pose proof E as E'. cbn [inv_step] in E'. destruct (announce t s) as [s0 o] eqn:A. injection E' as -> ->.
  destruct (announce_facts _ _ _ _ A) as (_ & _ & _ & _ & _ & _ & Eps).
  apply (announced_session os s outs (IAnnounce t) s1 y a (set_outbox (<[t_wid t := t_id t]> (ip_outbox p)) p)); [done|exact E| |].
  - rewrite Eps, lookup_fmap, Ep. cbn. by rewrite Vr.
  - cbn. rewrite lookup_insert. by eexists.
Qed.
Lemma newpeer_announced os s outs a n r wtx w s1 y os' s2 xs now th pick s3 x :
  inv_reach os s outs -> tracked w s -> inv_step (INegotiated a n r wtx) s = Val (s1, y) ->
  inv_run os' s1 = Val (s2, xs) -> Forall (same_session a) os' ->
  count (acked_by a) (concat xs) = 0%nat -> count (drops a) (concat xs) = 0%nat -> ~ includes w (concat xs) ->
  inv_step (ITimer now th pick) s2 = Val (s3, x) ->
  exists v2, views a (os ++ INegotiated a n r wtx :: os') (outs ++ y :: xs) None = Some v2 /\
    (default 0 (pv_last v2) + 60000 <= now ->
      ((3 <= pv_tries v2)%nat /\ IoTimedOut a ∈ x) \/ (pv_tries v2 < 3)%nat /\ exists invs t', iv_mempool s2 !! w = Some t' /\ IoInv a invs ∈ x /\ (if pv_wtx v2 then InvWTx w else InvTx (t_id t')) ∈ invs).
Proof.
  intros R [t Ht] E. pose proof E as E'. cbn [inv_step] in E'. unfold inv_negotiated, schedule_tick in E'. injection E' as E1 _.
  eapply announced_session; [exact R|exact E| |].
  - rewrite <- E1. cbn [set_peers iv_peers]. by rewrite lookup_insert.
  - cbn [ip_outbox]. rewrite lookup_fmap, Ht. by eexists.
Qed.

(** Who is sent announcements, and who is dropped. *)
Lemma tries os s outs o s' x a : inv_reach os s outs -> inv_step o s = Val (s', x) ->
  (forall invs, IoInv a invs ∈ x -> exists now th pick v, o = ITimer now th pick /\ views a os outs None = Some v /\
     (pv_tries v < 3)%nat /\ default 0 (pv_last v) + 60000 <= now /\ invs <> []) /\
  (IoTimedOut a ∈ x -> exists now th pick v, o = ITimer now th pick /\ views a os outs None = Some v /\
     (3 <= pv_tries v)%nat /\ default 0 (pv_last v) + 60000 <= now).
Proof.
  intros R E. pose proof (inv_run_ok _ _ _ _ inv0_ok R) as I.
  destruct o as [a' n r w|a'|hs|b hof|a' is|now th pick|t|k]; cbn [inv_step] in E.
  6:{ apply inv_timer_facts in E. rewrite (reach_views a _ _ _ R). destruct (iv_peers s !! a) as [p|] eqn:Ep.
    2:{ split; [intros invs H|intros H]; exfalso;
        destruct (t_outs _ _ _ _ _ E _ H) as [(b & q & Eb & [Q|[j Q]])|[[? Q]|(? & ? & Q)]]; try done; injection Q as <-; congruence. }
    destruct (t_peers _ _ _ _ _ E a p Ep) as (p' & o' & Q & _ & Fl & _).
    assert (H' : forall y, about a y = true -> y ∈ x -> y ∈ o').
    { intros y Y Hy. assert (X : y ∈ List.filter (about a) o').
      { rewrite <- Fl. apply elem_of_list_In, List.filter_In. split; [by apply elem_of_list_In|done]. }
      apply elem_of_list_In, List.filter_In in X as [X _]. by apply elem_of_list_In. }
    unfold peer_tick in Q. case_bool_decide as E0.
    { injection Q as <- <-. split; [intros invs H|intros H]; apply H' in H; try (by apply elem_of_nil in H); unfold about; cbn; by rewrite N.eqb_refl, ?orb_true_r. }
    destruct (N.ltb_spec (now - default 0 (ip_last p)) rebroadcast_timeout) as [L|L].
    { injection Q as <- <-. split; [intros invs H|intros H]; apply H' in H; try (by apply elem_of_nil in H); unfold about; cbn; by rewrite N.eqb_refl, ?orb_true_r. }
    assert (L' : default 0 (ip_last p) + 60000 <= now) by (unfold rebroadcast_timeout in L; lia).
    destruct (Nat.leb_spec max_attempts (ip_attempts p)) as [At|At].
    { injection Q as <- <-. split.
      - intros invs H. apply H' in H; [by apply elem_of_list_singleton in H|]. unfold about; cbn; by rewrite N.eqb_refl.
      - intros _. exists now, th, pick, (pv p). done. }
    destruct (announced (iv_mempool s) p) as [invs|] eqn:An; [|done]. cbn [mbind_M] in Q. injection Q as <- <-. split.
    - intros invs' H. apply H' in H; [|unfold about; cbn; by rewrite N.eqb_refl]. apply elem_of_cons in H as [[= ->]|H]; [|by apply elem_of_list_singleton in H].
      exists now, th, pick, (pv p). do 4 (split; [done|]). intros ->.
      destruct (map_choose (ip_outbox p) E0) as (w & v & Hw). destruct I as (_ & I3 & _).
      destruct (I3 a p w Ep ltac:(by eexists)) as [t Ht]. pose proof (announced_all _ _ _ w t An ltac:(by eexists) Ht) as Y. by apply elem_of_nil in Y.
    - intros H. apply H' in H; [|unfold about; cbn; by rewrite N.eqb_refl, ?orb_true_r]. apply elem_of_cons in H as [H|H]; [done|by apply elem_of_list_singleton in H]. }
  all: assert (Z : count (announces_to a) x = 0%nat /\ count (drops a) x = 0%nat).
  1:{ by injection E as <- <-. }
  2:{ by injection E as <- <-. }
  3:{ destruct (blocks_reverted_facts _ _ _ _ I E) as (_ & _ & _ & _ & _ & K & _). destruct (K a) as (K1 & _ & K2). done. }
  4:{ apply received_block_facts in E as [(-> & -> & _)|(t & Et & [(-> & -> & _)|(h & _ & [(_ & -> & ->)|(D & R1 & R2 & P & S & L)])])]; try done.
    split; apply count_zero; intros y Hy; by destruct (r_outs _ _ _ P _ Hy) as [(? & ? & ? & ->)|(? & ? & ? & ? & _ & _ & _ & ->)]. }
  5:{ injection E as E. apply getdata_fetch in E. split; apply count_zero; intros y Hy; by destruct (f_outs _ _ _ _ E _ Hy) as [[? ->]|[? ->]]. }
  6:{ by injection E as <- <-. }
  7:{ by injection E as <- <-. }
  all: destruct Z as [Z1 Z2]; split; [intros invs H; pose proof (count_zero_in _ _ _ Z1 H) as Z|intros H; pose proof (count_zero_in _ _ _ Z2 H) as Z]; cbn in Z; by rewrite N.eqb_refl in Z.
Qed.
