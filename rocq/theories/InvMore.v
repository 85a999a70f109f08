(** What the fee estimator is told by the inventory manager, the order of its
    reports, and its timers. *)
From Verif Require Import Base FeeModel InvModel InvSpec InvProofs InvTrack InvViews.
Open Scope N_scope.

(** ** Fees *)
Lemma fee_run_app os os' e : fee_run (os ++ os') e = ('(e1, rs) <-- fee_run os e ;; '(e2, rs') <-- fee_run os' e1 ;; Val (e2, rs ++ rs')).
Proof.
  revert e. induction os as [|o os IH]; intros e; cbn [fee_run app].
  - cbn [mbind_M]. by destruct (fee_run os' e) as [[e2 rs']|].
  - destruct (fee_step o e) as [[e1 r]|]; [|done]. cbn [mbind_M]. rewrite IH.
    destruct (fee_run os e1) as [[e2 rs]|]; [|done]. cbn [mbind_M]. by destruct (fee_run os' e2) as [[e3 rs']|].
Qed.

Lemma reported_app x y : reported (x ++ y) = reported x ++ reported y.
Proof. unfold reported. apply omap_app. Qed.

Lemma confirm_txs_outs hash h ts : forall s s' o, confirm_txs hash h ts s = (s', o) ->
  iv_est s' = iv_est s /\ iv_tick s' = iv_tick s /\ exists ids, o = map (fun id => IoStatus id (StConfirmed hash h)) ids.
Proof.
  induction ts as [|t ts IH]; intros s s' o; cbn [confirm_txs].
  - intros [= <- <-]. split; [done|]. split; [done|]. by exists [].
  - destruct (confirm_tx hash h t s) as [s1 o1] eqn:C. destruct (confirm_txs hash h ts s1) as [s2 o2] eqn:D. intros [= <- <-].
    destruct (IH _ _ _ D) as (E1 & E2 & ids & ->). unfold confirm_tx in C. destruct (iv_mempool s !! t_wid t) as [t'|].
    + injection C as <- <-. split; [done|]. split; [done|]. by exists (t_id t' :: ids).
    + injection C as <- <-. split; [done|]. split; [done|]. by exists ids.
Qed.
Lemma told_reported b h f ids : reported (told (b, h, f, ids)) = [f].
Proof. unfold told. rewrite reported_app. by induction ids. Qed.
Lemma told_processed b h f ids : processed (told (b, h, f, ids)) = [(h, b)].
Proof. unfold told. rewrite processed_app. by induction ids. Qed.

Lemma process_queue_told hs : forall s s' x, process_queue hs s = Val (s', x) ->
  iv_tick s' = iv_tick s /\ (exists l, x = concat (map told l)) /\
  exists rs, fee_run (map (fun hb => FProcess (b_txs hb.2) hb.1) (processed x)) (iv_est s) = Val (iv_est s', rs) /\ reported x = omap id rs.
Proof.
  induction hs as [|h hs IH]; intros s s' x; cbn [process_queue].
  - intros X. injection X as <- <-. split; [done|]. split; [by exists []|]. by exists [].
  - destruct (iv_received s !! h) as [b|]; [|by apply IH].
    unfold process_block. destruct (confirm_txs (b_hash b) h (b_txs b) _) as [s1 o1] eqn:C.
    destruct (confirm_txs_outs _ _ _ _ _ _ C) as (E1 & E2 & ids & ->).
    destruct (fee_process (b_txs b) h (iv_est s1)) as [[e f]|] eqn:F; [|done]. cbn [mbind_M].
    destruct (process_queue hs (set_est e s1)) as [[s2 o2]|] eqn:Q; [|done]. cbn [mbind_M]. intros X. injection X as <- <-.
    destruct (IH _ _ _ Q) as (T & [l ->] & rs & R1 & R2). split; [by rewrite T|].
    change (map (fun id => IoStatus id (StConfirmed (b_hash b) h)) ids ++ [IoBlock b h f]) with (told (b, h, f, ids)).
    split; [by exists ((b, h, f, ids) :: l)|]. rewrite processed_app, told_processed, reported_app, told_reported.
    exists (Some f :: rs). cbn [map app fee_run fee_step fst snd]. cbn in E1. rewrite <-E1, F. cbn [mbind_M].
    cbn [set_est iv_est] in R1. rewrite R1. cbn [mbind_M]. split; [done|]. cbn. by rewrite R2.
Qed.

Lemma received_block_told b hof s s' x : received_block b hof s = Val (s', x) ->
  iv_tick s' = iv_tick s /\ (exists l, x = concat (map told l)) /\
  exists rs, fee_run (map (fun hb => FProcess (b_txs hb.2) hb.1) (processed x)) (iv_est s) = Val (iv_est s', rs) /\ reported x = omap id rs.
Proof.
  unfold received_block. destruct (iv_remaining s !! b_hash b); [|intros X; injection X as <- <-; split; [done|]; split; [by exists []|by exists []]].
  destruct (hof (b_hash b)) as [h|]; [|intros X; injection X as <- <-; split; [done|]; split; [by exists []|by exists []]].
  case_bool_decide; [intros X; exact (process_queue_told _ _ _ _ X)|]. intros X; injection X as <- <-; split; [done|]; split; [by exists []|by exists []].
Qed.

Lemma revert_txs_outs ts : forall s s' o, revert_txs ts s = (s', o) ->
  iv_est s' = iv_est s /\ reported o = [] /\ iv_tick s' = (if existsb is_revert o then None else iv_tick s) /\
  (existsb is_revert o = true -> IoTimer 1000 ∈ o).
Proof.
  induction ts as [|t ts IH]; intros s s' o; cbn [revert_txs].
  - intros [= <- <-]. done.
  - destruct (announce t s) as [s1 o1] eqn:A. destruct (revert_txs ts s1) as [s2 o2] eqn:R. intros [= <- <-].
    unfold announce, schedule_tick in A. injection A as <- <-. destruct (IH _ _ _ R) as (E1 & E2 & E3 & E4).
    split; [done|]. split; [done|]. cbn [app existsb is_revert orb]. split; [|by left].
    rewrite E3. by destruct (existsb is_revert o2).
Qed.
Lemma blocks_reverted_outs hs : forall s s' x, blocks_reverted hs s = Val (s', x) ->
  reported x = [] /\ iv_tick s' = (if existsb is_revert x then None else iv_tick s) /\
  (existsb is_revert x = true -> IoTimer 1000 ∈ x) /\
  exists rs, fee_run (map (fun h => FRollback (if h =? 0 then 2 ^ 64 - 1 else h - 1)) hs) (iv_est s) = Val (iv_est s', rs) /\ omap id rs = [].
Proof.
  induction hs as [|h hs IH]; intros s s' x; cbn [blocks_reverted].
  - intros X. injection X as <- <-. split; [done|]. split; [done|]. split; [done|]. by exists [].
  - destruct (block_reverted h s) as [[s1 o1]|] eqn:B; [|done]. cbn [mbind_M].
    destruct (blocks_reverted hs s1) as [[s2 o2]|] eqn:R; [|done]. cbn [mbind_M]. intros X. injection X as <- <-.
    destruct (IH _ _ _ R) as (E1 & E2 & E3 & rs & E4 & E5).
    assert (G : reported o1 = [] /\ iv_tick s1 = (if existsb is_revert o1 then None else iv_tick s) /\
      (existsb is_revert o1 = true -> IoTimer 1000 ∈ o1) /\ fee_rollback (if h =? 0 then 2 ^ 64 - 1 else h - 1) (iv_est s) = Val (iv_est s1)).
    { revert B. unfold block_reverted. change u64_max with (2 ^ 64 - 1). destruct (fee_rollback _ (iv_est s)) as [e|]; [|done]. cbn [mbind_M].
      change (iv_confirmed (set_est e s)) with (iv_confirmed s). destruct (iv_confirmed s !! h) as [ts|].
      - intros X. injection X as X. destruct (revert_txs_outs _ _ _ _ X) as (F1 & F2 & F3 & F4). split; [done|]. split; [done|]. split; [done|]. by rewrite F1.
      - intros X. injection X as <- <-. done. }
    destruct G as (G1 & G2 & G3 & G4). split; [by rewrite reported_app, G1, E1|]. rewrite existsb_app.
    split; [|split].
    + rewrite E2, G2. by destruct (existsb is_revert o1), (existsb is_revert o2).
    + intros H. apply orb_true_iff in H. apply elem_of_app. destruct H as [H|H]; [left; by apply G3|right; by apply E3].
    + exists (None :: rs). cbn [map fee_run fee_step]. rewrite G4. cbn [mbind_M]. rewrite E4. cbn [mbind_M]. split; [done|]. cbn. done.
Qed.

(** ** Timers *)
Lemma fetch_tick addr is s s' x : getdata addr is s = (s', x) -> iv_tick s' = iv_tick s /\ iv_est s' = iv_est s /\ reported x = [] /\ processed x = [].
Proof.
  intros X. apply getdata_fetch in X. destruct (f_rest _ _ _ _ X) as [ps ->]. split; [done|]. split; [done|].
  assert (F : Forall (fun y => (exists t, y = IoTx addr t) \/ exists id, y = IoStatus id (StAcknowledged addr)) x).
  { apply Forall_forall. intros y Hy. exact (f_outs _ _ _ _ X y Hy). }
  clear X. induction F as [|y x [[? ->]|[? ->]] F IH]; done.
Qed.

Lemma timer_tick now th pick s s' x : inv_timer now th pick s = Val (s', x) ->
  iv_tick s' = (if 30000 <=? now - default 0 (iv_tick s) then Some now else iv_tick s) /\
  (IoTimer 30000 ∈ x <-> 30000 <= now - default 0 (iv_tick s)) /\
  (forall a invs, IoInv a invs ∈ x -> IoTimer 60000 ∈ x) /\
  (forall a h, IoGetData a h ∈ x -> IoTimer 15000 ∈ x).
Proof.
  unfold inv_timer. change inv_idle_timeout with 30000. set (due := 30000 <=? now - default 0 (iv_tick s)).
  set (s1 := if due then set_tick (Some now) s else s).
  assert (T1 : iv_tick s1 = if due then Some now else iv_tick s) by (unfold s1; by destruct due).
  assert (D : due = true <-> 30000 <= now - default 0 (iv_tick s)) by (apply N.leb_le).
  clearbody s1 due. cbn [set_confirmed iv_mempool iv_peers iv_remaining set_peers].
  destruct (peers_tick now (iv_mempool s1) (map_to_list (iv_peers s1))) as [[l o2]|] eqn:P; [|done]. cbn [mbind_M].
  destruct (request_blocks now pick (list_to_map l) (iv_remaining s1)) as [r o3] eqn:R. intros X. injection X as <- <-.
  destruct (request_blocks_spec _ _ _ _ _ _ R) as (target & _ & _ & _ & T4).
  assert (O2 : forall y, y ∈ o2 -> (exists a, y = IoTimedOut a) \/ (IoTimer 60000 ∈ o2 /\ ((exists a invs, y = IoInv a invs) \/ y = IoTimer 60000))).
  { clear -P. revert l o2 P. generalize (map_to_list (iv_peers s1)). intros l0. induction l0 as [|[a p] l0 IH]; intros l o2; cbn [peers_tick].
    { intros X. injection X as <- <-. intros y Hy. by apply elem_of_nil in Hy. }
    destruct (peer_tick now (iv_mempool s1) a p) as [[p' q1]|] eqn:P1; [|done]. cbn [mbind_M].
    destruct (peers_tick now (iv_mempool s1) l0) as [[l1 q2]|] eqn:P2; [|done]. cbn [mbind_M]. intros X. injection X as _ <-.
    intros y Hy. apply elem_of_app in Hy as [Hy|Hy].
    - destruct (peer_tick_facts _ _ _ _ _ _ P1) as [[_ ->]|[(_ & -> & _)|(invs & _ & -> & _)]].
      + by apply elem_of_nil in Hy.
      + apply elem_of_list_singleton in Hy as ->. left. by exists a.
      + right. split; [right; by left|]. apply elem_of_cons in Hy as [->|Hy]; [left; by exists a, invs|]. apply elem_of_list_singleton in Hy as ->. by right.
    - destruct (IH _ _ eq_refl y Hy) as [E|[E1 E2]]; [by left|]. right. split; [apply elem_of_app; by right|done]. }
  assert (O3 : forall y, y ∈ o3 -> IoTimer 15000 ∈ o3 /\ ((exists a h, y = IoGetData a h) \/ y = IoTimer 15000)).
  { intros y Hy. subst o3. apply elem_of_list_In, in_concat in Hy as (z & Hz & Hy). pose proof Hz as Hz'.
    apply in_map_iff in Hz as ([k t] & <- & _). apply elem_of_list_In in Hy. destruct (target k t) as [b|]; [|by apply elem_of_nil in Hy]. split.
    - apply elem_of_list_In, in_concat. eexists. split; [exact Hz'|]. right. by left.
    - apply elem_of_cons in Hy as [->|Hy]; [left; by exists b, k|]. apply elem_of_list_singleton in Hy as ->. by right. }
  assert (O1 : forall y, y ∈ (if due then [IoTimer 30000] else []) -> due = true /\ y = IoTimer 30000).
  { intros y Hy. destruct due; [by apply elem_of_list_singleton in Hy|by apply elem_of_nil in Hy]. }
  split; [exact T1|]. split; [rewrite <-D; split|split].
  - intros H. apply elem_of_app in H as [H|H]; [by apply O1 in H as [-> _]|]. apply elem_of_app in H as [H|H].
    + by apply O2 in H as [[? ?]|[_ [(? & ? & ?)|?]]].
    + by apply O3 in H as [_ [(? & ? & ?)|?]].
  - intros ->. by left.
  - intros a invs H. apply elem_of_app in H as [H|H]; [by apply O1 in H as [_ ?]|]. apply elem_of_app in H as [H|H].
    + apply O2 in H as [[? ?]|[H _]]; [done|]. apply elem_of_app. right. apply elem_of_app. by left.
    + by apply O3 in H as [_ [(? & ? & ?)|?]].
  - intros a h H. apply elem_of_app in H as [H|H]; [by apply O1 in H as [_ ?]|]. apply elem_of_app in H as [H|H].
    + by apply O2 in H as [[? ?]|[_ [(? & ? & ?)|?]]].
    + apply O3 in H as [H _]. apply elem_of_app. right. apply elem_of_app. by right.
Qed.

(** ** One step *)
Lemma timer_quiet now th pick s s' x : inv_timer now th pick s = Val (s', x) -> reported x = [] /\ processed x = [].
Proof.
  intros X. apply inv_timer_facts in X.
  assert (F : Forall (fun y => match y with IoBlock _ _ _ => False | _ => True end) x).
  { apply Forall_forall. intros y Hy. by destruct (t_outs _ _ _ _ _ X y Hy) as [(? & ? & _ & [->|[? ->]])|[[? ->]|(? & ? & ->)]]. }
  clear X. induction F as [|y x Fy F IH]; [done|]. by destruct y.
Qed.

Lemma step_more o s s' x : inv_step o s = Val (s', x) ->
  iv_tick s' = idle_step o x (iv_tick s) /\ (stirs o x = true -> IoTimer 1000 ∈ x) /\
  exists rs, fee_run (fee_calls o x) (iv_est s) = Val (iv_est s', rs) /\ reported x = omap id rs.
Proof.
  destruct o as [a n r w|a|hs|b hof|a is|now th pick|t|k]; cbn [inv_step]; intros X.
  - injection X as <- <-. split; [done|]. split; [by left|]. by exists [].
  - injection X as <- <-. split; [done|]. split; [done|]. by exists [].
  - destruct (blocks_reverted_outs _ _ _ _ X) as (E1 & E2 & E3 & rs & E4 & E5). split; [exact E2|]. split; [exact E3|].
    exists rs. split; [exact E4|]. by rewrite E1, E5.
  - destruct (received_block_told _ _ _ _ _ X) as (E1 & _ & rs & E2). split; [exact E1|]. split; [done|]. exists rs. exact E2.
  - injection X as X. destruct (fetch_tick _ _ _ _ _ X) as (E1 & E2 & E3 & E4). split; [exact E1|]. split; [done|].
    cbn [fee_calls]. rewrite E3, E4, E2. by exists [].
  - destruct (timer_tick _ _ _ _ _ _ X) as (E1 & _). split; [exact E1|]. split; [done|]. destruct (timer_quiet _ _ _ _ _ _ X) as [E3 E4].
    cbn [fee_calls]. rewrite E3, E4, (t_est _ _ _ _ _ (inv_timer_facts _ _ _ _ _ _ X)). by exists [].
  - injection X as <- <-. split; [done|]. split; [by left|]. by exists [].
  - injection X as <- <-. split; [done|]. split; [by left|]. unfold get_block. destruct (iv_remaining s !! k); by exists [].
Qed.

Lemma run_fees os : forall s s' outs, inv_run os s = Val (s', outs) ->
  exists rs, fee_run (fee_history os outs) (iv_est s) = Val (iv_est s', rs) /\ reported (concat outs) = omap id rs.
Proof.
  induction os as [|o os IH]; intros s s' outs R.
  - cbn in R. injection R as <- <-. by exists [].
  - apply run_cons in R as (s1 & x & xs & E & R & ->). destruct (step_more _ _ _ _ E) as (_ & _ & rs & F1 & F2).
    destruct (IH _ _ _ R) as (rs' & G1 & G2). cbn [fee_history concat]. rewrite fee_run_app, F1. cbn [mbind_M]. rewrite G1. cbn [mbind_M].
    exists (rs ++ rs'). split; [done|]. by rewrite reported_app, F2, G2, omap_app.
Qed.
Lemma run_idled os : forall s s' outs, inv_run os s = Val (s', outs) -> iv_tick s' = idled os outs (iv_tick s).
Proof.
  induction os as [|o os IH]; intros s s' outs R.
  - cbn in R. by injection R as <- <-.
  - apply run_cons in R as (s1 & x & xs & E & R & ->). cbn [idled]. rewrite <-(proj1 (step_more _ _ _ _ E)). by apply IH.
Qed.

(** ** Statements *)
Lemma fees_reported os s outs : inv_reach os s outs ->
  exists e rs, fee_run (fee_history os outs) est0 = Val (e, rs) /\ reported (concat outs) = omap id rs.
Proof. intros R. destruct (run_fees _ _ _ _ R) as (rs & E1 & E2). by exists (iv_est s), rs. Qed.

Lemma reports_ordered os s outs b hof s' x : inv_reach os s outs -> inv_step (IBlock b hof) s = Val (s', x) ->
  exists l, x = concat (map told l).
Proof. intros _ E. exact (proj1 (proj2 (received_block_told _ _ _ _ _ E))). Qed.

Lemma wakes os s outs o s' x : inv_reach os s outs -> inv_step o s = Val (s', x) ->
  (stirs o x = true -> IoTimer 1000 ∈ x) /\
  (forall now th pick, o = ITimer now th pick ->
     (IoTimer 30000 ∈ x <-> 30000 <= now - default 0 (idled os outs None)) /\
     (forall a invs, IoInv a invs ∈ x -> IoTimer 60000 ∈ x) /\ (forall a h, IoGetData a h ∈ x -> IoTimer 15000 ∈ x)).
Proof.
  intros R E. split; [exact (proj1 (proj2 (step_more _ _ _ _ E)))|]. intros now th pick ->.
  rewrite <-(run_idled _ _ _ _ R : iv_tick s = idled os outs None). exact (proj2 (timer_tick _ _ _ _ _ _ E)).
Qed.
