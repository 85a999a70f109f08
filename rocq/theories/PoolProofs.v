(** Proofs about the transactions held by a node. *)
From Verif Require Import Base PowModel BlockModel FeeModel AddrModel DispModel DispSpec NodeModel NodeSpec NodeTold NodeLogSpec NodeLog NodeSeen NodeFetch PoolSpec.
From Verif Require SyncModel CbfModel CbfSpec InvModel InvSpec InvProofs InvOrigin InvViews InvTrack.
Open Scope N_scope.

(** ** One call of the inventory manager *)
Definition pool_out (m : gmap N tx) (x : InvModel.iout) : gmap N tx := pool_event m (EvInv x).
Definition pool_in (m : gmap N tx) (o : InvModel.inv_op) : gmap N tx := match o with InvModel.IAnnounce t => <[t_wid t := t]> m | _ => m end.
Import InvModel.
Lemma revert_txs_pool ts : forall s s' x, revert_txs ts s = (s', x) -> iv_mempool s' = foldl pool_out (iv_mempool s) x.
Proof.
  induction ts as [|t ts IH]; intros s s' x; cbn [revert_txs]; [by intros [= <- <-]|]. destruct (announce t s) as [s1 o1] eqn:A. destruct (revert_txs ts s1) as [s2 o2] eqn:R.
  intros [= <- <-]. rewrite (IH _ _ _ R), foldl_app. cbn [foldl]. f_equal. injection A as <- <-. done.
Qed.
Lemma reverted_pool hs : forall s s' x, blocks_reverted hs s = Val (s', x) -> iv_mempool s' = foldl pool_out (iv_mempool s) x.
Proof.
  induction hs as [|h hs IH]; intros s s' x; cbn [blocks_reverted]; [by intros [= <- <-]|]. destruct (block_reverted h s) as [[s1 o1]|] eqn:B; [|done]. cbn [mbind_M].
  destruct (blocks_reverted hs s1) as [[s2 o2]|] eqn:R; [|done]. cbn [mbind_M]. intros [= <- <-]. rewrite (IH _ _ _ R), foldl_app. f_equal.
  revert B. unfold block_reverted. destruct (fee_rollback _ _) as [e|]; [|done]. cbn [mbind_M]. destruct (iv_confirmed (set_est e s) !! h) as [ts|]; [|by intros [= <- <-]].
  intros [= B]. by apply revert_txs_pool in B.
Qed.
Lemma confirm_txs_pool hash h ts : forall s s' x, confirm_txs hash h ts s = (s', x) ->
  iv_mempool s' = foldl (fun m t => delete (t_wid t) m) (iv_mempool s) ts /\ forall m, foldl pool_out m x = m.
Proof.
  induction ts as [|t ts IH]; intros s s' x; cbn [confirm_txs]; [by intros [= <- <-]|]. destruct (confirm_tx hash h t s) as [s1 o1] eqn:A. destruct (confirm_txs hash h ts s1) as [s2 o2] eqn:R.
  intros [= <- <-]. destruct (IH _ _ _ R) as [E1 E2]. revert A. unfold confirm_tx. destruct (iv_mempool s !! t_wid t) eqn:M; intros [= <- <-].
  - split; [exact E1|]. intros m. cbn [app foldl]. apply E2.
  - split; [|exact E2]. rewrite E1. cbn [foldl]. by rewrite (delete_notin _ _ M).
Qed.
Lemma queue_pool hs : forall s s' x, process_queue hs s = Val (s', x) -> iv_mempool s' = foldl pool_out (iv_mempool s) x.
Proof.
  induction hs as [|h hs IH]; intros s s' x; cbn [process_queue]; [by intros [= <- <-]|]. destruct (iv_received s !! h) as [b|]; [|apply IH].
  unfold process_block. destruct (confirm_txs (b_hash b) h (b_txs b) _) as [s1 o1] eqn:C. destruct (fee_process _ _ _) as [[e f]|]; [|done]. cbn [mbind_M].
  destruct (process_queue hs _) as [[s2 o2]|] eqn:Q; [|done]. cbn [mbind_M]. intros [= <- <-]. rewrite (IH _ _ _ Q), !foldl_app. f_equal.
  apply confirm_txs_pool in C as [C1 C2]. rewrite C2. cbn [foldl]. exact C1.
Qed.
Lemma step_pool o s s' x : inv_step o s = Val (s', x) -> iv_mempool s' = foldl pool_out (pool_in (iv_mempool s) o) x.
Proof.
  destruct o as [a n r w|a|hs|b hof|a is|now th pick|t|h]; cbn [inv_step pool_in].
  - by intros [= <- <-].
  - by intros [= <- <-].
  - apply reverted_pool.
  - unfold received_block. destruct (iv_remaining s !! b_hash b); [|by intros [= <- <-]]. destruct (hof (b_hash b)) as [h|]; [|by intros [= <- <-]].
    case_bool_decide; [|by intros [= <- <-]]. intros Q. by apply queue_pool in Q.
  - intros [= E]. revert s s' x E. induction is as [|i is IH]; intros s s' x; cbn [getdata]; [by intros [= <- <-]|].
    destruct (getdata_one a i s) as [s1 o1] eqn:A. destruct (getdata a is s1) as [s2 o2] eqn:B. intros [= <- <-]. rewrite (IH _ _ _ B), foldl_app. f_equal.
    assert (K : forall w id s1 x, acknowledge a w id s = (s1, x) -> iv_mempool s1 = iv_mempool s /\ forall m, foldl pool_out m x = m).
    { intros w id s3 x3. unfold acknowledge. destruct (iv_peers s !! a) as [p|]; [|by intros [= <- <-]]. destruct (ip_outbox p !! w); by intros [= <- <-]. }
    revert A. unfold getdata_one. destruct i as [id|id|w|h|]; try (by intros [= <- <-]).
    1,2: destruct (find_txid id (iv_mempool s)) as [t|]; [|by intros [= <- <-]]; destruct (acknowledge a (t_wid t) (Some id) s) as [s3 x3] eqn:E; intros [= <- <-]; apply K in E as [-> E]; cbn [foldl]; by rewrite E.
    destruct (acknowledge a w None s) as [s3 x3] eqn:E. intros [= <- <-]. apply K in E as [-> E]. rewrite foldl_app, E. by destruct (iv_mempool s !! w).
  - intros E. rewrite (InvProofs.t_pool _ _ _ _ _ (InvProofs.inv_timer_facts _ _ _ _ _ _ E)).
    assert (F : Forall (fun y => forall m, pool_out m y = m) x); [|clear E; generalize (iv_mempool s) as m; induction F as [|y x Y F IH]; intros m; cbn [foldl]; [done|]; rewrite Y; apply IH].
    revert E. unfold inv_timer. destruct (peers_tick _ _ _) as [[l o2]|] eqn:P; [|done]. cbn [mbind_M]. destruct (request_blocks _ _ _ _) as [r o3] eqn:Q. intros [= <- <-].
    apply Forall_app. split; [by destruct (inv_idle_timeout <=? _); repeat constructor|]. apply Forall_app. split.
    + clear Q. revert l o2 P. generalize (map_to_list (iv_peers (set_confirmed (filter (fun '(h, _) => wrap64 (th + 2 ^ 64 - h) <=? prune_depth = true) (iv_confirmed (if inv_idle_timeout <=? now - default 0 (iv_tick s) then set_tick (Some now) s else s))) (if inv_idle_timeout <=? now - default 0 (iv_tick s) then set_tick (Some now) s else s)))).
      intros l0. induction l0 as [|[a p] l0 IH]; intros l o2; cbn [peers_tick]; [intros [= <- <-]; constructor|]. destruct (peer_tick _ _ a p) as [[p' q1]|] eqn:P1; [|done]. cbn [mbind_M].
      destruct (peers_tick _ _ l0) as [[l1 q2]|]; [|done]. cbn [mbind_M]. intros [= <- <-]. apply Forall_app. split; [|by eapply IH].
      revert P1. unfold peer_tick. case_bool_decide; [intros [= <- <-]; constructor|]. destruct (_ <? _); [intros [= <- <-]; constructor|]. destruct (_ <=? _)%nat; [intros [= <- <-]; by repeat constructor|].
      destruct (announced _ _); [|done]. cbn [mbind_M]. intros [= <- <-]. by repeat constructor.
    + unfold request_blocks in Q. injection Q as _ <-. apply Forall_forall. intros y I. apply elem_of_list_In, in_concat in I as (z & Iz & Iy). apply in_map_iff in Iz as ([h t] & <- & _).
      revert Iy. match goal with |- In _ (match ?u with Some _ => _ | None => _ end) -> _ => destruct u end; [intros [<-|[<-|[]]]; done|intros []].
  - by intros [= <- <-].
  - unfold get_block, schedule_tick. intros [= <- <-]. by destruct (iv_remaining s !! h).
Qed.

(** ** A node *)
Section Pool.
Context (H : header -> N) (scf : SyncModel.sconf) (P : CbfModel.params) (sock : N -> sockaddr) (env : nat -> nenv) (magic : N).
Notation step := (node_step H scf P sock env magic).
Notation explained := (NodeSeen.explained H scf P sock env magic).
Notation tells := (NodeSeen.tells H scf P sock env magic).
Implicit Types l : list N.
Notation gets l := (IGetBlock <$> l).
Notation ticks l := ((fun _ => [IoTimer 1000]) <$> l).

Definition io_event (z : comp * io nmsg nev) : option nev := match z.2 with IoEvent e => Some e | _ => None end.
Lemma queued_fqueued (l : list (comp * io nmsg nev)) : queued_events (fqueued l) = omap io_event l.
Proof. induction l as [|[c z] l IH]; [done|]. cbn. by destruct z; cbn; rewrite <- IH. Qed.
Lemma queued_none y : (forall c z, FQueued c z ∉ y) -> queued_events y = [].
Proof.
  induction y as [|i y IH]; intros Q; [done|]. unfold queued_events. cbn. destruct i as [c z| |]; [exfalso; apply (Q c z); by left|apply IH; intros c1 z1 I; apply (Q c1 z1); by right..].
Qed.
Lemma pool_inv_io z : forall m, foldl pool_event m (omap io_event (flat_map (inv_io sock) z)) = foldl pool_out m z.
Proof. induction z as [|y z IH]; intros m; [done|]. cbn [flat_map]. rewrite omap_app, foldl_app, IH. by destruct y. Qed.
Lemma pool_none (l : list (comp * io nmsg nev)) m : Forall (fun z => forall e, io_event z = Some e -> match e with EvInv _ => False | _ => True end) l -> foldl pool_event m (omap io_event l) = m.
Proof.
  intros F. induction F as [|z l Z F IH]; [done|]. cbn. destruct (io_event z) as [e|] eqn:E; [|exact IH]. cbn [foldl]. specialize (Z e eq_refl). destruct e; try done; exact IH.
Qed.
Lemma pool_outs cs : forall m, foldl pool_event m (omap io_event (outs sock cs)) = foldl pool_out m (concat (inv_outs cs)).
Proof.
  induction cs as [|k cs IH]; intros m; [done|]. unfold outs. cbn [flat_map]. fold (outs sock cs). rewrite omap_app, foldl_app, IH.
  destruct k as [oe z|o z|i z]; unfold inv_outs; cbn [omap list_omap concat call_out]; fold (inv_outs cs).
  - f_equal. apply pool_none, Forall_forall. intros y I. apply elem_of_list_In, in_flat_map in I as (u & _ & I). destruct u; cbn in I; destruct I as [<-|[]] || destruct I; intros e E; try done; by injection E as <-.
  - by rewrite foldl_app, pool_inv_io.
  - f_equal. apply pool_none, Forall_forall. intros y I. apply elem_of_list_In, in_flat_map in I as (u & _ & I). destruct u; cbn in I; destruct I as [<-|[]] || destruct I; intros e E; try done; by injection E as <-.
Qed.
Lemma ticks_pool l : forall m, foldl pool_out m (concat (ticks l)) = m.
Proof. induction l as [|h l IH]; intros m; [done|]. apply IH. Qed.
Lemma gets_pool l : forall i i' xs, inv_run (gets l) i = Val (i', xs) -> iv_mempool i' = iv_mempool i.
Proof.
  induction l as [|h l IH]; intros i i' xs R; [by injection R as <- <-|]. cbn [fmap list_fmap] in R. apply InvTrack.run_cons in R as (s2 & y & ys & E & R & _).
  rewrite (IH _ _ _ R). cbn [inv_step] in E. unfold get_block, schedule_tick in E. injection E as <- <-. by destruct (iv_remaining i !! h).
Qed.
Lemma run_app os : forall os' i i' zs, inv_run (os ++ os') i = Val (i', zs) -> exists j xs ys, inv_run os i = Val (j, xs) /\ inv_run os' j = Val (i', ys) /\ zs = xs ++ ys.
Proof.
  induction os as [|o os IH]; intros os' i i' zs R; [by exists i, [], zs|]. cbn [app] in R. apply InvTrack.run_cons in R as (s2 & y & ys & E & R & ->).
  destruct (IH _ _ _ _ R) as (j & xs & ys' & R1 & R2 & ->). exists j, (y :: xs), ys'. split; [|done]. cbn [inv_run]. rewrite E. cbn [mbind_M]. by rewrite R1.
Qed.
Lemma gets_outs l : forall i i' xs, inv_run (gets l) i = Val (i', xs) -> xs = ticks l.
Proof.
  induction l as [|h l IH]; intros i i' xs R; [by injection R as <- <-|]. cbn [fmap list_fmap] in *. apply InvTrack.run_cons in R as (s2 & y & ys & E & R & ->).
  rewrite (IH _ _ _ R). cbn [inv_step] in E. unfold get_block, schedule_tick in E. by injection E as <- <-.
Qed.
Lemma pool_told e s cs s1 : explained e s cs s1 -> iv_mempool (n_inv (f_state s1)) = log_pool (iv_mempool (n_inv (f_state s))) e.
Proof.
  intros X. unfold log_pool. destruct (x_items _ _ _ _ _ _ _ _ _ _ X) as (y & Ei & Q). rewrite Ei. unfold queued_events. rewrite omap_app. fold (queued_events y). fold (queued_events (fqueued (peer_outs (e_op e) ++ outs sock cs))).
  rewrite (queued_none y Q), app_nil_r, queued_fqueued, omap_app, foldl_app, pool_outs.
  rewrite (pool_none (peer_outs (e_op e))); [|destruct (e_op e) as [|[]| | | | | | | | |]; cbn; repeat constructor; intros ? E; by injection E as <-].
  pose proof (nexec_inv _ _ _ _ _ _ (x_exec _ _ _ _ _ _ _ _ _ _ X)) as R. destruct (x_inv_ran _ _ _ _ _ _ _ _ _ _ X) as (op & Io & O & _).
  assert (Sb : forall m, match e_op e with NSubmit t => <[t_wid t := t]> m | _ => m end = match op with Some o => pool_in m o | None => m end).
  { intros m. destruct (x_events _ _ _ _ _ _ _ _ _ _ X) as [Ea|(ev & Ea)]; rewrite Ea in Io; cbn [inv_of] in Io.
    - subst op. by destruct (e_op e).
    - destruct Io as (n1 & ->). pose proof (x_calls _ _ _ _ _ _ _ _ _ _ X) as C. rewrite Ea in C.
      transitivity m; [destruct (e_op e); try done; by destruct C as [C _]|]. destruct ev as [a h ob nw fl re wt pe|a|fr ms|so|co|io]; cbn [inv_event]; try done; [by destruct ms|by destruct so]. }
  rewrite Sb. destruct op as [o|]; destruct O as (l1 & l2 & O).
  - destruct O as (x & Ec & Eo). rewrite Ec, Eo in R. apply run_app in R as (j & xs & ys & R1 & R2 & Ez). pose proof (gets_outs _ _ _ _ R1) as ->. apply app_inv_head in Ez. subst ys.
    apply InvTrack.run_cons in R2 as (s2 & y' & ys & E & R2 & Ey). injection Ey as <- <-. rewrite Eo, concat_app. cbn [concat]. rewrite !foldl_app, !ticks_pool.
    rewrite (gets_pool _ _ _ _ R2), (step_pool _ _ _ _ E). by rewrite (gets_pool _ _ _ _ R1).
  - destruct O as [Ec Eo]. rewrite Ec, Eo in R. rewrite Eo, ticks_pool. exact (gets_pool _ _ _ _ R).
Qed.
Lemma tells_pool L s css s' : tells L s css s' -> iv_mempool (n_inv (f_state s')) = foldl log_pool (iv_mempool (n_inv (f_state s))) L.
Proof. induction 1 as [|e L s cs s1 css s' X T IH]; cbn [foldl]; [done|]. by rewrite IH, (pool_told _ _ _ _ X). Qed.

(** ** Peers that relay *)
Lemma relay_kept (f : InvSpec.pview -> InvSpec.pview) (v : option InvSpec.pview) : (forall p, InvSpec.pv_relay (f p) = InvSpec.pv_relay p) -> InvSpec.pv_relay <$> (f <$> v) = InvSpec.pv_relay <$> v.
Proof. intros F. destruct v; [|done]. cbn. by rewrite F. Qed.
Lemma relay_view a o i i' x v : inv_step o i = Val (i', x) -> (match o with INegotiated _ _ _ _ | IDisconnected _ => False | _ => True end) ->
  InvSpec.pv_relay <$> InvSpec.view_step a o x v = if existsb (InvSpec.drops a) x then None else InvSpec.pv_relay <$> v.
Proof.
  intros E Q. destruct o; try done; try (rewrite (quiet_drop _ _ _ _ a E I)); cbn [InvSpec.view_step].
  4:{ destruct (existsb (InvSpec.drops a) x); [done|]. destruct (existsb _ x); [by apply relay_kept|done]. }
  all: destruct (existsb _ x); [by apply relay_kept|done].
Qed.
Lemma relays_told a e s cs s1 v : explained e s cs s1 ->
  InvSpec.pv_relay <$> InvSpec.views a (inv_calls cs) (inv_outs cs) v = log_relays a (InvSpec.pv_relay <$> v) e.
Proof.
  intros X. unfold log_relays. rewrite (gives_up_told _ _ _ _ _ _ a _ _ _ _ X). destruct (x_inv_ran _ _ _ _ _ _ _ _ _ _ X) as (op & Io & O & R).
  destruct op as [o|].
  - destruct R as (x & i & i' & _ & R & l1 & l2 & Ec & Eo). rewrite Ec, Eo, drops_mid, views_mid. destruct (x_events _ _ _ _ _ _ _ _ _ _ X) as [Ea|(ev & Ea)]; rewrite Ea in *; cbn [foldl].
    + cbn [inv_of] in Io. rewrite (relay_view a o i i' x v R); [done|]. destruct (e_op e); try done; cbn in Io; by injection Io as ->.
    + cbn [inv_of] in Io. destruct Io as (n1 & Io). destruct ev as [a' h' ob nw fl re wt pe|a'|from m|so|co|io]; cbn [inv_event] in Io; try done.
      * injection Io as ->. rewrite (quiet_drop _ _ _ _ a R I). cbn [InvSpec.view_step relay_event]. by destruct (a' =? a).
      * injection Io as ->. rewrite (quiet_drop _ _ _ _ a R I). cbn [InvSpec.view_step relay_event]. by destruct (a' =? a).
      * rewrite (relay_view a o i i' x v R); [done|]. destruct m; try done; by injection Io as ->.
      * rewrite (relay_view a o i i' x v R); [done|]. destruct so; try done; by injection Io as ->.
  - destruct O as (l1 & _ & Ec & Eo). rewrite Ec, Eo, existsb_ticks by done. rewrite views_wants. destruct (x_events _ _ _ _ _ _ _ _ _ _ X) as [Ea|(ev & Ea)]; rewrite Ea in *; cbn [foldl]; [done|].
    cbn [inv_of] in Io. destruct Io as (n1 & Io). by destruct ev.
Qed.
Lemma tells_relays a L s css s' : tells L s css s' -> forall v,
  InvSpec.pv_relay <$> InvSpec.views a (inv_calls (concat css)) (inv_outs (concat css)) v = foldl (log_relays a) (InvSpec.pv_relay <$> v) L.
Proof.
  induction 1 as [|e L s cs s1 css s' X T IH]; intros v; cbn [concat foldl]; [done|]. rewrite inv_calls_app, inv_outs_app, views_app by apply inv_lengths.
  rewrite IH. by rewrite (relays_told _ _ _ _ _ _ X).
Qed.

(** ** From the start *)
Context (c0 : cache) (f0 : CbfModel.cbf).
Notation n0 := (node0 c0 f0).
Lemma node_pool os s L : node_log H step env os n0 = Val (s, L) -> iv_mempool (n_inv (f_state s)) = pool L.
Proof. intros R. destruct (log_tells _ _ _ _ _ _ _ _ _ _ R) as (css & T & _). exact (tells_pool _ _ _ _ T). Qed.
Lemma node_relays os s L a : node_log H step env os n0 = Val (s, L) -> ip_relay <$> iv_peers (n_inv (f_state s)) !! a = relays a L.
Proof.
  intros R. destruct (log_tells _ _ _ _ _ _ _ _ _ _ R) as (css & T & _). pose proof (tells_relays a _ _ _ _ T None) as E.
  pose proof (nexec_inv _ _ _ _ _ _ (tells_exec _ _ _ _ _ _ _ _ _ _ T)) as Y. cbn [f_state node0 n_inv] in Y.
  pose proof (InvViews.run_views a _ _ _ _ InvProofs.inv0_ok Y) as V. cbn [iv_peers inv0] in V. rewrite lookup_empty in V. cbn [fmap option_fmap option_map] in V. rewrite <- V in E.
  unfold relays. transitivity (InvSpec.pv_relay <$> (InvViews.pv <$> iv_peers (n_inv (f_state s)) !! a)); [by destruct (_ !! a)|exact E].
Qed.
Lemma node_ok os s L : node_log H step env os n0 = Val (s, L) -> InvProofs.inv_ok (n_inv (f_state s)).
Proof.
  intros R. destruct (log_tells _ _ _ _ _ _ _ _ _ _ R) as (css & T & _). pose proof (nexec_inv _ _ _ _ _ _ (tells_exec _ _ _ _ _ _ _ _ _ _ T)) as Y. cbn [f_state node0 n_inv] in Y.
  exact (InvProofs.inv_run_ok _ _ _ _ InvProofs.inv0_ok Y).
Qed.
(** A request for transactions that is handled. *)
Lemma node_served os s L o s' x a is : node_log H step env os n0 = Val (s, L) -> step o s = Val (s', x) -> DispSpec.announced x = [EvMessage a (MGetData is)] ->
  (forall w t, (w, MTx t) ∈ written x -> w = sock a /\ pool L !! t_wid t = Some t /\ exists i, i ∈ is /\ InvSpec.names i t) /\
  (forall i w t, i ∈ is -> pool L !! w = Some t -> InvSpec.names i t -> exists t', (sock a, MTx t') ∈ written x /\ InvSpec.names i t').
Proof.
  intros R E A. destruct (step_explained _ _ _ _ _ _ _ _ _ _ E) as (cs & X). rewrite <- (node_pool _ _ _ R).
  destruct (x_inv_ran _ _ _ _ _ _ _ _ _ _ X) as (op & Io & O & Ra). cbn [log_step e_items] in Io. rewrite A in Io. destruct Io as (n1 & ->). cbn [inv_event] in *.
  destruct O as (l1 & l2 & x0 & Ec0 & Eo0). pose proof (nexec_inv _ _ _ _ _ _ (x_exec _ _ _ _ _ _ _ _ _ _ X)) as Y. rewrite Ec0, Eo0 in Y.
  apply run_app in Y as (j & xs & ys & R1 & R2 & Ez). pose proof (gets_outs _ _ _ _ R1) as ->. apply app_inv_head in Ez. subst ys.
  apply InvTrack.run_cons in R2 as (s2 & y' & ys & E2 & R2 & Ey). injection Ey as <- <-.
  pose proof (InvProofs.inv_run_ok _ _ _ _ (node_ok _ _ _ R) R1) as (Ok & _). cbn [inv_step] in E2. injection E2 as E2.
  destruct (InvViews.getdata_served a is j s2 x0 Ok E2) as [S1 S2]. rewrite (gets_pool _ _ _ _ R1) in S1, S2.
  assert (W : forall w t, (w, MTx t) ∈ written x <-> exists b, w = sock b /\ IoTx b t ∈ x0).
  { intros w t. rewrite written_in. split.
    - intros (c & I). apply (queued_call _ _ _ _ _ _ _ _ _ _ _ _ X) in I as [I|(k & Hk & I)].
      { cbn [log_step e_op] in I. destruct o as [|[]| | | | | | | | |]; cbn in I; try (by apply elem_of_nil in I); by apply elem_of_list_singleton in I. }
      destruct k as [oe z|io z|i z]; cbn [call_out] in I; apply elem_of_list_In, in_flat_map in I as (u & Hu & I); apply elem_of_list_In in Hu, I.
      + destruct u; cbn in I; try (by apply elem_of_nil in I); by apply elem_of_list_singleton in I.
      + destruct u; cbn in I; try (by apply elem_of_nil in I); apply elem_of_list_singleton in I; try done. injection I as _ -> ->.
        destruct (in_inv _ _ _ Hk) as [_ Iz]. rewrite Eo0 in Iz. exists addr. split; [done|]. apply elem_of_app in Iz as [Iz|Iz]; [|apply elem_of_cons in Iz as [Iz|Iz]; [by subst z|]].
        all: apply elem_of_list_fmap in Iz as (? & -> & _); by apply elem_of_list_singleton in Hu.
      + destruct u; cbn in I; try (by apply elem_of_nil in I); by apply elem_of_list_singleton in I.
    - intros (b & -> & I). exists CInv. apply (queued_call _ _ _ _ _ _ _ _ _ _ _ _ X). right.
      assert (Iz : x0 ∈ inv_outs cs) by (rewrite Eo0; apply elem_of_app; right; by left). destruct (inv_in cs x0 Iz) as (i & Hk). exists (KInv i x0). split; [done|].
      cbn [call_out]. apply elem_of_list_In, in_flat_map. exists (IoTx b t). rewrite <- !elem_of_list_In. split; [done|]. cbn. by left. }
  split.
  - intros w t I. apply W in I as (b & -> & I). destruct (S1 b t I) as (-> & S). done.
  - intros i w t Hi M Nm. destruct (S2 i w t Hi M Nm) as (t' & I & Nm'). exists t'. split; [|done]. apply W. by exists a.
Qed.
End Pool.
