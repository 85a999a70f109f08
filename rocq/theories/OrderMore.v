(** How filter headers are divided into messages does not matter, and what a
    rescan that starts above the filter headers changes. *)
From Verif Require Import Base UtilModel UtilSpec UtilProofs CbfModel CbfSpec CbfProofs CbfStep CbfMain CbfScan CbfFacts CbfSeen OrderSpec.
Open Scope N_scope.

(** ** Filter headers *)
Definition last_header (P : params) (prev : N) (hs : list N) : N := foldl (fun p h => p_header P h p) prev hs.
Lemma chain_app P hs1 : forall prev hs2, chain_headers P prev (hs1 ++ hs2) = chain_headers P prev hs1 ++ chain_headers P (last_header P prev hs1) hs2.
Proof. induction hs1 as [|h hs1 IH]; intros prev hs2; cbn; [done|]. by rewrite IH. Qed.
Lemma tip_chain P hs : forall g l, (ne_last g (l ++ chain_headers P (ne_last g l).2 hs)).2 = last_header P (ne_last g l).2 hs.
Proof.
  induction hs as [|h hs IH]; intros g l; cbn [chain_headers]; [by rewrite app_nil_r|].
  specialize (IH g (l ++ [(h, p_header P h (ne_last g l).2)])). rewrite <- app_assoc in IH. cbn [app] in IH.
  assert (E : ne_last g (l ++ [(h, p_header P h (ne_last g l).2)]) = (h, p_header P h (ne_last g l).2)).
  { clear. generalize (h, p_header P h (ne_last g l).2) as e. intros e. unfold ne_last. apply List.last_last. }
  rewrite E in IH. exact IH.
Qed.
Lemma accepted_step P cap i s s' x : cbf_ok P cap s -> io_ok i -> step_on P i s = Val (s', x) -> f_height s < f_height s' ->
  c_filters s' = c_filters s ++ chain_headers P (f_tip P s).2 (carried i) /\ c_store s' = c_store s ++ chain_headers P (f_tip P s).2 (carried i).
Proof.
  intros Ok [Io _] E G. pose proof (step_effect P cap i s s' x Ok E) as Ef.
  destruct Ef as [s' x _ Q|from stop_hash prev hashes stop st s' x Op _ _ _ Ep _ _ St Q|from hash height f s' x _ _ _ _ Q|
    from hash height f c b r' ms es s' x _ _ _ _ _ _ C1|reverted h c s' x ok _ _ _ _ _ Q|from to watch start stop s1 r' ms es x y _ Q].
  - exfalso. pose proof (q_filters _ _ _ _ Q) as F. unfold f_height in G. rewrite F in G. lia.
  - unfold carried. rewrite Op. rewrite (q_filters _ _ _ _ Q), (q_store _ _ _ _ Q). cbn. rewrite (St Io), Ep. done.
  - exfalso. pose proof (q_filters _ _ _ _ Q) as F. unfold f_height in G. rewrite F in G. lia.
  - exfalso. unfold f_height in G. rewrite C1 in G. lia.
  - exfalso. pose proof (q_filters _ _ _ _ Q) as F. unfold f_height in G. rewrite F in G. unfold rolled_back in G. destruct ok; cbn in G; [|lia].
    unfold lenN in G. rewrite take_length in G. lia.
  - exfalso. pose proof (q_filters _ _ _ _ Q) as F. unfold f_height in G. cbn in G. rewrite F in G. cbn in G. lia.
Qed.
Lemma accepted_run P cap ms : forall s s' xs, cbf_ok P cap s -> Forall io_ok ms -> all_accepted P ms s -> cbf_run P ms s = Val (s', xs) ->
  c_filters s' = c_filters s ++ chain_headers P (f_tip P s).2 (concat (carried <$> ms)) /\
  c_store s' = c_store s ++ chain_headers P (f_tip P s).2 (concat (carried <$> ms)).
Proof.
  induction ms as [|i ms IH]; intros s s' xs Ok Io A; cbn [cbf_run].
  { intros [= <- <-]. cbn. by rewrite !app_nil_r. }
  destruct (step_on P i s) as [[s1 x]|] eqn:E; [|done]. cbn [mbind_M].
  destruct (cbf_run P ms s1) as [[s2 xs']|] eqn:E2; [|done]. intros [= <- <-].
  apply Forall_cons in Io as [Io1 Io]. destruct A as [_ A]. destruct (A s1 x E) as [G A'].
  destruct (accepted_step P cap i s s1 x Ok Io1 E G) as [F1 F2].
  destruct (IH s1 s2 xs' (step_ok _ _ _ _ _ _ Ok E) Io A' E2) as [B1 B2]. rewrite B1, B2, F1, F2.
  assert (T : (f_tip P s1).2 = last_header P (f_tip P s).2 (carried i)). { unfold f_tip. rewrite F1. apply tip_chain. }
  rewrite T. cbn [fmap list_fmap concat]. change (list_fmap _ _ carried ms) with (carried <$> ms). rewrite chain_app, !app_assoc. done.
Qed.
Lemma granularity P cap st ins s outs ms ms' s1 x1 s2 x2 : chained P ((p_genesis P, p_header P (p_genesis P) 0) :: st) -> cbf_reach P cap st ins s outs ->
  Forall io_ok ms -> Forall io_ok ms' -> all_accepted P ms s -> all_accepted P ms' s -> concat (carried <$> ms) = concat (carried <$> ms') ->
  cbf_run P ms s = Val (s1, x1) -> cbf_run P ms' s = Val (s2, x2) -> c_filters s1 = c_filters s2 /\ c_store s1 = c_store s2.
Proof.
  intros C R I1 I2 A1 A2 E R1 R2. pose proof (run_ok P cap ins _ _ _ (cbf0_ok P cap st C) R) as Ok.
  destruct (accepted_run P cap ms s s1 x1 Ok I1 A1 R1) as [-> ->]. destruct (accepted_run P cap ms' s s2 x2 Ok I2 A2 R2) as [-> ->]. by rewrite E.
Qed.

(** ** Where the scan began *)
Definition began (a : N) (r : rescan) : rescan :=
  Rescan (r_active r) (r_current r) a (r_end r) (r_cache r) (r_watch r) (r_txs r) (r_requested r) (r_received r).
Definition begun (a : N) (s : cbf) : cbf := set_rescan (began a (c_rescan s)) s.

Section Begun.
Context (a : N).
Definition lift2 {B} (m : M (cbf * B)) : M (cbf * B) := match m with Val (s, x) => Val (begun a s, x) | Panic p => Panic p end.
Definition lift3 {B C} (m : M (cbf * B * C)) : M (cbf * B * C) := match m with Val (s, x, e) => Val (begun a s, x, e) | Panic p => Panic p end.

Lemma begun_requests x y t r : r_requests x y t (began a r) = match r_requests x y t r with Val (r', rs) => Val (began a r', rs) | Panic p => Panic p end.
Proof.
  unfold r_requests. destruct (_ <? _); [done|]. change (queue_cached t (began a r)) with (queue_cached t r). change (r_requested (began a r)) with (r_requested r).
  by destruct (limit_ranges _).
Qed.
Lemma begun_cfilters o x y t s : get_cfilters o x y t (begun a s) = lift3 (get_cfilters o x y t s).
Proof.
  unfold get_cfilters. change (c_peers (begun a s)) with (c_peers s). change (f_height (begun a s)) with (f_height s). destruct (decide _); [done|].
  destruct (_ <? _); [done|]. unfold assertM. destruct (_ <=? _); [|done]. change (c_rescan (begun a s)) with (began a (c_rescan s)). rewrite begun_requests.
  destruct (r_requests x y t (c_rescan s)) as [[r rs]|]; [|done]. cbn [mbind_M]. by destruct (ask_ranges _ _ _ _ _).
Qed.
Lemma begun_sync P k n now t s : sync P k n now t (begun a s) = lift2 (sync P k n now t s).
Proof.
  unfold sync, assertM. change (f_height (begun a s)) with (f_height s). destruct (_ <=? _); [|done]. destruct (match tr_checkpoint t with Some _ => _ | None => _ end); [done|].
  assert (E : (if f_height s <? tr_height t then send_getcfheaders P k now (f_height s + 1) (tr_height t) t (begun a s) else Val (begun a s, [])) =
     lift2 (if f_height s <? tr_height t then send_getcfheaders P k now (f_height s + 1) (tr_height t) t s else Val (s, []))).
  { destruct (_ <? _); [|done]. unfold send_getcfheaders. destruct (_ <? _); [done|]. destruct (tr_at _ _); [|done]. unfold get_cfheaders.
    change (c_inflight (begun a s)) with (c_inflight s). change (c_peers (begun a s)) with (c_peers s). destruct (c_inflight s !! _); [done|]. by destruct (sample_peer _ _) as [[]|]. }
  rewrite E. match type of E with _ = lift2 ?m => destruct m as [[s1 o]|]; [|done] end. cbn [lift2 mbind_M].
  change (r_active (c_rescan (begun a s1))) with (r_active (c_rescan s1)). destruct (r_active (c_rescan s1)); [|done].
  change (f_height (begun a s1)) with (f_height s1). change (r_current (c_rescan (begun a s1))) with (r_current (c_rescan s1)). rewrite begun_cfilters.
  by destruct (get_cfilters _ _ _ _ _) as [[[s2 o'] e]|].
Qed.
Lemma begun_idle P k now t s : idle P k now t (begun a s) = lift2 (idle P k now t s).
Proof.
  unfold idle. change (c_idle (begun a s)) with (c_idle s). destruct (_ <=? _); [|done]. rewrite begun_sync. by destruct (sync _ _ _ _ _ _) as [[s1 o]|].
Qed.
Lemma begun_imported k x y t s : headers_imported k x y t (begun a s) = lift3 (headers_imported k x y t s).
Proof.
  unfold headers_imported. change (r_active (c_rescan (begun a s))) with (r_active (c_rescan s)). destruct (r_active (c_rescan s)); [|done].
  change (r_current (c_rescan (begun a s))) with (r_current (c_rescan s)). change (r_end (c_rescan (begun a s))) with (r_end (c_rescan s)).
  destruct (_ <? _); [done|]. apply begun_cfilters.
Qed.
Lemma begun_cfheaders P k now t from ft stop prev hs s : received_cfheaders P k now t from ft stop prev hs (begun a s) = lift2 (received_cfheaders P k now t from ft stop prev hs s).
Proof.
  unfold received_cfheaders. change (c_inflight (begun a s)) with (c_inflight s). destruct (c_inflight s !! stop); [|done].
  destruct (negb _); [done|]. destruct (tr_get t stop); [|done].
  change (f_height (set_inflight ?z (begun a s))) with (f_height (set_inflight z s)). destruct (_ <=? _); [done|].
  change (f_tip P (set_inflight ?z (begun a s))) with (f_tip P (set_inflight z s)). destruct (negb _); [done|].
  destruct (_ <? _); [done|]. destruct (_ =? 0); [done|]. destruct (negb _); [done|]. unfold f_import. destruct (k_put k); [done|].
  change (c_filters (set_inflight ?z (begun a s))) with (c_filters s). change (c_store (set_inflight ?z (begun a s))) with (c_store s).
  change (c_filters (set_inflight ?z s)) with (c_filters s). change (c_store (set_inflight ?z s)) with (c_store s).
  change (set_filters ?u ?v (set_inflight ?z (begun a s))) with (begun a (set_filters u v (set_inflight z s))).
  rewrite begun_imported. destruct (headers_imported _ _ _ _ _) as [[[s2 o] e]|]; [|done]. cbn [lift3 mbind_M]. destruct e; [done|].
  unfold assertM. destruct (_ <=? _); [|done]. destruct (_ =? _); [done|]. rewrite begun_sync. by destruct (sync _ _ _ _ _ _) as [[s3 o3]|].
Qed.
Lemma begun_loop P n r : forall cur recv, process_loop P n (began a r) cur recv = process_loop P n r cur recv.
Proof. induction n as [|n IH]; intros cur recv; cbn [process_loop]; [done|]. destruct (recv !! cur) as [[[f hash] c]|]; [|done]. by rewrite IH. Qed.
Lemma begun_process P r : r_process P (began a r) = match r_process P r with Val (r', ms, es) => Val (began a r', ms, es) | Panic p => Panic p end.
Proof.
  unfold r_process. change (r_received (began a r)) with (r_received r). change (r_current (began a r)) with (r_current r). rewrite begun_loop.
  by destruct (process_loop _ _ _ _ _) as [[[[cur recv] ms] es]|].
Qed.
Lemma begun_cfilter P now t from ft hash f s : received_cfilter P now t from ft hash f (begun a s) = lift2 (received_cfilter P now t from ft hash f s).
Proof.
  unfold received_cfilter. destruct (negb _); [done|]. destruct (tr_get t hash) as [h|]; [|done].
  change (f_get P (begun a s) h) with (f_get P s h). destruct (f_get P s h) as [[fh header]|]; [|done].
  change (f_prev P (begun a s) h) with (f_prev P s h). destruct (f_prev P s h); [|done]. destruct (negb _); [done|].
  change (c_rescan (begun a s)) with (began a (c_rescan s)).
  assert (E : r_receive h f hash (began a (c_rescan s)) = match r_receive h f hash (c_rescan s) with Val (r', b) => Val (began a r', b) | Panic p => Panic p end).
  { unfold r_receive. change (r_requested (began a (c_rescan s))) with (r_requested (c_rescan s)). destruct (decide _); [|done].
    change (r_cache (began a (c_rescan s))) with (r_cache (c_rescan s)). by destruct (fc_push _ _ _ _) as [[c b]|]. }
  rewrite E. destruct (r_receive h f hash (c_rescan s)) as [[r rq]|]; [|done]. cbn [mbind_M]. destruct rq; cbn [mbind_M].
  - rewrite begun_process. destruct (r_process P r) as [[[r' ms] es]|]; [|done]. cbn [mbind_M].
    change (r_current (began a r)) with (r_current r). change (r_current (began a r')) with (r_current r').
    destruct (_ <? _); cbn [c_pending set_processed set_rescan begun]; by destruct (want_blocks ms (c_pending s)).
  - cbn [want_blocks]. done.
Qed.
Lemma begun_expire P k now hs : forall n s, expire P k now n hs (begun a s) = (begun a (expire P k now n hs s).1, (expire P k now n hs s).2).
Proof.
  induction hs as [|h hs IH]; intros n s; cbn [expire]; [done|].
  change (c_inflight (begun a s)) with (c_inflight s). change (c_peers (begun a s)) with (c_peers s).
  assert (X : forall s1 o, (let '(s, o') := expire P k now (Datatypes.S n) hs (begun a s1) in (s, o ++ o')) =
    (begun a (let '(s, o') := expire P k now (Datatypes.S n) hs s1 in (s, o ++ o')).1, (let '(s, o') := expire P k now (Datatypes.S n) hs s1 in (s, o ++ o')).2)).
  { intros s1 o. rewrite IH. by destruct (expire P k now (Datatypes.S n) hs s1). }
  destruct (c_inflight s !! h) as [[[start addr] expiry]|]; [|apply X]. destruct (_ <=? _); [|apply X].
  destruct (sample_peer _ _) as [[q persistent]|]; [|apply X]. destruct (_ && _).
  - change (set_inflight ?z (set_cpeers ?p (begun a s))) with (begun a (set_inflight z (set_cpeers p s))).
    change (c_inflight (set_cpeers ?p (begun a s))) with (c_inflight s). apply X.
  - change (set_inflight ?z (begun a s)) with (begun a (set_inflight z s)). apply X.
Qed.
Lemma begun_step P i s : keeps_begin i -> step_on P i (begun a s) = lift2 (step_on P i s).
Proof.
  unfold keeps_begin, step_on, cbf_step. intros K.
  destruct (i_op i) as [|addr ob fl pe|addr|block hh|hh|rv|tx|tx ou|from ft st pv hs|from ft b st|from ft ha f| |scr|tx ou|fr to w|b c].
  - apply begun_idle.
  - unfold cbf_negotiated. destruct (_ && _); [|done]. change (set_cpeers ?z (begun a s)) with (begun a (set_cpeers z s)). apply begun_sync.
  - done.
  - change (c_pending (begun a s)) with (c_pending s). by destruct (decide _).
  - done.
  - subst rv. cbn [last mbind_M]. rewrite begun_sync. by destruct (sync _ _ _ _ _ _) as [[s1 o]|].
  - done.
  - done.
  - apply begun_cfheaders.
  - unfold received_getcfheaders. destruct (negb _); [done|]. destruct (tr_get _ _) as [z|]; [|done]. change (f_range P (begun a s) b z) with (f_range P s b z).
    destruct (f_range P s b z); [done|]. change (f_prev P (begun a s) b) with (f_prev P s b). by destruct (f_prev P s b).
  - apply begun_cfilter.
  - unfold cbf_timer. rewrite begun_idle. destruct (idle _ _ _ _ _) as [[s1 o1]|]; [|done]. cbn [lift2 mbind_M]. change (c_inflight (begun a s1)) with (c_inflight s1).
    rewrite begun_expire. destruct (expire _ _ _ _ _ s1) as [s2 o2]. cbn [fst snd]. change (c_processed (begun a s2)) with (c_processed s2).
    change (r_active (c_rescan (begun a s2))) with (r_active (c_rescan s2)). destruct (_ && _); [|done].
    change (set_rescan (r_reset (c_rescan (begun a s2))) (begun a s2)) with (begun a (set_rescan (r_reset (c_rescan s2)) s2)).
    change (r_current (c_rescan (begun a ?z))) with (r_current (c_rescan z)). change (f_height (begun a ?z)) with (f_height z).
    rewrite begun_cfilters. by destruct (get_cfilters _ _ _ _ _) as [[[s3 o3] e]|].
  - done.
  - done.
  - done.
  - rewrite begun_cfilters. by destruct (get_cfilters _ _ _ _ _) as [[[s3 o3] e]|].
Qed.
Lemma begun_run P ms : forall s, Forall keeps_begin ms -> cbf_run P ms (begun a s) = lift2 (cbf_run P ms s).
Proof.
  induction ms as [|i ms IH]; intros s K; cbn [cbf_run]; [done|]. apply Forall_cons in K as [K1 K]. rewrite begun_step by done.
  destruct (step_on P i s) as [[s1 x]|]; [|done]. cbn [lift2 mbind_M]. rewrite IH by done. by destruct (cbf_run P ms s1) as [[s2 xs]|].
Qed.
End Begun.

(** ** A rescan of the future *)
Lemma future P i s s' x from to watch : i_op i = CRescan from to watch -> f_height s < starts_at (i_tree i) from -> step_on P i s = Val (s', x) ->
  exists stop, x = [CoRescanStarted (starts_at (i_tree i) from) stop] /\
    s' = set_rescan (r_restart (starts_at (i_tree i) from) stop watch (c_rescan s)) s /\ (to = Unbounded -> stop = None).
Proof.
  intros Op F. unfold step_on. rewrite Op. cbn [cbf_step]. unfold cbf_rescan. fold (starts_at (i_tree i) from).
  set (stop := match to with Unbounded => None | Included h => Some h | Excluded h => _ end). set (s0 := set_rescan _ s).
  intros E. exists stop. assert (X : x = [CoRescanStarted (starts_at (i_tree i) from) stop] /\ s' = s0).
  { destruct (decide _); [by injection E as <- <-|]. change (f_height s0) with (f_height s) in E.
    destruct (N.ltb_spec (match stop with Some h => N.min h (f_height s) | None => f_height s end) (starts_at (i_tree i) from)); [by injection E as <- <-|].
    destruct stop; lia. }
  destruct X as [-> ->]. split; [done|]. split; [done|]. by intros ->.
Qed.
Lemma caught_up P i s s' x watch ms : i_op i = CRescan (Included (f_height s + 1)) Unbounded watch -> step_on P i s = Val (s', x) ->
  r_active (c_rescan s) = true -> r_current (c_rescan s) = f_height s + 1 -> r_end (c_rescan s) = None -> r_requested (c_rescan s) = ∅ ->
  list_to_set watch = r_watch (c_rescan s) -> Forall keeps_begin ms ->
  x = [CoRescanStarted (f_height s + 1) None] /\
  match cbf_run P ms s, cbf_run P ms s' with Val (_, y), Val (_, y') => y = y' | Panic p, Panic p' => p = p' | _, _ => False end.
Proof.
  intros Op E A C En Rq W K. destruct (future P i s s' x _ _ _ Op ltac:(cbn; lia) E) as (stop & -> & -> & St). rewrite (St eq_refl). cbn [starts_at]. split; [done|].
  replace (set_rescan (r_restart (f_height s + 1) None watch (c_rescan s)) s) with (begun (f_height s + 1) s).
  2: { unfold begun. f_equal. unfold r_restart, began. rewrite A, C, En, Rq, <- W. done. }
  rewrite (begun_run (f_height s + 1) P ms s K). by destruct (cbf_run P ms s) as [[s1 y]|].
Qed.
