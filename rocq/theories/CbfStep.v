(** What one step of the compact filter manager can do. *)
From Coq Require Import Sorting.Sorted.
From Verif Require Import Base UtilModel UtilSpec UtilProofs CbfModel CbfSpec CbfProofs.
Open Scope N_scope.

Record cbf_ok (P : params) (cap : N) (s : cbf) : Prop := {
  ok_cache : fc_inv (@lenN N) cap (r_cache (c_rescan s));
  ok_chain : chained P (f_entries P s);
  ok_auth : forall h f, fc_get (r_cache (c_rescan s)) h = Some f -> authentic P s h f
}.

Definition after_import (hs st : list (N * N)) (stop_hash : N) (s : cbf) : cbf :=
  set_filters (c_filters s ++ hs) st (set_inflight (delete stop_hash (c_inflight s)) s).

(** The rescan state after a filter was accepted. *)
Definition after_receive (h : N) (f : bfilter) (hash : N) (c : fcache bfilter) (r : rescan) : rescan :=
  Rescan (r_active r) (r_current r) (r_start r) (r_end r) c (r_watch r) (r_txs r) (r_requested r ∖ {[h]}) (<[h := (f, hash, false)]> (r_received r)).

Definition rolled_back (ok : bool) (h : N) (c : fcache bfilter) (s : cbf) : cbf :=
  let r := c_rescan s in
  let cur := if ok && r_active r && (h + 1 <? r_current r) then N.max (h + 1) (r_start r) else r_current r in
  let s := set_rescan (Rescan (r_active r) cur (r_start r) (r_end r) c (r_watch r) (r_txs r) (r_requested r) (r_received r)) s in
  if ok then set_filters (take (N.to_nat h) (c_filters s)) (take (N.to_nat h) (c_store s)) s else s.

Inductive effect (P : params) (i : input) (s : cbf) : cbf -> list cout -> Prop :=
| E_quiet s' x : (forall reverted h, i_op i = CImported reverted -> last reverted = Some h -> f_height s <= h - 1) ->
    quiet (i_tree i) s s' x -> effect P i s s' x
| E_import from stop_hash prev hashes stop st s' x :
    i_op i = CCFHeaders from 0 stop_hash prev hashes -> is_Some (c_inflight s !! stop_hash) ->
    tr_get (i_tree i) stop_hash = Some stop -> f_height s < stop -> prev = (f_tip P s).2 ->
    1 <= lenN hashes <= 2000 -> stop - f_height s = lenN hashes ->
    (k_put (i_k i) = None -> st = c_store s ++ chain_headers P prev hashes) ->
    quiet (i_tree i) (after_import (chain_headers P prev hashes) st stop_hash s) s' x -> effect P i s s' x
| E_filter from hash height f s' x :
    i_op i = CCFilter from 0 hash f -> tr_get (i_tree i) hash = Some height -> authentic P s height f ->
    c_rescan s' = c_rescan s -> quiet (i_tree i) s s' x -> effect P i s s' (CoFilterReceived from hash height f :: x)
| E_scan from hash height f c b r' ms es s' x :
    i_op i = CCFilter from 0 hash f -> tr_get (i_tree i) hash = Some height -> authentic P s height f ->
    height ∈ r_requested (c_rescan s) -> fc_push lenN height f (r_cache (c_rescan s)) = Val (c, b) ->
    processes P (after_receive height f hash c (c_rescan s)) r' ms es ->
    c_filters s' = c_filters s -> c_store s' = c_store s -> c_inflight s' = c_inflight s -> c_rescan s' = r' ->
    (c_pending s', x) = (let '(p, o) := want_blocks ms (c_pending s) in (p, o ++ if decide (p = ∅) then [CoScanned (r_current r')] else [])) ->
    effect P i s s' (CoFilterReceived from hash height f :: es ++ x)
| E_rollback reverted h c s' x ok :
    i_op i = CImported reverted -> last reverted = Some h -> h - 1 < f_height s ->
    ok = k_rollback_ok (i_k i) -> fc_rollback lenN (h - 1) (r_cache (c_rescan s)) = Val c ->
    quiet (i_tree i) (rolled_back ok (h - 1) c s) s' x -> effect P i s s' x
| E_restart from to watch start stop s1 r' ms es x y :
    i_op i = CRescan from to watch ->
    quiet (i_tree i) (set_rescan (r_restart start stop watch (c_rescan s)) s) s1 x ->
    ((r' = c_rescan s1 /\ ms = [] /\ es = []) \/ processes P (c_rescan s1) r' ms es) ->
    y = CoGetBlock <$> ms.*2 ->
    effect P i s (set_rescan r' s1) (CoRescanStarted start stop :: x ++ es ++ y).

Lemma headers_imported_spec k a b t s :
  (exists s' o e, headers_imported k a b t s = Val (s', o, e) /\ quiet t s s' o /\ c_peers s' = c_peers s /\ f_height s' = f_height s /\
     (e = None \/ e = Some NotConnected /\ r_active (c_rescan s) = true /\ c_peers s = ∅ \/
      e = Some InvalidRange /\ exists h, h <= b /\ tr_at t h = None)) \/
  (headers_imported k a b t s = Panic (PAssert 449) /\ f_height s < b).
Proof.
  unfold headers_imported. destruct (r_active (c_rescan s)) eqn:Ea.
  2: { left. exists s, [], None. split; [done|]. split; [apply quiet_refl|]. do 2 (split; [done|]). by left. }
  destruct (N.ltb_spec (N.min b (default b (r_end (c_rescan s)))) (N.max a (r_current (c_rescan s)))).
  { left. exists s, [], None. split; [done|]. split; [apply quiet_refl|]. do 2 (split; [done|]). by left. }
  destruct (get_cfilters_spec (k_order k 1) (N.max a (r_current (c_rescan s))) (N.min b (default b (r_end (c_rescan s)))) t s)
    as [(-> & _ & _ & X)|(r & o & e & -> & Q & E1 & E2 & _)].
  { right. split; [done|]. lia. }
  left. eexists _, _, _. split; [done|]. split; [done|]. do 2 (split; [done|]).
  destruct e as [[]|]; [| |by left].
  - right. right. split; [done|]. destruct (E2 eq_refl) as [?|(h & ? & ?)]; [lia|]. exists h. split; [lia|done].
  - right. left. split; [done|]. split; [done|]. by apply E1.
Qed.


Lemma quiet_same t s s' o : c_filters s' = c_filters s -> c_store s' = c_store s -> c_rescan s' = c_rescan s ->
  (forall h, (has s' h <= has s h + count (asks_headers h) o)%nat) -> Forall quiet_out o -> quiet t s s' o.
Proof. intros E1 E2 E3 E4 E5. split; try done; rewrite E3; [done|]. intros; by left. Qed.

Lemma has_delete s h h' : (has (set_inflight (delete h (c_inflight s)) s) h' <= has s h')%nat.
Proof.
  unfold has. cbn. destruct (decide (h = h')) as [->|N]; [rewrite lookup_delete; lia|]. rewrite lookup_delete_ne by done. lia.
Qed.

(** [cfheaders]: the message is refused, or the headers are added. *)
Lemma cfheaders_spec P k now t from ftype stop_hash prev hashes s :
  (exists s' x, received_cfheaders P k now t from ftype stop_hash prev hashes s = Val (s', x) /\ quiet t s s' x) \/
  (ftype = 0 /\ is_Some (c_inflight s !! stop_hash) /\ exists stop st,
    tr_get t stop_hash = Some stop /\ f_height s < stop /\ prev = (f_tip P s).2 /\
    1 <= lenN hashes <= 2000 /\ stop - f_height s = lenN hashes /\
    let s1 := after_import (chain_headers P prev hashes) st stop_hash s in
    (k_put k = None -> st = c_store s ++ chain_headers P prev hashes) /\
    ((exists s' x, received_cfheaders P k now t from ftype stop_hash prev hashes s = Val (s', x) /\ quiet t s1 s' x) \/
     (k_put k = None /\ exists p, received_cfheaders P k now t from ftype stop_hash prev hashes s = Panic p /\
       ((p = PAssert 707 /\ r_active (c_rescan s) = true /\ c_peers s = ∅) \/
        (exists h, h <= lenN st /\ tr_at t h = None) \/ f_height s1 < lenN st \/ tr_height t < f_height s1)))).
Proof.
  unfold received_cfheaders.
  destruct (c_inflight s !! stop_hash) as [v|] eqn:Ei; [|left; exists s, []; split; [done|apply quiet_refl]].
  assert (QD : forall o, Forall quiet_out o -> quiet t s (set_inflight (delete stop_hash (c_inflight s)) s) o).
  { intros o F. apply quiet_same; try done. intros h. pose proof (has_delete s stop_hash h). lia. }
  destruct (N.eqb_spec ftype 0) as [->|Nf]; cbn [negb]; [|left; eexists _, _; split; [done|]; apply QD; repeat constructor].
  destruct (tr_get t stop_hash) as [stop|] eqn:Et; [|left; eexists _, _; split; [done|]; apply QD; repeat constructor].
  change (f_height (set_inflight _ s)) with (f_height s). change (f_tip P (set_inflight _ s)) with (f_tip P s).
  destruct (N.leb_spec stop (f_height s)); [left; eexists _, _; split; [done|]; apply QD; repeat constructor|].
  destruct (N.eqb_spec prev (f_tip P s).2) as [Ep|Np]; cbn [negb].
  2: { left; eexists _, _; split; [done|]. apply quiet_idle, QD; repeat constructor. }
  destruct (N.ltb_spec max_cfheaders (lenN hashes)) as [?|L1]; [left; eexists _, _; split; [done|]; apply QD; repeat constructor|].
  destruct (N.eqb_spec (lenN hashes) 0) as [?|L2]; [left; eexists _, _; split; [done|]; apply QD; repeat constructor|].
  destruct (N.eqb_spec (stop - f_height s) (lenN hashes)) as [L3|?]; cbn [negb]; [|left; eexists _, _; split; [done|]; apply QD; repeat constructor].
  right. split; [done|]. split; [by eexists|]. exists stop. unfold f_import. destruct (k_put k) as [n|] eqn:Ek.
  - exists (c_store s ++ take n (chain_headers P prev hashes)). do 3 (split; [done|]). unfold max_cfheaders in L1. split; [lia|]. split; [done|].
    split; [done|]. left. eexists _, _. split; [done|]. apply quiet_same; try done; [intros; apply Nat.le_add_r|repeat constructor].
  - exists (c_store s ++ chain_headers P prev hashes). do 3 (split; [done|]). unfold max_cfheaders in L1. split; [lia|]. split; [done|].
    split; [done|]. change (set_filters _ _ _) with (after_import (chain_headers P prev hashes) (c_store s ++ chain_headers P prev hashes) stop_hash s).
    set (s1 := after_import _ _ _ s). set (hh := lenN (c_store s ++ chain_headers P prev hashes)).
    change (lenN _) with hh.
    destruct (headers_imported_spec k (f_height s) hh t s1) as [(s' & o & e & -> & Q & Pe & Hh & Ee)|(-> & X)].
    2: { right. split; [done|]. eexists. split; [done|]. right. right. by left. }
    cbn [mbind_M]. destruct Ee as [->|[(-> & A & B)|(-> & h & H1 & H2)]].
    + unfold assertM. destruct (N.leb_spec hh (tr_height t)) as [?|L].
      2: { right. split; [done|]. eexists. split; [done|]. right. left. exists hh. split; [lia|]. by apply tr_at_none. }
      destruct (hh =? tr_height t); [left; eexists _, _; split; [done|]; apply quiet_out_snoc; done|].
      destruct (sync_spec P k 2 now t s') as [[L ->]|(? & s2 & o2 & -> & Q2 & _)].
      * right. split; [done|]. eexists. split; [done|]. right. right. right. rewrite Hh in L. exact L.
      * left. eexists _, _. split; [done|]. by eapply quiet_trans.
    + right. split; [done|]. eexists. split; [done|]. left. done.
    + right. split; [done|]. eexists. split; [done|]. right. left. by exists h.
Qed.

Lemma f_prev_some P s h : is_Some (f_get P s h) -> is_Some (f_prev P s h).
Proof.
  unfold f_prev, f_get. intros H. destruct (N.eqb_spec h 0); [by eexists|].
  apply lookup_lt_is_Some in H. assert (X : is_Some (f_entries P s !! N.to_nat (h - 1))) by (apply lookup_lt_is_Some; lia).
  destruct X as [x ->]. by eexists.
Qed.
Lemma authentic_intro P s h f hash header prev : f_get P s h = Some (hash, header) -> f_prev P s h = Some prev ->
  p_header P (p_hash P f) prev = header -> authentic P s h f.
Proof.
  unfold f_get, f_prev. intros H1 H2 H3. exists hash, header. split; [done|].
  destruct (N.eqb_spec h 0) as [->|N]; [left; by injection H2 as <-|]. right.
  apply fmap_Some in H2 as (e & H2 & ->). exists e. split; [lia|]. done.
Qed.

Lemma push_total cap c h f : fc_inv (@lenN N) cap c -> exists c' b, fc_push lenN h f c = Val (c', b) /\ fc_inv (@lenN N) cap c' /\
  forall k g, fc_get c' k = Some g -> (k = h /\ g = f) \/ fc_get c k = Some g.
Proof.
  intros I. destruct (N.leb_spec (lenN f) cap) as [L|L].
  - destruct (push_fits lenN cap c h f I L) as (c' & cut & E & I' & G & _). exists c', true. split; [done|]. split; [done|].
    intros k g. rewrite G. destruct (k <? cut); [done|]. destruct (N.eqb_spec h k) as [->|]; [intros [= <-]; by left|by right].
  - exists c, false. split; [by apply (push_big lenN cap)|]. split; [done|]. intros k g H. by right.
Qed.

Lemma want_quiet ms : forall p, Forall (fun o => exists h, o = CoGetBlock h) (want_blocks ms p).2.
Proof.
  induction ms as [|[h hash] ms IH]; intros p; cbn [want_blocks]; [constructor|].
  destruct (decide (h ∈ p)); [done|]. specialize (IH ({[h]} ∪ p)). destruct (want_blocks ms _) as [p' o]. cbn in *.
  constructor; [by eexists|done].
Qed.

Lemma cfilter_spec P cap k now t from ftype hash f s : cbf_ok P cap s ->
  exists s' x, received_cfilter P now t from ftype hash f s = Val (s', x) /\
    effect P (Input k now t (CCFilter from ftype hash f)) s s' x.
Proof.
  intros [I _ _]. unfold received_cfilter.
  assert (Q : forall o, Forall quiet_out o -> effect P (Input k now t (CCFilter from ftype hash f)) s s o).
  { intros o F. apply E_quiet; [done|]. apply quiet_same; try done. intros; lia. }
  destruct (N.eqb_spec ftype 0) as [->|]; cbn [negb]; [|eexists _, _; split; [done|]; apply Q; repeat constructor].
  destruct (tr_get t hash) as [height|] eqn:Et; [|eexists _, _; split; [done|]; apply Q; repeat constructor].
  destruct (f_get P s height) as [[fh header]|] eqn:Eg; [|eexists _, _; split; [done|]; apply Q; repeat constructor].
  destruct (f_prev P s height) as [prev|] eqn:Ep.
  2: { exfalso. destruct (f_prev_some P s height) as [y Ey]; [by eexists|]. congruence. }
  destruct (N.eqb_spec (p_header P (p_hash P f) prev) header) as [Ea|]; cbn [negb]; [|eexists _, _; split; [done|]; apply Q; repeat constructor].
  pose proof (authentic_intro _ _ _ _ _ _ _ Eg Ep Ea) as A. unfold r_receive. destruct (decide (height ∈ r_requested (c_rescan s))) as [D|D].
  - destruct (push_total cap (r_cache (c_rescan s)) height f I) as (c & b & Ec & _). rewrite Ec. cbn [mbind_M].
    destruct (process_spec P (after_receive height f hash c (c_rescan s))) as (r' & ms & es & Er & Pr).
    change (Rescan _ _ _ _ c _ _ _ _) with (after_receive height f hash c (c_rescan s)). rewrite Er. cbn [mbind_M].
    set (s2 := if _ <? _ then set_processed (Some now) (set_rescan r' s) else set_rescan r' s).
    assert (S2 : c_pending s2 = c_pending s /\ c_filters s2 = c_filters s /\ c_store s2 = c_store s /\ c_inflight s2 = c_inflight s /\ c_rescan s2 = r')
      by (unfold s2; by destruct (_ <? _)).
    destruct S2 as (S2a & S2b & S2c & S2d & S2e). rewrite S2a.
    destruct (want_blocks ms (c_pending s)) as [p o] eqn:Ew. eexists _, _. split; [done|].
    eapply (E_scan _ _ _ from hash height f c b r' ms es); try done. rewrite Ew. cbn. by rewrite S2e.
  - cbn [mbind_M]. cbn [want_blocks]. eexists _, _. split; [done|]. cbn [app].
    apply (E_filter _ _ _ from hash height f); try done. apply quiet_same; try done. + intros; unfold has; cbn; lia.
    + destruct (decide _); repeat constructor.
Qed.

Lemma rollback_spec cap k h s : fc_inv (@lenN N) cap (r_cache (c_rescan s)) ->
  (f_height s <= h /\ cbf_rollback k h s = Val (s, true)) \/
  (h < f_height s /\ exists c, fc_rollback lenN h (r_cache (c_rescan s)) = Val c /\
    cbf_rollback k h s = Val (rolled_back (k_rollback_ok k) h c s, k_rollback_ok k)).
Proof.
  intros I. unfold cbf_rollback. destruct (N.leb_spec (f_height s) h); [by left|]. right. split; [done|].
  destruct (rollback_ok lenN cap (r_cache (c_rescan s)) h I) as (c & E & _). exists c. split; [done|].
  unfold r_rollback. rewrite E. cbn [mbind_M]. unfold f_rollback, rolled_back. destruct (k_rollback_ok k); cbn.
  - destruct (_ && _); done.
  - done.
Qed.

Lemma rescan_spec P k now t from to watch s :
  (exists s' x, cbf_rescan P k t from to watch s = Val (s', x) /\ effect P (Input k now t (CRescan from to watch)) s s' x) \/
  (cbf_rescan P k t from to watch s = Panic (PAssert 423) /\ tr_height t < f_height s).
Proof.
  unfold cbf_rescan. set (start := match from with Unbounded => _ | Included h => h | Excluded h => h + 1 end).
  set (stop := match to with Unbounded => None | Included h => Some h | Excluded h => _ end).
  set (s1 := set_rescan (r_restart start stop watch (c_rescan s)) s).
  assert (X : exists s' x, Val (s1, [CoRescanStarted start stop]) = Val (s', x) /\ effect P (Input k now t (CRescan from to watch)) s s' x).
  { eexists _, _. split; [done|].
    assert (Y : s1 = set_rescan (c_rescan s1) s1) by done. rewrite Y.
    apply (E_restart P _ _ from to watch start stop s1 (c_rescan s1) [] [] [] []); [done|apply quiet_refl|by left|done]. }
  destruct (decide (r_watch (c_rescan s1) = ∅)); [by left|].
  change (f_height s1) with (f_height s). set (lst := match stop with Some h => _ | None => _ end).
  destruct (N.ltb_spec lst start); [by left|]. assert (lst <= f_height s) by (unfold lst; destruct stop; lia).
  destruct (get_cfilters_spec (k_order k 0) start lst t s1) as [(_ & _ & _ & ?)|(r & o & e & -> & Q & E1 & E2 & _)].
  { change (f_height s1) with (f_height s) in *. lia. }
  cbn [mbind_M].
  assert (Z : exists s' x, ('(r, ms, es) <-- r_process P (c_rescan (set_rescan r s1)) ;;
      Val (set_rescan r (set_rescan r s1), [CoRescanStarted start stop] ++ o ++ es ++ (CoGetBlock <$> ms.*2))) = Val (s', x) /\
     effect P (Input k now t (CRescan from to watch)) s s' x).
  { destruct (process_spec P (c_rescan (set_rescan r s1))) as (r' & ms & es & -> & Pr). cbn [mbind_M]. eexists _, _. split; [done|].
    cbn [app].
    change (set_rescan r' (set_rescan r' s1)) with (set_rescan r' (set_rescan r s1)).
    eapply (E_restart P _ _ from to watch start stop (set_rescan r s1) r' ms es o); [done|done|by right|done]. }
  destruct e as [[]|]; [right|by left|by left].
  split; [done|]. destruct (E2 eq_refl) as [?|(h & Hh & T)]; [lia|]. apply tr_at_none in T. lia.
Qed.

(** Every step is one of the effects, or panics in a known way. *)
Lemma step_spec P cap i s : cbf_ok P cap s ->
  (exists s' x, step_on P i s = Val (s', x) /\ effect P i s s' x) \/
  exists p, step_on P i s = Panic p /\
    (((forall reverted h, i_op i = CImported reverted -> last reverted = Some h -> f_height s <= h - 1) /\ tr_height (i_tree i) < f_height s) \/
     (exists reverted h, i_op i = CImported reverted /\ last reverted = Some h /\ k_rollback_ok (i_k i) = true /\ tr_height (i_tree i) < h - 1) \/
     (exists reverted h, i_op i = CImported reverted /\ last reverted = Some h /\ k_rollback_ok (i_k i) = false) \/
     (exists a b, i_op i = CRequestFilters a b /\ p = PAssert 449 /\ f_height s < b) \/
     (exists from stop_hash prev hashes stop, i_op i = CCFHeaders from 0 stop_hash prev hashes /\ is_Some (c_inflight s !! stop_hash) /\
        tr_get (i_tree i) stop_hash = Some stop /\ f_height s < stop /\ prev = (f_tip P s).2 /\ stop - f_height s = lenN hashes /\ k_put (i_k i) = None /\
        let st := c_store s ++ chain_headers P prev hashes in
        ((p = PAssert 707 /\ r_active (c_rescan s) = true /\ c_peers s = ∅) \/
        (exists h, h <= lenN st /\ tr_at (i_tree i) h = None) \/ lenN (c_filters s ++ chain_headers P prev hashes) < lenN st \/
        tr_height (i_tree i) < lenN (c_filters s ++ chain_headers P prev hashes)))).
Proof.
  intros Ok. destruct i as [k now t o]. unfold step_on. cbn [i_k i_now i_tree i_op].
  destruct o; cbn [cbf_step].
  - destruct (idle_spec P k now t s) as [[? ->]|(s' & x & -> & Q & _)]; [right; eexists; split; [done|]; by left|].
    left. eexists _, _. split; [done|]. by apply E_quiet.
  - unfold cbf_negotiated. destruct (_ && _).
    2: { left. eexists _, _. split; [done|]. apply E_quiet; [done|]. apply quiet_refl. }
    set (s1 := set_cpeers _ s). destruct (sync_spec P k 0 now t s1) as [[? ->]|(_ & s' & x & -> & Q & _)]; [right; eexists; split; [done|]; by left|].
    left. eexists _, _. split; [done|]. apply E_quiet; [done|]. eapply (quiet_trans _ _ s1 _ []); [|exact Q].
    apply quiet_same; try done. intros; unfold has; cbn; lia.
  - left. eexists _, _. split; [done|]. apply E_quiet; [done|]. apply quiet_same; try done. intros; unfold has; cbn; lia.
  - destruct (decide _); (left; eexists _, _; split; [done|]; apply E_quiet; [done|]; apply quiet_same; try done; try (intros; unfold has; cbn; lia)).
    repeat constructor.
  - left. eexists _, _. split; [done|]. apply E_quiet; [done|]. apply quiet_same; try done. intros; unfold has; cbn; lia.
  - destruct (last reverted) as [h|] eqn:El.
    2: { cbn [mbind_M]. destruct (sync_spec P k 0 now t s) as [[? ->]|(_ & s' & x & -> & Q & _)]; [right; eexists; split; [done|]; left; split; [|done]; cbn; intros r h' [= <-]; congruence|].
         left. eexists _, _. split; [done|]. apply E_quiet; [cbn; intros r h [= <-]; congruence|]. exact Q. }
    destruct (rollback_spec cap k (h - 1) s) as [[L ->]|(L & c & Ec & ->)]; [apply Ok| |]; cbn [mbind_M].
    + destruct (sync_spec P k 0 now t s) as [[? ->]|(_ & s' & x & -> & Q & _)]; [right; eexists; split; [done|]; left; split; [|done]; cbn; intros r h' [= <-]; congruence|].
      left. eexists _, _. split; [done|]. apply E_quiet; [cbn; intros r h' [= <-]; congruence|]. exact Q.
    + set (s1 := rolled_back _ _ _ s). destruct (sync_spec P k 0 now t s1) as [[L2 ->]|(_ & s' & x & -> & Q & _)].
      * right. eexists. split; [done|]. unfold s1, rolled_back in L2. destruct (k_rollback_ok k) eqn:Ek.
        -- right. left. exists reverted, h. do 3 (split; [done|]). unfold f_height in L2 at 1. cbn in L2. unfold lenN in L2.
           rewrite take_length in L2. lia.
        -- right. right. left. exists reverted, h. done.
      * left. eexists _, _. split; [done|]. eapply (E_rollback P _ s reverted h c s' _ (k_rollback_ok k)); try done.
        eapply quiet_trans; [|exact Q]. apply quiet_same; try done. intros; apply Nat.le_add_r. by destruct (k_rollback_ok k); repeat constructor.
  - left. eexists _, _. split; [done|]. apply E_quiet; [done|]. split; try done. intros; by left. intros; unfold has; cbn; lia.
  - left. eexists _, _. split; [done|]. apply E_quiet; [done|]. split; try done. intros; by left. intros; unfold has; cbn; lia.
  - destruct (cfheaders_spec P k now t from ftype stop_hash prev hashes s) as [(s' & x & -> & Q)|(-> & H1 & stop & st & H2 & H3 & H4 & H5 & H6 & H7 & [(s' & x & -> & Q)|(K & p & -> & H8)])].
    + left. eexists _, _. split; [done|]. by apply E_quiet.
    + left. eexists _, _. split; [done|]. by eapply (E_import P _ s from stop_hash prev hashes stop st).
    + right. eexists. split; [done|]. do 4 right. exists from, stop_hash, prev, hashes, stop. do 7 (split; [done|]).
      rewrite (H7 K) in H8. exact H8.
  - left. unfold received_getcfheaders.
    assert (Q : forall x, Forall quiet_out x -> effect P (Input k now t (CGetCFHeaders from ftype start stop_hash)) s s x).
    { intros x F. apply E_quiet; [done|]. apply quiet_same; try done. intros; lia. }
    destruct (negb _); [eexists _, _; split; [done|]; apply Q; repeat constructor|].
    destruct (tr_get t stop_hash) as [stop|]; [|eexists _, _; split; [done|]; apply Q; repeat constructor].
    destruct (f_range P s start stop) as [|e es] eqn:E; [eexists _, _; split; [done|]; apply Q; repeat constructor|].
    destruct (f_prev P s start) as [prev|] eqn:Ep; [eexists _, _; split; [done|]; apply Q; repeat constructor|].
    exfalso. destruct (f_prev_some P s start) as [y Ey]; [|congruence].
    unfold f_get. apply lookup_lt_is_Some. unfold f_range in E.
    destruct (drop _ (f_entries P s)) as [|e' es'] eqn:D; [by rewrite take_nil in E|].
    assert (X : (length (drop (N.to_nat (N.min (lenN (f_entries P s)) start)) (f_entries P s)) = Datatypes.S (length es'))%nat) by (by rewrite D).
    rewrite drop_length in X. unfold lenN in X. lia.
  - left. exact (cfilter_spec P cap k now t from ftype hash f s Ok).
  - destruct (timer_spec P k now t s) as [[? ->]|(s' & x & -> & Q)]; [right; eexists; split; [done|]; by left|].
    left. eexists _, _. split; [done|]. by apply E_quiet.
  - left. eexists _, _. split; [done|]. apply E_quiet; [done|]. split; try done. intros; by left. intros; unfold has; cbn; lia.
  - left. eexists _, _. split; [done|]. apply E_quiet; [done|]. split; try done. intros; by left. intros; unfold has; cbn; lia.
  - destruct (rescan_spec P k now t from to watch s) as [X|(-> & L)]; [by left|]. right. eexists. split; [done|]. by left.
  - destruct (get_cfilters_spec (k_order k 0) a b t s) as [(-> & _ & _ & L)|(r & o & e & -> & Q & _)].
    + right. eexists. split; [done|]. do 3 right. left. by exists a, b.
    + left. eexists _, _. split; [done|]. apply E_quiet; [done|]. by apply quiet_out_snoc.
Qed.

Lemma step_effect P cap i s s' x : cbf_ok P cap s -> step_on P i s = Val (s', x) -> effect P i s s' x.
Proof. intros Ok E. destruct (step_spec P cap i s Ok) as [(s1 & x1 & E1 & F)|(p & E1 & _)]; rewrite E1 in E; [by injection E as <- <-|done]. Qed.
