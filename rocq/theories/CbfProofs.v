(** Proofs about the compact filter manager. *)
From Coq Require Import Sorting.Sorted.
From Verif Require Import Base UtilModel UtilSpec UtilProofs CbfModel CbfSpec.
Open Scope N_scope.

(** ** Ranges *)
Lemma elem_heights a b h : h ∈ heights a b <-> a <= h <= b.
Proof.
  unfold heights. rewrite elem_of_list_fmap. setoid_rewrite elem_of_seq. split.
  - intros (i & -> & H). lia.
  - intros H. exists (N.to_nat (h - a)). lia.
Qed.
Lemma heights_sorted a b : StronglySorted N.lt (heights a b).
Proof.
  unfold heights. generalize (N.to_nat (b + 1 - a)). intros n. generalize 0%nat.
  induction n as [|n IH]; intros k; cbn; constructor; [apply IH|].
  apply Forall_forall. intros x (i & -> & Hi)%elem_of_list_fmap. apply elem_of_seq in Hi. lia.
Qed.

Lemma covered_cons a b rs h : covered ((a, b) :: rs) h <-> (a <= h <= b) \/ covered rs h.
Proof.
  unfold covered. split.
  - intros (x & y & [E|E]%elem_of_cons & H); [injection E as -> ->; by left|right; by exists x, y].
  - intros [H|(x & y & E & H)]; [exists a, b; split; [left|done]|exists x, y; split; [by right|done]].
Qed.
Lemma covered_nil h : ~ covered [] h.
Proof. intros (x & y & E & _). by apply elem_of_nil in E. Qed.
Lemma covered_app l1 l2 h : covered (l1 ++ l2) h <-> covered l1 h \/ covered l2 h.
Proof.
  induction l1 as [|[a b] l1 IH]; cbn [app].
  - split; [by right|]. intros [H|H]; [by apply covered_nil in H|done].
  - rewrite !covered_cons, IH. tauto.
Qed.

Definition good_ranges (lo hi : N) (rs : list (N * N)) : Prop :=
  ascending rs /\ Forall (fun r => lo <= r.1 /\ r.1 <= r.2 /\ r.2 <= hi) rs.

Lemma height_ranges_spec fuel a b step : 0 < step -> (N.to_nat (b + 1 - a) <= fuel)%nat ->
  exists l, height_ranges fuel a b step = Val l /\ good_ranges a b l /\
    Forall (fun r => r.2 - r.1 < step) l /\ forall h, covered l h <-> a <= h <= b.
Proof.
  intros Hs. revert a. induction fuel as [|fuel IH]; intros a Hf; cbn [height_ranges].
  - destruct (N.leb_spec a b); [lia|]. exists []. split; [done|]. split; [split; constructor|]. split; [constructor|].
    intros h. split; [by intros ?%covered_nil|lia].
  - destruct (N.leb_spec a b).
    2: { exists []. split; [done|]. split; [split; constructor|]. split; [constructor|]. intros h. split; [by intros ?%covered_nil|lia]. }
    set (m := N.min b (a + step - 1)). destruct (IH (m + 1)) as (l & -> & [G1 G2] & W & C); [lia|].
    cbn [mbind_M]. exists ((a, m) :: l). split; [done|]. split; [|split].
    + split.
      * constructor; [done|]. eapply Forall_impl; [exact G2|]. cbn. lia.
      * constructor; [cbn; lia|]. eapply Forall_impl; [exact G2|]. cbn. lia.
    + constructor; [cbn; lia|done].
    + intros h. rewrite covered_cons, C. lia.
Qed.

Lemma ascending_app l1 l2 m : ascending l1 -> ascending l2 -> Forall (fun r => r.2 < m) l1 -> Forall (fun r => m <= r.1) l2 -> ascending (l1 ++ l2).
Proof.
  intros A1 A2 F1 F2. induction A1 as [|r l1 S IH F]; [done|]. cbn. inversion F1; subst.
  constructor; [by apply IH|]. apply Forall_app. split; [done|]. eapply Forall_impl; [exact F2|]. cbn. intros. lia.
Qed.

(** Grouping: invariant of the fold over an ascending list. *)
Lemma group_fold hs : forall acc (done_ : N -> Prop),
  StronglySorted N.lt hs ->
  (forall h, covered acc h <-> done_ h) -> Forall (fun r => r.1 <= r.2) acc ->
  StronglySorted (fun x y => y.2 < x.1) acc ->
  (forall x h, done_ x -> h ∈ hs -> x < h) ->
  let acc' := foldl add_height acc hs in
  (forall h, covered acc' h <-> done_ h \/ h ∈ hs) /\ Forall (fun r => r.1 <= r.2) acc' /\
  StronglySorted (fun x y => y.2 < x.1) acc'.
Proof.
  induction hs as [|h hs IH]; intros acc dn S C F A B; cbn [foldl].
  - split; [|done]. intros h. rewrite C. set_solver.
  - inversion S as [|? ? S' Fh]; subst.
    assert (Bh : forall a b, (a, b) ∈ acc -> b < h).
    { intros a b E. assert (a <= b) by (rewrite Forall_forall in F; exact (F _ E)).
      apply (B b h); [apply C; exists a, b; split; [done|lia]|left]. }
    destruct (IH (add_height acc h) (fun x => dn x \/ x = h) S') as (C' & F' & A').
    + intros x. rewrite <- C. unfold add_height. destruct acc as [|[a b] acc'].
      * rewrite covered_cons. split; [intros [?|?]; [right; lia|by left]|intros [H|H]; [by right|left; lia]].
      * assert (a <= b) by (by inversion F). destruct (N.eqb_spec h (b + 1)) as [->|N].
        -- rewrite !covered_cons. split; [|intros [[?|?]|?]; [left; lia|by right|left; lia]].
           intros [?|?]; [destruct (decide (x = b + 1)); [by right|left; left; lia]|left; by right].
        -- rewrite covered_cons. split; [intros [?|?]; [right; lia|by left]|intros [?|?]; [by right|left; lia]].
    + unfold add_height. destruct acc as [|[a b] acc']; [repeat constructor; cbn; lia|].
      inversion F; subst. destruct (h =? b + 1); [constructor; [cbn in *; lia|done]|constructor; [cbn; lia|done]].
    + unfold add_height. destruct acc as [|[a b] acc']; [repeat constructor|].
      destruct (N.eqb_spec h (b + 1)) as [->|N].
      * inversion A; subst. constructor; done.
      * constructor; [done|]. apply Forall_forall. intros [x y] E. cbn. exact (Bh x y E).
    + intros x y [D| ->] E; [apply (B x y D); by right|]. rewrite Forall_forall in Fh. by apply Fh.
    + split; [|done]. intros x. rewrite C', elem_of_cons. tauto.
Qed.

Lemma group_spec hs : StronglySorted N.lt hs ->
  ascending (group_heights hs) /\ Forall (fun r => r.1 <= r.2) (group_heights hs) /\
  forall h, covered (group_heights hs) h <-> h ∈ hs.
Proof.
  intros S. destruct (group_fold hs [] (fun _ => False) S) as (C & F & A).
  - intros h. split; [apply covered_nil|done].
  - constructor.
  - constructor.
  - done.
  - unfold group_heights, ascending. split; [|split].
    + apply (StronglySorted_reverse (fun x y => y.2 < x.1)) in A. exact A.
    + by apply Forall_reverse.
    + intros h. specialize (C h). rewrite <- (left_id False or (h ∈ hs)), <- C. unfold covered. by setoid_rewrite elem_of_reverse.
Qed.

Lemma limit_spec rs : forall lo, ascending rs -> Forall (fun r => lo <= r.1 /\ r.1 <= r.2) rs ->
  exists l, limit_ranges rs = Val l /\ ascending l /\ Forall (fun r => lo <= r.1 /\ r.1 <= r.2 /\ r.2 - r.1 < max_cfilters) l /\
    forall h, covered l h <-> covered rs h.
Proof.
  induction rs as [|[a b] rs IH]; intros lo A F; cbn [limit_ranges].
  - exists []. split; [done|]. split; [constructor|]. split; [constructor|done].
  - inversion A as [|? ? A' Fa]; subst. inversion F as [|? ? F1 F']; subst. cbn in F1, Fa.
    destruct (height_ranges_spec (N.to_nat (b + 1 - a)) a b max_cfilters) as (l & -> & [G1 G2] & W & C); [done|lia|].
    destruct (IH (b + 1)) as (l' & -> & A2 & F2 & C2); [done| |].
    { clear -Fa F'. induction Fa; inversion F'; subst; constructor; [lia|auto]. }
    cbn [mbind_M]. exists (l ++ l'). split; [done|]. split; [|split].
    + apply (ascending_app _ _ (b + 1)); [done|done| |].
      * eapply Forall_impl; [exact G2|]. cbn. lia.
      * eapply Forall_impl; [exact F2|]. cbn. lia.
    + apply Forall_app. split.
      * apply Forall_forall. intros r Er. rewrite Forall_forall in G2, W. specialize (G2 r Er). specialize (W r Er). lia.
      * eapply Forall_impl; [exact F2|]. cbn. lia.
    + intros h. rewrite covered_app, covered_cons, C, C2. tauto.
Qed.

Lemma queue_cached_spec t r hs : forall h,
  foldl (fun m h => match fc_get (r_cache r) h, tr_at t h with Some f, Some hash => <[h := (f, hash, true)]> m | _, _ => m end) (r_received r) hs !! h =
  match (if decide (h ∈ hs) then fc_get (r_cache r) h else None), tr_at t h with
  | Some f, Some hash => Some (f, hash, true)
  | _, _ => r_received r !! h
  end.
Proof.
  intros h. generalize (r_received r) as m. induction hs as [|x hs IH]; intros m; cbn [foldl].
  - by rewrite decide_False by apply not_elem_of_nil.
  - rewrite IH. destruct (decide (h ∈ hs)) as [E|E].
    + rewrite decide_True by (by right). destruct (fc_get (r_cache r) h) as [f|] eqn:F, (tr_at t h) as [v|] eqn:T; try done;
      (destruct (decide (x = h)) as [->|N];
        [by rewrite F, ?T|destruct (fc_get (r_cache r) x), (tr_at t x); try done; by rewrite lookup_insert_ne by done]).
    + destruct (decide (x = h)) as [->|N].
      * rewrite decide_True by (by left). destruct (fc_get (r_cache r) h), (tr_at t h); try done. by rewrite lookup_insert.
      * rewrite decide_False by set_solver. destruct (fc_get (r_cache r) x), (tr_at t x); try done. by rewrite lookup_insert_ne by done.
Qed.

(** The queue after cached filters of [a..=b] were added. *)
Definition with_cached (t : tree) (a b : N) (r : rescan) (h : N) : option (bfilter * N * bool) :=
  match (if decide (a <= h <= b) then fc_get (r_cache r) h else None), tr_at t h with
  | Some f, Some hash => Some (f, hash, true)
  | _, _ => r_received r !! h
  end.

Lemma sfilter_sorted (Q : N -> Prop) `{forall x, Decision (Q x)} l : StronglySorted N.lt l -> StronglySorted N.lt (filter Q l).
Proof.
  induction 1 as [|x l Sx IH F]; [constructor|]. rewrite filter_cons. case_decide; [|done]. constructor; [done|].
  apply Forall_forall. intros y [_ Hy]%elem_of_list_filter. rewrite Forall_forall in F. by apply F.
Qed.

Lemma requests_spec a b t r : exists r' rs, r_requests a b t r = Val (r', rs) /\
  ascending rs /\ Forall (fun x => x.1 <= x.2 /\ x.2 - x.1 < 1000) rs /\
  (forall h, covered rs h <-> a <= h <= b /\ with_cached t a b r h = None /\ h ∉ r_requested r) /\
  (forall h, h ∈ r_requested r' <-> h ∈ r_requested r \/ covered rs h) /\
  (forall h, r_received r' !! h = with_cached t a b r h) /\
  r_active r' = r_active r /\ r_current r' = r_current r /\ r_start r' = r_start r /\ r_end r' = r_end r /\
  r_cache r' = r_cache r /\ r_watch r' = r_watch r /\ r_txs r' = r_txs r.
Proof.
  unfold r_requests. destruct (N.ltb_spec b a).
  - exists r, []. split; [done|]. split; [constructor|]. split; [constructor|]. split; [|split; [|split; [|done]]].
    + intros h. split; [by intros ?%covered_nil|lia].
    + intros h. split; [by left|]. intros [?|?%covered_nil]; done.
    + intros h. unfold with_cached. by rewrite decide_False by lia.
  - set (recv := queue_cached t r (heights a b)).
    assert (Q : forall h, recv !! h = with_cached t a b r h).
    { intros h. unfold recv, queue_cached. rewrite queue_cached_spec. unfold with_cached.
      by rewrite (decide_ext _ _ _ _ (elem_heights a b h)). }
    set (missing := filter _ (heights a b)).
    assert (S : StronglySorted N.lt missing).
    { apply sfilter_sorted, heights_sorted. }
    destruct (group_spec missing S) as (A & F & C).
    destruct (limit_spec (group_heights missing) 0 A) as (rs & E & A' & F' & C').
    { eapply Forall_impl; [exact F|]. cbn. lia. }
    rewrite E. cbn [mbind_M]. eexists _, rs. split; [done|]. split; [done|]. split; [|split; [|split; [|split; [exact Q|done]]]].
    + eapply Forall_impl; [exact F'|]. cbn. unfold max_cfilters. intros x Hx. lia.
    + intros h. rewrite C', C. unfold missing. rewrite elem_of_list_filter, elem_heights, Q. tauto.
    + intros h. cbn. clear. generalize (r_requested r) as g. induction rs as [|[x y] rs IH]; intros g; cbn [foldl].
      * split; [by left|]. intros [?|?%covered_nil]; done.
      * rewrite IH, elem_of_union, elem_of_list_to_set, elem_heights, covered_cons. cbn. tauto.
Qed.

(** ** Processing *)
Definition pstate : Type := N * gmap N (bfilter * N * bool) * list (N * N) * list cout.

Lemma process_loop_spec P r : forall fuel cur recv, (size recv <= fuel)%nat ->
  exists n ms es recv', process_loop P fuel r cur recv = Val (cur + N.of_nat n, recv', ms, es) /\
    recv' !! (cur + N.of_nat n) = None /\
    (forall h, recv' !! h = if decide (cur <= h < cur + N.of_nat n) then None else recv !! h) /\
    (exists l, length l = n /\
       (forall i f hash c, l !! i = Some (f, hash, c) -> recv !! (cur + N.of_nat i) = Some (f, hash, c)) /\
       es = imap (fun i '(f, hash, c) => CoFilterProcessed hash (cur + N.of_nat i) (bool_decide (is_Some (match_filter P r f hash)))
                                      (default false (match_filter P r f hash)) c) l /\
       ms = omap (fun e => match e with CoFilterProcessed hash h _ true _ => Some (h, hash) | _ => None end) es).
Proof.
  induction fuel as [|fuel IH]; intros cur recv Hf; cbn [process_loop].
  - assert (E : recv = ∅) by (apply map_size_empty_iff; lia). rewrite E, lookup_empty.
    exists 0%nat, [], [], ∅. rewrite N.add_0_r. split; [done|]. split; [apply lookup_empty|]. split.
    + intros h. rewrite lookup_empty. by destruct (decide _).
    + exists []. done.
  - destruct (recv !! cur) as [[[f hash] c]|] eqn:E.
    + destruct (IH (cur + 1) (delete cur recv)) as (n & ms & es & recv' & -> & N1 & R & (l & L1 & L2 & L3 & L4)).
      { rewrite map_size_delete, E. lia. }
      cbn [mbind_M]. exists (Datatypes.S n). replace (cur + N.of_nat (Datatypes.S n)) with (cur + 1 + N.of_nat n) by lia.
      do 3 eexists. split; [done|]. split; [done|]. split.
      * intros h. rewrite R. destruct (decide (cur + 1 <= h < cur + 1 + N.of_nat n)).
        -- by rewrite decide_True by lia.
        -- destruct (decide (cur = h)) as [<-|N].
           ++ rewrite lookup_delete, decide_True by lia. done.
           ++ rewrite lookup_delete_ne by done. by rewrite decide_False by lia.
      * exists ((f, hash, c) :: l). split; [cbn; lia|]. split; [|split].
        -- intros [|i] f' hash' c' Hi; cbn in Hi.
           ++ injection Hi as -> -> ->. by rewrite N.add_0_r.
           ++ specialize (L2 i f' hash' c' Hi). replace (cur + N.of_nat (Datatypes.S i)) with (cur + 1 + N.of_nat i) by lia.
              by apply lookup_delete_Some in L2 as [_ ?].
        -- cbn [imap]. rewrite N.add_0_r. f_equal. rewrite L3. apply imap_ext. intros i [[f' h'] c'] _. cbn.
           by replace (cur + 1 + N.of_nat i) with (cur + N.of_nat (Datatypes.S i)) by lia.
        -- cbn [omap list_omap]. rewrite L4. by destruct (default false _).
    + exists 0%nat, [], [], recv. rewrite N.add_0_r. split; [done|]. split; [done|]. split; [|exists []; done].
      intros h. by rewrite decide_False by lia.
Qed.

Record processes (P : params) (r r' : rescan) (ms : list (N * N)) (es : list cout) : Prop := {
  ps_cur : r_current r <= r_current r';
  ps_active : r_active r' = r_active r && negb (bool_decide (r_end r = Some (r_current r')));
  ps_same : r_start r' = r_start r /\ r_end r' = r_end r /\ r_cache r' = r_cache r /\ r_watch r' = r_watch r /\ r_txs r' = r_txs r /\
            r_requested r' = r_requested r;
  ps_next : r_received r' !! r_current r' = None;
  ps_received : forall h, r_received r' !! h = if decide (r_current r <= h < r_current r') then None else r_received r !! h;
  ps_events : exists l, N.of_nat (length l) = r_current r' - r_current r /\
    (forall i f hash c, l !! i = Some (f, hash, c) -> r_received r !! (r_current r + N.of_nat i) = Some (f, hash, c)) /\
    es = imap (fun i '(f, hash, c) => CoFilterProcessed hash (r_current r + N.of_nat i) (bool_decide (is_Some (match_filter P r f hash)))
                                      (default false (match_filter P r f hash)) c) l ++
         (if bool_decide (r_end r = Some (r_current r')) then [CoRescanStopped (r_current r')] else []);
  ps_matches : ms = omap (fun e => match e with CoFilterProcessed hash h _ true _ => Some (h, hash) | _ => None end) es
}.

Lemma process_spec P r : exists r' ms es, r_process P r = Val (r', ms, es) /\ processes P r r' ms es.
Proof.
  unfold r_process.
  destruct (process_loop_spec P r (size (r_received r)) (r_current r) (r_received r)) as (n & ms & es & recv' & -> & N1 & R & (l & L1 & L2 & L3 & L4)); [lia|].
  cbn [mbind_M]. do 3 eexists. split; [done|]. split; cbn; try done.
  - lia.
  - exists l. split; [lia|]. split; [done|]. rewrite L3. case_bool_decide; [done|by rewrite app_nil_r].
  - case_bool_decide; [|done]. rewrite omap_app. cbn. rewrite app_nil_r. exact L4.
Qed.

(** ** Steps that do not touch the filter header chain or the scan *)
Definition quiet_out (o : cout) : Prop :=
  match o with
  | CoFilterReceived _ _ _ _ | CoFilterProcessed _ _ _ _ _ | CoRescanStarted _ _ | CoRescanStopped _ => False
  | _ => True
  end.
Definition has (s : cbf) (h : N) : nat := match c_inflight s !! h with Some _ => 1%nat | None => 0%nat end.

Record quiet (t : tree) (s s' : cbf) (o : list cout) : Prop := {
  q_filters : c_filters s' = c_filters s;
  q_store : c_store s' = c_store s;
  q_scan : let r := c_rescan s in let r' := c_rescan s' in
    r_active r' = r_active r /\ r_current r' = r_current r /\ r_start r' = r_start r /\ r_end r' = r_end r /\
    r_cache r' = r_cache r;
  q_received : forall h v, r_received (c_rescan s') !! h = Some v -> r_received (c_rescan s) !! h = Some v \/
    exists f hash, v = (f, hash, true) /\ fc_get (r_cache (c_rescan s)) h = Some f /\ tr_at t h = Some hash;
  q_inflight : forall h, (has s' h <= has s h + count (asks_headers h) o)%nat;
  q_out : Forall quiet_out o
}.

Lemma count_app {A} (f : A -> bool) l1 l2 : count f (l1 ++ l2) = (count f l1 + count f l2)%nat.
Proof. unfold count. by rewrite List.filter_app, app_length. Qed.

Lemma quiet_refl t s : quiet t s s [].
Proof. split; try done. all: first [by intros; left | intros; lia | constructor]. Qed.
Lemma quiet_trans t s1 s2 s3 o o' : quiet t s1 s2 o -> quiet t s2 s3 o' -> quiet t s1 s3 (o ++ o').
Proof.
  intros Q R. destruct (q_scan _ _ _ _ Q) as (A1 & A2 & A3 & A4 & A5), (q_scan _ _ _ _ R) as (B1 & B2 & B3 & B4 & B5).
  split.
  - rewrite (q_filters _ _ _ _ R). apply Q.
  - rewrite (q_store _ _ _ _ R). apply Q.
  - cbn. repeat split; congruence.
  - intros h v [H|(f & hash & -> & H1 & H2)]%(q_received _ _ _ _ R).
    + by apply (q_received _ _ _ _ Q).
    + right. exists f, hash. rewrite <- A5. done.
  - intros h. rewrite count_app. pose proof (q_inflight _ _ _ _ Q h). pose proof (q_inflight _ _ _ _ R h). lia.
  - apply Forall_app. split; [apply Q|apply R].
Qed.

Lemma ask_spec order t peers rs : forall i o e, ask_ranges order t peers i rs = (o, e) ->
  Forall (fun x => exists p a h, x = CoGetCFilters p a h) o /\
  (e = None \/ (e = Some InvalidRange /\ exists a b, (a, b) ∈ rs /\ tr_at t b = None)).
Proof.
  induction rs as [|[a b] rs IH]; intros i o e; cbn.
  - intros [= <- <-]. split; [constructor|by left].
  - destruct (cycle_peer order peers i) as [p|]; [|intros [= <- <-]; split; [constructor|by left]].
    destruct (tr_at t b) as [hash|] eqn:T; [|intros [= <- <-]; split; [constructor|]; right; split; [done|]; exists a, b; split; [left|done]].
    destruct (ask_ranges order t peers (Datatypes.S i) rs) as [o1 e1] eqn:E. intros [= <- <-].
    destruct (IH _ _ _ E) as [F X]. split; [constructor; [by eexists _, _, _|done]|].
    destruct X as [->|(-> & x & y & Y & Z)]; [by left|]. right. split; [done|]. exists x, y. split; [by right|done].
Qed.

Lemma get_cfilters_spec order a b t s :
  (get_cfilters order a b t s = Panic (PAssert 449) /\ c_peers s <> ∅ /\ a <= b /\ f_height s < b) \/
  exists r o e, get_cfilters order a b t s = Val (set_rescan r s, o, e) /\ quiet t s (set_rescan r s) o /\
    (e = Some NotConnected <-> c_peers s = ∅) /\
    (e = Some InvalidRange -> b < a \/ exists h, a <= h <= b /\ tr_at t h = None) /\
    (c_peers s <> ∅ -> b < a -> e = Some InvalidRange) /\
    Forall (fun x => exists p a h, x = CoGetCFilters p a h) o /\
    (b < a -> r = c_rescan s).
Proof.
  unfold get_cfilters. destruct (decide (c_peers s = ∅)) as [E|E].
  - right. exists (c_rescan s), [], (Some NotConnected). assert (X : set_rescan (c_rescan s) s = s) by (by destruct s). rewrite X.
    split; [done|]. split; [apply quiet_refl|]. repeat split; try done.
  - destruct (N.ltb_spec b a).
    + right. exists (c_rescan s), [], (Some InvalidRange). assert (X : set_rescan (c_rescan s) s = s) by (by destruct s). rewrite X.
      split; [done|]. split; [apply quiet_refl|]. repeat split; try done. by left.
    + unfold assertM. destruct (N.leb_spec b (f_height s)); [|left; done]. right.
      destruct (requests_spec a b t (c_rescan s)) as (r' & rs & -> & A & F & C & Rq & Rv & S1 & S2 & S3 & S4 & S5 & _). cbn [mbind_M].
      destruct (ask_ranges order t (c_peers s) 0 rs) as [o e] eqn:Ea. apply ask_spec in Ea as [Fo Ee].
      exists r', o, e. split; [done|]. split; [|split; [|split; [|split; [intros; lia|split; [done|intros; lia]]]]].
      * split; try done.
        -- intros h v. cbn. rewrite Rv. unfold with_cached. destruct (decide _); [|by left].
           destruct (fc_get (r_cache (c_rescan s)) h) as [f|] eqn:Ef; [|by left]. destruct (tr_at t h) as [hash|] eqn:Et; [|by left].
           intros [= <-]. right. by exists f, hash.
        -- intros h. change (has (set_rescan r' s) h) with (has s h). lia.
        -- eapply Forall_impl; [exact Fo|]. by intros x (p & y & z & ->).
      * destruct Ee as [->|[-> _]]; done.
      * intros ->. right. destruct Ee as [?|(_ & x & y & X & Y)]; [done|].
        exists y. split; [|done]. rewrite Forall_forall in F. specialize (F _ X). cbn in F.
        apply C. exists x, y. split; [done|lia].
Qed.

Lemma tr_at_some t h : is_Some (tr_at t h) <-> h <= tr_height t.
Proof. unfold tr_at, tr_height, lenN. rewrite lookup_lt_is_Some. cbn. lia. Qed.
Lemma tr_at_none t h : tr_at t h = None <-> tr_height t < h.
Proof. rewrite eq_None_not_Some, tr_at_some. lia. Qed.
Lemma tr_get_at t hash h : tr_get t hash = Some h -> tr_at t h = Some hash.
Proof.
  unfold tr_get, tr_at. intros ([i x] & F & ->)%fmap_Some. apply list_find_Some in F as (F & -> & _). cbn [fst].
  by rewrite Nat2N.id.
Qed.
Lemma tr_get_height t hash h : tr_get t hash = Some h -> h <= tr_height t.
Proof. intros H%tr_get_at. apply tr_at_some. by eexists. Qed.

Lemma get_cfheaders_spec P k now a hash t s :
  quiet t s (get_cfheaders P k now a hash s).1 (get_cfheaders P k now a hash s).2 /\
  c_peers (get_cfheaders P k now a hash s).1 = c_peers s /\ c_rescan (get_cfheaders P k now a hash s).1 = c_rescan s.
Proof.
  unfold get_cfheaders. destruct (c_inflight s !! hash) as [x|] eqn:E; [split; [apply quiet_refl|done]|].
  destruct (sample_peer _ _) as [[p b]|]; [|split; [apply quiet_refl|done]]. cbn. split; [|done].
  split; try done.
  - intros h v H. by left.
  - intros h. unfold has, count. cbn. destruct (N.eqb_spec hash h) as [->|N].
    + rewrite lookup_insert. cbn. lia.
    + rewrite lookup_insert_ne by done. cbn. lia.
  - repeat constructor.
Qed.

Lemma sync_spec P k i now t s :
  (tr_height t < f_height s /\ sync P k i now t s = Panic (PAssert 571)) \/
  (f_height s <= tr_height t /\ exists s' o, sync P k i now t s = Val (s', o) /\ quiet t s s' o /\ c_peers s' = c_peers s).
Proof.
  unfold sync, assertM. destruct (N.leb_spec (f_height s) (tr_height t)); [|by left]. right. split; [done|].
  destruct (match tr_checkpoint t with Some _ => _ | None => _ end); [exists s, []; split; [done|]; split; [apply quiet_refl|done]|].
  assert (X : exists s1 o1, (if f_height s <? tr_height t then send_getcfheaders P k now (f_height s + 1) (tr_height t) t s else Val (s, [])) = Val (s1, o1) /\
     quiet t s s1 o1 /\ c_peers s1 = c_peers s).
  { destruct (N.ltb_spec (f_height s) (tr_height t)); [|exists s, []; split; [done|]; split; [apply quiet_refl|done]].
    unfold send_getcfheaders. destruct (N.ltb_spec (tr_height t) (f_height s + 1)); [lia|].
    destruct (tr_at t _) as [hash|] eqn:Et; [|apply tr_at_none in Et; lia].
    destruct (get_cfheaders P k now (f_height s + 1) hash s) as [s1 o1] eqn:Eg.
    pose proof (get_cfheaders_spec P k now (f_height s + 1) hash t s) as X. rewrite Eg in X. exists s1, o1. split; [done|]. split; apply X. }
  destruct X as (s1 & o1 & -> & Q & Pe). cbn [mbind_M].
  destruct (r_active (c_rescan s1)); [|by exists s1, o1].
  destruct (get_cfilters_spec (k_order k i) (r_current (c_rescan s1)) (f_height s1) t s1) as [(_ & _ & _ & ?)|(r & o & e & -> & Q2 & _)]; [lia|].
  cbn [mbind_M]. eexists _, _. split; [done|]. split; [by eapply quiet_trans|done].
Qed.

Lemma quiet_idle t s s' o i : quiet t s s' o -> quiet t s (set_idle i s') o.
Proof. intros []. by split. Qed.
Lemma quiet_out_snoc t s s' o x : quiet t s s' o -> quiet_out x -> (forall h, asks_headers h x = false) -> quiet t s s' (o ++ [x]).
Proof.
  intros [] Q A. split; try done.
  - intros h. rewrite count_app. specialize (q_inflight0 h). lia.
  - apply Forall_app. split; [done|]. by constructor.
Qed.

Lemma idle_spec P k now t s :
  (tr_height t < f_height s /\ idle P k now t s = Panic (PAssert 571)) \/
  exists s' o, idle P k now t s = Val (s', o) /\ quiet t s s' o /\ c_peers s' = c_peers s.
Proof.
  unfold idle. destruct (cbf_idle_timeout <=? _); [|right; exists s, []; split; [done|]; split; [apply quiet_refl|done]].
  destruct (sync_spec P k 0 now t s) as [[? ->]|(? & s' & o & -> & Q & Pe)]; [by left|]. right. cbn [mbind_M].
  eexists _, _. split; [done|]. split; [|done]. apply quiet_out_snoc; [by apply quiet_idle|done|done].
Qed.

Lemma expire_spec P k now t hs : forall i s, quiet t s (expire P k now i hs s).1 (expire P k now i hs s).2 /\ c_rescan (expire P k now i hs s).1 = c_rescan s.
Proof.
  induction hs as [|h hs IH]; intros i s; cbn [expire]; [split; [apply quiet_refl|done]|].
  set (m := match c_inflight s !! h with Some _ => _ | None => _ end).
  assert (X : quiet t s m.1 m.2 /\ c_rescan m.1 = c_rescan s).
  { unfold m. destruct (c_inflight s !! h) as [[[a p] e]|] eqn:E; [|split; [apply quiet_refl|done]].
    destruct (e <=? now); [|split; [apply quiet_refl|done]].
    destruct (sample_peer _ _) as [[p' b]|]; [|split; [apply quiet_refl|done]]. cbn. split.
    - split; try (by destruct (_ && _)).
      + intros h' v H. left. by destruct (_ && _).
      + intros h'. unfold has. cbn. destruct (decide (h = h')) as [->|N].
        * rewrite lookup_insert, E. lia.
        * rewrite lookup_insert_ne by done. destruct (_ && _); cbn; lia.
      + apply Forall_app. destruct (_ && _); repeat constructor.
    - by destruct (_ && _). }
  destruct m as [s1 o1]. cbn in X. destruct X as [Q R]. specialize (IH (Datatypes.S i) s1).
  destruct (expire P k now (Datatypes.S i) hs s1) as [s2 o2]. cbn in *. destruct IH as [Q2 R2]. split; [by eapply quiet_trans|congruence].
Qed.

Lemma timer_spec P k now t s :
  (tr_height t < f_height s /\ cbf_timer P k now t s = Panic (PAssert 571)) \/
  exists s' o, cbf_timer P k now t s = Val (s', o) /\ quiet t s s' o.
Proof.
  unfold cbf_timer. destruct (idle_spec P k now t s) as [[? ->]|(s1 & o1 & -> & Q1 & _)]; [by left|]. right. cbn [mbind_M].
  destruct (expire P k now 0 _ s1) as [s2 o2] eqn:E. pose proof (expire_spec P k now t (k_order k 3 (map_to_list (c_inflight s1)).*1) 0 s1) as X.
  rewrite E in X. cbn in X. destruct X as [Q2 _].
  destruct (_ && _); [|eexists _, _; split; [done|]; by eapply quiet_trans].
  set (s3 := set_rescan _ s2). assert (Q3 : quiet t s2 s3 []).
  { split; try done. all: first [by intros; left | intros h; change (has s3 h) with (has s2 h); lia | constructor]. }
  destruct (get_cfilters_spec (k_order k 1) (r_current (c_rescan s3)) (f_height s3) t s3) as [(_ & _ & _ & ?)|(r & o & e & Eg & Q4 & _)]; [lia|].
  unfold s3 in Eg at 1. cbn [set_rescan c_rescan r_reset r_current] in Eg.
  change (f_height s3) with (f_height s2) in *. change (r_current (c_rescan s3)) with (r_current (c_rescan s2)) in *.
  fold s3 in Eg. rewrite Eg. cbn [mbind_M].
  eexists _, _. split; [done|]. eapply quiet_trans; [exact Q1|]. eapply quiet_trans; [exact Q2|]. exact (quiet_trans _ _ _ _ [] _ Q3 Q4).
Qed.
