(** Proofs about the ping manager. *)
From Verif Require Import Base PingModel PingSpec.
Open Scope N_scope.

Definition view_of (s : pings) (a : N) : view :=
  match s !! a with
  | None => Gone
  | Some p => match pp_state p with Awaiting n t => Unanswered n t | Resting t => Answered t end
  end.

(** The outputs of a timer that concern one peer. *)
Definition to_peer (a : N) (o : pout) : bool :=
  match o with PoPing a' _ | PoPong a' _ | PoDisconnect a' => a' =? a | PoTimer _ => false end.

Lemma filter_concat {A} (f : A -> bool) (l : list (list A)) : List.filter f (concat l) = concat (List.filter f <$> l).
Proof. induction l as [|x l IH]; cbn; [done|]. by rewrite List.filter_app, IH. Qed.

Lemma tick_other T now n a p b : b <> a -> List.filter (to_peer b) (ping_tick T now n a p).2 = [].
Proof.
  intros N. unfold ping_tick. destruct (pp_state p) as [? since|since]; cbn.
  - destruct (T <=? now - since); [|done]. cbn. destruct (N.eqb_spec a b); [congruence|done].
  - destruct (ping_interval <=? now - since); [|done]. cbn. destruct (N.eqb_spec a b); [congruence|done].
Qed.

Lemma timer_outs T now order nonces s a : (forall l, order l ≡ₚ l) ->
  List.filter (to_peer a) (ping_timer T now order nonces s).2 =
  match s !! a with Some p => List.filter (to_peer a) (ping_tick T now (nonces a) a p).2 | None => [] end.
Proof.
  intros O. unfold ping_timer. cbn [snd]. rewrite filter_concat.
  set (g := fun b => List.filter (to_peer a) (match s !! b with Some p => (ping_tick T now (nonces b) b p).2 | None => [] end)).
  assert (E : List.filter (to_peer a) <$> ((fun b => match s !! b with Some p => (ping_tick T now (nonces b) b p).2 | None => [] end) <$> order (fst <$> map_to_list s)) =
              g <$> order (fst <$> map_to_list s)) by (by rewrite <- list_fmap_compose).
  rewrite E. clear E.
  assert (Nd : NoDup (order (fst <$> map_to_list s))) by (rewrite O; apply NoDup_fst_map_to_list).
  assert (In : forall b, b ∈ order (fst <$> map_to_list s) <-> is_Some (s !! b)).
  { intros b. rewrite (O (fst <$> map_to_list s)). rewrite elem_of_list_fmap. split.
    - intros ([b' p] & -> & I%elem_of_map_to_list). by eexists.
    - intros [p Hp]. exists (b, p). split; [done|]. by apply elem_of_map_to_list. }
  revert Nd In. generalize (order (fst <$> map_to_list s)). intros l Nd In.
  assert (G : forall b, b <> a -> g b = []).
  { intros b N. unfold g. destruct (s !! b); [|done]. by apply tick_other. }
  assert (G2 : forall l, NoDup l -> concat (g <$> l) = if decide (a ∈ l) then g a else []).
  { clear -G. induction 1 as [|b l N Nd IH]; [done|]. cbn. rewrite IH. destruct (decide (b = a)) as [->|Nb].
    - rewrite decide_False by done. rewrite app_nil_r. by rewrite decide_True by left.
    - rewrite (G b Nb). cbn. destruct (decide (a ∈ l)); [by rewrite decide_True by (by right)|].
      rewrite decide_False; [done|]. intros [?|?]%elem_of_cons; congruence. }
  rewrite (G2 l Nd). rewrite (decide_ext _ _ _ _ (In a)). unfold g.
  destruct (decide (is_Some (s !! a))) as [[p ->]|N]; [done|]. by apply eq_None_not_Some in N as ->.
Qed.

Lemma elem_filter a o x : to_peer a o = true -> o ∈ x <-> o ∈ List.filter (to_peer a) x.
Proof. intros T. rewrite !elem_of_list_In, filter_In. split; [done|]. by intros [? _]. Qed.
Lemma pinged_filter a x : pinged a x = pinged a (List.filter (to_peer a) x).
Proof.
  unfold pinged. induction x as [|o x IH]; cbn; [done|].
  destruct o as [b n|b n|b|d]; cbn; [destruct (b =? a) eqn:E; cbn; rewrite ?E, IH; done| | |]; [destruct (b =? a)| destruct (b =? a)|]; cbn; done.
Qed.

Lemma pings_step T o s a : fair_order o -> let '(s', x) := ping_step T o s in
  view_of s' a = view_step a o x (view_of s a) /\
  (PoDisconnect a ∈ x <-> exists now order nonces n since, o = PTimer now order nonces /\ view_of s a = Unanswered n since /\ T <= now - since) /\
  (forall n, PoPing a n ∈ x <-> (exists now, o = PNegotiated now a n) \/
     exists now order nonces since, o = PTimer now order nonces /\ view_of s a = Answered since /\ ping_interval <= now - since /\ n = nonces a) /\
  (forall n, PoPong a n ∈ x <-> o = PPing a n /\ view_of s a <> Gone) /\
  (length (List.filter (to_peer a) x) <= 1)%nat.
Proof.
  intros F. destruct o as [now addr nonce|addr|from nonce|now from nonce|now order nonces]; cbn [ping_step].
  - unfold ping_negotiated. split; [|split; [|split; [|split]]].
    + unfold view_step, view_of. cbn. destruct (N.eqb_spec addr a) as [->|N]; [by rewrite lookup_insert|by rewrite lookup_insert_ne].
    + split; [intros I%elem_of_list_singleton; done|]. by intros (? & ? & ? & ? & ? & ? & _).
    + intros n. rewrite elem_of_list_singleton. split; [intros [= <- <-]; left; by eexists|]. intros [(? & [= _ <- <-])|(? & ? & ? & ? & ? & _)]; done.
    + intros n. split; [intros I%elem_of_list_singleton; done|]. by intros [? _].
    + cbn. destruct (_ =? _); cbn; lia.
  - split; [|split; [|split; [|split]]].
    + unfold view_step, view_of. cbn. destruct (N.eqb_spec addr a) as [->|N]; [by rewrite lookup_delete|by rewrite lookup_delete_ne].
    + split; [intros I%elem_of_nil; done|]. by intros (? & ? & ? & ? & ? & ? & _).
    + intros n. split; [intros I%elem_of_nil; done|]. by intros [(? & ?)|(? & ? & ? & ? & ? & _)].
    + intros n. split; [intros I%elem_of_nil; done|]. by intros [? _].
    + cbn. lia.
  - unfold received_ping. destruct (s !! from) as [p|] eqn:E.
    + split; [|split; [|split; [|split]]].
      * done.
      * split; [intros I%elem_of_list_singleton; done|]. by intros (? & ? & ? & ? & ? & ? & _).
      * intros n. split; [intros I%elem_of_list_singleton; done|]. by intros [(? & ?)|(? & ? & ? & ? & ? & _)].
      * intros n. rewrite elem_of_list_singleton. split; [intros [= <- <-]; split; [done|]; unfold view_of; rewrite E; by destruct (pp_state p)|]. by intros [[= <- <-] _].
      * cbn. destruct (_ =? _); cbn; lia.
    + split; [|split; [|split; [|split]]].
      * done.
      * split; [intros I%elem_of_nil; done|]. by intros (? & ? & ? & ? & ? & ? & _).
      * intros n. split; [intros I%elem_of_nil; done|]. by intros [(? & ?)|(? & ? & ? & ? & ? & _)].
      * intros n. split; [intros I%elem_of_nil; done|]. intros [[= -> ->] V]. unfold view_of in V. by rewrite E in V.
      * cbn. lia.
  - assert (X : exists s', received_pong now from nonce s = (s', []) /\ view_of s' a = view_step a (PPong now from nonce) [] (view_of s a)).
    { unfold received_pong, view_step. cbn. destruct (s !! from) as [p|] eqn:E.
      - destruct (pp_state p) as [n since|since] eqn:Ep.
        + destruct (N.eqb_spec nonce n) as [->|N].
          * eexists. split; [done|]. unfold view_of. destruct (N.eqb_spec from a) as [->|N]; [|by rewrite lookup_insert_ne].
            rewrite lookup_insert, E, Ep, N.eqb_refl. done.
          * eexists. split; [done|]. destruct (N.eqb_spec from a) as [->|]; [|done]. unfold view_of. rewrite E, Ep.
            destruct (N.eqb_spec nonce n); [done|]. done.
        + eexists. split; [done|]. destruct (N.eqb_spec from a) as [->|]; [|done]. unfold view_of. by rewrite E, Ep.
      - eexists. split; [done|]. destruct (N.eqb_spec from a) as [->|]; [|done]. unfold view_of. by rewrite E. }
    destruct X as (s' & -> & V). split; [exact V|]. split; [|split; [|split]].
    + split; [intros I%elem_of_nil; done|]. by intros (? & ? & ? & ? & ? & ? & _).
    + intros n. split; [intros I%elem_of_nil; done|]. by intros [(? & ?)|(? & ? & ? & ? & ? & _)].
    + intros n. split; [intros I%elem_of_nil; done|]. by intros [? _].
    + cbn. lia.
  - cbn in F. pose proof (timer_outs T now order nonces s a F) as TO. destruct (ping_timer T now order nonces s) as [s' x] eqn:Et.
    assert (Es : s' !! a = (fun p => (ping_tick T now (nonces a) a p).1) <$> s !! a).
    { unfold ping_timer in Et. injection Et as <- _. rewrite map_lookup_imap. by destruct (s !! a). }
    cbn [snd] in TO.
    assert (Pv : pinged a x = pinged a (List.filter (to_peer a) x)) by apply pinged_filter.
    assert (D : forall o, to_peer a o = true -> o ∈ x <-> o ∈ List.filter (to_peer a) x) by (intros; by apply elem_filter).
    split; [|split; [|split; [|split]]].
    + unfold view_step. rewrite Pv, TO. unfold view_of. rewrite Es. destruct (s !! a) as [p|]; [|done]. cbn [fmap option_fmap option_map].
      unfold ping_tick. destruct (pp_state p) as [n since|since] eqn:Ep.
      * destruct (T <=? now - since); cbn; rewrite ?N.eqb_refl; cbn; by rewrite Ep.
      * destruct (ping_interval <=? now - since); cbn; rewrite ?N.eqb_refl; cbn; rewrite ?N.eqb_refl; [done|by rewrite Ep].
    + rewrite D by (cbn; by rewrite N.eqb_refl). rewrite TO. unfold view_of. destruct (s !! a) as [p|].
      2: { split; [intros I%elem_of_nil; done|]. by intros (? & ? & ? & ? & ? & _ & ? & _). }
      unfold ping_tick. destruct (pp_state p) as [n since|since] eqn:Ep.
      * destruct (N.leb_spec T (now - since)); cbn; rewrite ?N.eqb_refl.
        -- split; [|intros; left]. intros _. by eexists now, order, nonces, n, since.
        -- split; [intros I%elem_of_nil; done|]. intros (? & ? & ? & ? & ? & [= <- <- <-] & [= <- <-] & ?). lia.
      * split; [|by intros (? & ? & ? & ? & ? & _ & ? & _)].
        destruct (ping_interval <=? now - since); cbn; rewrite ?N.eqb_refl; intros I; [apply elem_of_list_singleton in I; done|by apply elem_of_nil in I].
    + intros n. rewrite D by (cbn; by rewrite N.eqb_refl). rewrite TO. unfold view_of. destruct (s !! a) as [p|].
      2: { split; [intros I%elem_of_nil; done|]. by intros [(? & ?)|(? & ? & ? & ? & _ & ? & _)]. }
      unfold ping_tick. destruct (pp_state p) as [n' since|since] eqn:Ep.
      * split; [|by intros [(? & ?)|(? & ? & ? & ? & _ & ? & _)]].
        destruct (T <=? now - since); cbn; rewrite ?N.eqb_refl; intros I; [apply elem_of_list_singleton in I; done|by apply elem_of_nil in I].
      * destruct (N.leb_spec ping_interval (now - since)); cbn; rewrite ?N.eqb_refl.
        -- rewrite elem_of_list_singleton. split; [intros [= ->]; right; by eexists now, order, nonces, since|].
           intros [(? & ?)|(? & ? & ? & ? & [= <- <- <-] & _ & _ & ->)]; done.
        -- split; [intros I%elem_of_nil; done|]. intros [(? & ?)|(? & ? & ? & ? & [= <- <- <-] & [= <-] & ? & _)]; [done|lia].
    + intros n. rewrite D by (cbn; by rewrite N.eqb_refl). rewrite TO. split; [|by intros [? _]]. destruct (s !! a) as [p|]; [|by intros I%elem_of_nil].
      unfold ping_tick. destruct (pp_state p) as [n' since|since].
      * destruct (T <=? now - since); cbn; rewrite ?N.eqb_refl; intros I; [apply elem_of_list_singleton in I; done|by apply elem_of_nil in I].
      * destruct (ping_interval <=? now - since); cbn; rewrite ?N.eqb_refl; intros I; [apply elem_of_list_singleton in I; done|by apply elem_of_nil in I].
    + rewrite TO. destruct (s !! a) as [p|]; [|cbn; lia]. unfold ping_tick. destruct (pp_state p) as [n' since|since].
      * destruct (T <=? now - since); cbn; rewrite ?N.eqb_refl; cbn; lia.
      * destruct (ping_interval <=? now - since); cbn; rewrite ?N.eqb_refl; cbn; lia.
Qed.

Lemma run_views T os : forall s s' xs a, Forall fair_order os -> ping_run T os s = (s', xs) -> view_of s' a = views a os xs (view_of s a).
Proof.
  induction os as [|o os IH]; intros s s' xs a F; cbn [ping_run]; [by intros [= <- <-]|]. inversion F as [|? ? F1 F2]; subst.
  pose proof (pings_step T o s a F1) as X. destruct (ping_step T o s) as [s1 x]. destruct X as (V & _).
  destruct (ping_run T os s1) as [s2 xs'] eqn:E. intros [= <- <-]. cbn [views]. rewrite <- V. by apply IH.
Qed.

Definition lats (s : pings) (a : N) : list N := match s !! a with Some p => pp_latencies p | None => [] end.
Lemma lats_step T o s a l : fair_order o -> lats s a = take 64 l -> lats (ping_step T o s).1 a = take 64 (trip_step a o (view_of s a) l).
Proof.
  intros F E. destruct o as [now b n|b|b n|now b n|now order nonces]; cbn [ping_step trip_step].
  - unfold ping_negotiated, lats. cbn [fst]. destruct (N.eqb_spec b a) as [->|NE]; [by rewrite lookup_insert|by rewrite lookup_insert_ne].
  - unfold lats. cbn [fst]. destruct (N.eqb_spec b a) as [->|NE]; [by rewrite lookup_delete|by rewrite lookup_delete_ne].
  - unfold received_ping. by destruct (s !! b).
  - unfold received_pong. destruct (N.eqb_spec b a) as [->|NE].
    + unfold lats, view_of in *. destruct (s !! a) as [[[n' since|since] ll]|] eqn:Ea; cbn [pp_state fst pp_latencies] in *; rewrite ?Ea; cbn [pp_latencies]; try done.
      destruct (n =? n'); cbn [fst]; [|by rewrite Ea]. rewrite lookup_insert. unfold record_latency, max_latencies. cbn [pp_latencies]. rewrite E.
      cbn [take]. f_equal. rewrite take_take. done.
    + destruct (s !! b) as [[[n' since|since] ll]|]; cbn [pp_state fst]; try done. destruct (n =? n'); cbn [fst]; [|done].
      unfold lats in *. by rewrite lookup_insert_ne.
  - unfold ping_timer, lats in *. cbn [fst]. rewrite map_lookup_imap. destruct (s !! a) as [p|]; [|done]. cbn. rewrite <- E.
    unfold ping_tick. destruct (pp_state p) as [? since|since]; [done|]. by destruct (ping_interval <=? now - since).
Qed.
Lemma run_lats T os : forall s s' xs a l, Forall fair_order os -> ping_run T os s = (s', xs) -> lats s a = take 64 l ->
  lats s' a = take 64 (trips a os xs (view_of s a) l).
Proof.
  induction os as [|o os IH]; intros s s' xs a l F; cbn [ping_run]; [by intros [= <- <-]|]. inversion F as [|? ? F1 F2]; subst.
  pose proof (pings_step T o s a F1) as X. intros R E. pose proof (lats_step T o s a l F1 E) as L. destruct (ping_step T o s) as [s1 x]. destruct X as (V & _).
  destruct (ping_run T os s1) as [s2 xs'] eqn:E2. injection R as <- <-. cbn [trips]. rewrite <- V. by eapply IH.
Qed.

(** ** Timers *)
Lemma ping_sets_timers T now order nonces s a n : PoPing a n ∈ (ping_step T (PTimer now order nonces) s).2 ->
  PoTimer T ∈ (ping_step T (PTimer now order nonces) s).2 /\ PoTimer 120000 ∈ (ping_step T (PTimer now order nonces) s).2.
Proof.
  cbn [ping_step ping_timer snd]. set (f := fun a => match s !! a with Some p => (ping_tick T now (nonces a) a p).2 | None => [] end). generalize (order (fst <$> map_to_list s)). intros l I.
  assert (exists b, b ∈ l /\ PoTimer T ∈ f b /\ PoTimer 120000 ∈ f b) as (b & Ib & A & B).
  { apply elem_of_list_In, in_concat in I as (y & Iy & I). apply in_map_iff in Iy as (b & <- & Ib). exists b. split; [by apply elem_of_list_In|]. revert I. unfold f.
    destruct (s !! b) as [p|]; [|intros []]. unfold ping_tick. destruct (pp_state p); [|].
    all: case_match; cbn; try (intros []; done); try (intros [? | []]; done).
    all: intros _; change ping_interval with 120000; split; apply elem_of_list_In; cbn; tauto. }
  split; apply elem_of_list_In, in_concat; exists (f b); (split; [apply in_map, elem_of_list_In, Ib|by apply elem_of_list_In]).
Qed.
