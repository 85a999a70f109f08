(** Counting peers, termination, and the invariants of the peer manager. *)
From Verif Require Import Base AddrModel AddrSpec AddrProofs AddrMain AddrStep AddrFacts PeerModel PeerSpec PeerProofs.
Open Scope N_scope.

(** ** Counting *)
Section Count.
Context {K A : Type} `{Countable K}.
Definition mcount (f : A -> bool) (m : gmap K A) : N := lenN (List.filter (fun p => f p.2) (map_to_list m)).
Lemma lfilter_perm {B} (f : B -> bool) (l l' : list B) : l ≡ₚ l' -> length (List.filter f l) = length (List.filter f l').
Proof. induction 1 as [|x l l' P IH|x y l|l l' l'' P1 IH1 P2 IH2]; cbn [List.filter]; [done| | |congruence]; repeat case_match; cbn [length]; lia. Qed.
Lemma mcount_insert f (m : gmap K A) k v : m !! k = None -> mcount f (<[k := v]> m) = (if f v then 1 else 0) + mcount f m.
Proof.
  intros E. unfold mcount, lenN. rewrite (lfilter_perm _ _ _ (map_to_list_insert m k v E)). cbn [List.filter snd]. destruct (f v); cbn [length]; lia.
Qed.
Lemma mcount_delete f (m : gmap K A) k v : m !! k = Some v -> mcount f m = (if f v then 1 else 0) + mcount f (delete k m).
Proof. intros E. rewrite <- (mcount_insert f (delete k m) k v) by apply lookup_delete. by rewrite insert_delete. Qed.
Lemma mcount_replace f (m : gmap K A) k v : mcount f (<[k := v]> m) = (if f v then 1 else 0) + mcount f (delete k m).
Proof. rewrite <- insert_delete_insert. apply mcount_insert, lookup_delete. Qed.
Lemma mcount_list f (m : gmap K A) (l : list K) : NoDup l -> (forall k, k ∈ l -> exists v, m !! k = Some v /\ f v = true) -> lenN l <= mcount f m.
Proof.
  revert m. induction l as [|k l IH]; intros m Nd Al; [unfold lenN; cbn; lia|]. apply NoDup_cons in Nd as [Nk Nd].
  destruct (Al k) as (v & E & F); [by left|]. rewrite (mcount_delete f m k v E), F.
  assert (lenN l <= mcount f (delete k m)) as B; [|unfold lenN in *; cbn [length]; lia]. apply IH; [done|]. intros k' I. destruct (Al k') as (v' & E' & F'); [by right|].
  exists v'. split; [|done]. rewrite lookup_delete_ne; [done|]. intros ->. done.
Qed.
Lemma mcount_keys f (m : gmap K A) : exists l, NoDup l /\ lenN l = mcount f m /\ forall k, k ∈ l -> exists v, m !! k = Some v /\ f v = true.
Proof.
  exists ((List.filter (fun p => f p.2) (map_to_list m)).*1). split; [|split].
  - pose proof (NoDup_fst_map_to_list m) as Nd. revert Nd. induction (map_to_list m) as [|[k v] l IH]; cbn [List.filter fmap list_fmap fst snd]; [done|].
    intros [Nk Nd]%NoDup_cons. destruct (f v); [|by apply IH]. cbn. apply NoDup_cons. split; [|by apply IH].
    intros ([k' v'] & -> & I)%elem_of_list_fmap. apply Nk. apply elem_of_list_In, filter_In in I as [I _]. apply elem_of_list_fmap. exists (k', v'). split; [done|]. by apply elem_of_list_In.
  - unfold mcount, lenN. by rewrite fmap_length.
  - intros k ([k' v] & -> & I)%elem_of_list_fmap. apply elem_of_list_In, filter_In in I as [I F]. exists v. split; [|done]. by apply elem_of_map_to_list, elem_of_list_In.
Qed.
Lemma mcount_le f f' (m m' : gmap K A) : (forall k v, m' !! k = Some v -> f' v = true -> exists w, m !! k = Some w /\ f w = true) -> mcount f' m' <= mcount f m.
Proof. intros Al. destruct (mcount_keys f' m') as (l & Nd & <- & Kl). apply mcount_list; [done|]. intros k (v & E & F)%Kl. by apply (Al k v). Qed.
Lemma mcount_or f g h (m : gmap K A) : (forall v, h v = f v || g v) -> (forall v, f v && g v = false) -> mcount h m = mcount f m + mcount g m.
Proof.
  intros O X. unfold mcount, lenN. induction (map_to_list m) as [|[k v] l IH]; [done|]. cbn [List.filter snd]. rewrite O. specialize (X v).
  destruct (f v), (g v); cbn [orb length]; try done; lia.
Qed.
End Count.

(** ** Draws *)
Section Draws.
Context (acf : aconf).
Definition addr_ok (am : amgr) : Prop := wf (am_ranges am) (am_peers am) [] /\ exists t, am_idle am = Some t.
Definition fresh (am : amgr) : N := mcount (fun ka => SAMPLE_TIMEOUT <=? default 0 (am_idle am) - default 0 (ka_sampled ka)) (am_peers am).
Lemma fresh_size am : fresh am <= N.of_nat (size (am_peers am)).
Proof.
  unfold fresh, mcount, lenN. assert (forall {B} (f : B -> bool) l, (length (List.filter f l) <= length l)%nat) as L.
  { intros B f l. induction l as [|x l IH]; [done|]. cbn [List.filter]. destruct (f x); cbn [length]; lia. }
  specialize (L _ (fun p : ip * known => SAMPLE_TIMEOUT <=? default 0 (am_idle am) - default 0 (ka_sampled p.2)) (map_to_list (am_peers am))).
  unfold size, map_size. lia.
Qed.
Definition drawn (am am' : amgr) (r : option (address * source)) : Prop :=
  addr_ok am' /\ match r with None => am' = am | Some _ => fresh am' < fresh am end.
Lemma sample_drawn e sv am : fair_aenv e -> addr_ok am -> exists am' r, addr_sample acf e sv am = Val (am', r) /\ drawn am am' r.
Proof.
  intros Fe [W (t & It)]. destruct (sample_with_spec acf e (fun ka => has_services (ad_services (ka_addr ka)) sv) am t Fe W It) as (am' & r & E & S).
  exists am', r. split; [exact E|]. destruct r as [[a src]|].
  - destruct S as (i & ka & Ei & _ & _ & U & ->). apply usable_spec in U as (_ & _ & Sm & _). split.
    + split; [|exists t; done]. cbn. apply (wf_dom _ (am_peers am)); [|exact W]. intros j. apply insert_dom. by eexists.
    + unfold fresh. cbn. rewrite It. cbn. rewrite mcount_replace, (mcount_delete _ (am_peers am) i ka Ei). cbn.
      destruct (N.leb_spec SAMPLE_TIMEOUT (t - default 0 (ka_sampled ka))); [|lia].
      destruct (N.leb_spec SAMPLE_TIMEOUT (t - t)) as [X|]; [|lia]. unfold SAMPLE_TIMEOUT in X. lia.
  - destruct S as [-> _]. split; [|done]. split; [done|by exists t].
Qed.
Lemma addr_step_ok o e am : fair_aenv e -> addr_ok am -> exists am' x, addr_step acf (o, e) am = Val (am', x) /\ addr_ok am'.
Proof.
  intros Fe [W (t & It)]. destruct (step_moved acf (o, e) am t Fe W It) as (am' & x & E & Mv). exists am', x. split; [exact E|].
  split; [apply (mv_wf _ _ _ _ _ Mv)|]. eexists. apply (mv_idle _ _ _ _ _ Mv).
Qed.
End Draws.

Section Main.
Context (cf : kconf) (acf : aconf).

Lemma draw_drawn e n below am : fair_kenv e -> addr_ok am -> exists am' r, draw cf acf e n below am = Val (am', r) /\ drawn am am' r.
Proof.
  intros [_ Fd] Ok. unfold draw. destruct (sample_drawn acf (ke_draw e (3 * n)) (kc_preferred cf) am (Fd _) Ok) as (am1 & r1 & -> & D1). cbn [mbind_M].
  destruct r1 as [p|]; [by exists am1, (Some p)|]. destruct D1 as [Ok1 ->]. destruct below; [|by exists am, None].
  destruct (sample_drawn acf (ke_draw e (3 * n + 1)) (kc_required cf) am (Fd _) Ok) as (am1 & r1 & -> & D1). cbn [mbind_M].
  destruct r1 as [p|]; [by exists am1, (Some p)|]. destruct D1 as [_ ->]. by apply sample_drawn.
Qed.

(** What an attempt to connect does. *)
Lemma connect_spec now a s ok s' x : connect cf now a s = (ok, s', x) ->
  (s' = s /\ x = [] /\ (ok = true -> connected_at s a = true \/ connecting_at s a = true)) \/
  (ok = true /\ s' = set_peers s (<[a := Connecting now]> (pm_peers s)) /\ x = [KoConnect a; KoTimer CONNECTION_TIMEOUT] /\
   domain_ok cf a /\ connected_at s a = false /\ connecting_at s a = false).
Proof.
  unfold connect. destruct (connected_at s a || connecting_at s a) eqn:C.
  { intros [= <- <- <-]. left. split; [done|]. split; [done|]. intros _. by apply orb_true_iff. }
  case_match; [intros [= <- <- <-]; by left|]. case_match; [intros [= <- <- <-]; by left|]. intros [= <- <- <-]. right. apply orb_false_iff in C as [C1 C2].
  split; [done|]. split; [done|]. split; [done|]. split; [|done]. unfold domain_ok. by apply negb_false_iff.
Qed.
Lemma connect_ok now a s ok s' x : domain_ok cf a -> connect cf now a s = (ok, s', x) -> ok = true /\ (connected_at s' a = true \/ connecting_at s' a = true).
Proof.
  intros D. unfold connect. destruct (connected_at s a || connecting_at s a) eqn:C; [intros [= <- <- <-]; split; [done|]; by apply orb_true_iff|].
  assert (negb (disconnected_at s a) && negb (disconnecting_at s a) = false) as ->.
  { revert C. unfold connected_at, connecting_at, disconnected_at, disconnecting_at. by destruct (pm_peers s !! a) as [[]|]. }
  unfold domain_ok in D. rewrite D. cbn. intros [= <- <- <-]. split; [done|]. right. unfold connecting_at. cbn. by rewrite lookup_insert.
Qed.

(** A predicate on peers counts new connections, or does not; those being
    closed are not counted. *)
Definition dial_count (f : peer -> bool) (b : bool) : Prop := (forall t, f (Connecting t) = b) /\ f Disconnecting = false.
Lemma connect_count f b now a s ok s' x : dial_count f b -> connect cf now a s = (ok, s', x) ->
  mcount f (pm_peers s') = mcount f (pm_peers s) + (if b then lenN (List.filter (fun y => negb (neutral y)) x) else 0).
Proof.
  intros [F1 F2] [(-> & -> & _)|(-> & -> & -> & _ & C1 & C2)]%connect_spec; [cbn; destruct b; cbn; lia|]. cbn. rewrite mcount_replace, F1.
  unfold connected_at, connecting_at in C1, C2. destruct (pm_peers s !! a) as [[]|] eqn:E; try done.
  - rewrite (mcount_delete f _ _ _ E), F2. destruct b; cbn; lia.
  - rewrite delete_notin by done. destruct b; cbn; lia.
Qed.

Definition dialled (x : list kout) : list sockaddr := omap (fun y => match y with KoConnect a => Some a | _ => None end) x.
Lemma dialled_app x y : dialled (x ++ y) = dialled x ++ dialled y.
Proof. unfold dialled. apply omap_app. Qed.
Definition no_disconnect (x : list kout) : Prop := forall a r, KoDisconnect a r ∉ x.
Lemma connect_dialled f b now a s ok s' x : dial_count f b -> connect cf now a s = (ok, s', x) ->
  mcount f (pm_peers s') = mcount f (pm_peers s) + (if b then lenN (dialled x) else 0).
Proof.
  intros F E. rewrite (connect_count f b _ _ _ _ _ _ F E). apply connect_spec in E as [(-> & -> & _)|(-> & -> & -> & _)]; by destruct b.
Qed.

(** The loop: it ends, keeps the rest of the state, and dials at most as many
    peers as asked for. *)
Record looped (d : N) (s : pmgr) (am : amgr) (n : N) (s' : pmgr) (am' : amgr) (x : list kout) : Prop := {
  lo_addr : addr_ok am';
  lo_retry : pm_retry s' = pm_retry s;
  lo_white : pm_white s' = pm_white s;
  lo_idle : pm_idle s' = pm_idle s;
  lo_count : forall f b, dial_count f b -> mcount f (pm_peers s') = mcount f (pm_peers s) + (if b then lenN (dialled x) else 0);
  lo_bound : lenN (dialled x) <= d - n;
  lo_quiet : forall y, y ∈ x -> match y with KoDisconnect _ _ | KoNegotiated _ _ _ _ _ _ _ _ _ _ => False | _ => True end;
}.
Lemma loop_spec e d below fuel : fair_kenv e -> forall n (dn : gset sockaddr) s am, addr_ok am -> fresh am < N.of_nat fuel ->
  (forall a, a ∈ dn -> connected_at s a = true \/ connecting_at s a = true) ->
  exists s' am' x, connect_loop cf acf fuel n e d below dn s am = Val (s', am', x) /\ looped d s am (lenN (elements dn)) s' am' x.
Proof.
  intros Fe. induction fuel as [|fuel IH]; intros n dn s am Ok Fu Dn; [lia|]. cbn [connect_loop].
  assert (looped d s am (lenN (elements dn)) s am []) as Stop.
  { constructor; try done; [intros f b F; destruct b; cbn; lia|unfold lenN; cbn; lia|intros y Hy; by apply elem_of_nil in Hy]. }
  destruct (N.ltb_spec (lenN (elements dn)) d) as [Lt|Ge]; [|exists s, am, []; split; [done|exact Stop]].
  destruct (draw_drawn e n below am Fe Ok) as (am1 & r & -> & Ok1 & Dr). cbn [mbind_M].
  destruct r as [[a src]|]; [|subst am1; exists s, am, []; split; [done|exact Stop]].
  destruct (socket_addr a) as [sa|]; [|destruct (IH (S n) dn s am1) as (s' & am' & x & E & L); [done|lia|done|]; exists s', am', x; split; [exact E|by destruct L; constructor]].
  destruct (connect cf (ke_now e) sa s) as [[ok s1] x1] eqn:C. pose proof (connect_spec _ _ _ _ _ _ C) as Cs.
  destruct ok.
  - assert (connected_at s1 sa = true \/ connecting_at s1 sa = true) as C1.
    { destruct Cs as [(-> & _ & X)|(_ & -> & _)]; [by apply X|]. right. unfold connecting_at. cbn. by rewrite lookup_insert. }
    assert (forall b, connected_at s b = true \/ connecting_at s b = true -> connected_at s1 b = true \/ connecting_at s1 b = true) as Kept.
    { intros b Hb. destruct Cs as [(-> & _)|(_ & -> & _ & _ & N1 & N2)]; [done|]. unfold connected_at, connecting_at in *. cbn.
      destruct (decide (b = sa)) as [->|Nb]; [rewrite N1, N2 in Hb; by destruct Hb|by rewrite !lookup_insert_ne]. }
    destruct (IH (S n) ({[sa]} ∪ dn) s1 am1) as (s' & am' & x & E & L); [done|lia| |].
    { intros b [->%elem_of_singleton|I]%elem_of_union; [exact C1|by apply Kept, Dn]. }
    rewrite E. cbn [mbind_M]. eexists _, _, _. split; [done|]. destruct L as [L1 L2 L3 L4 L5 L6 L7].
    assert (pm_retry s1 = pm_retry s /\ pm_white s1 = pm_white s /\ pm_idle s1 = pm_idle s) as (K1 & K2 & K3) by (destruct Cs as [(-> & _)|(_ & -> & _)]; done).
    constructor; [done|congruence|congruence|congruence| | |].
    + intros f b F. rewrite (L5 f b F), (connect_dialled f b _ _ _ _ _ _ F C). rewrite !dialled_app. cbn [dialled omap list_omap app].
      unfold lenN. rewrite app_length. destruct b; lia.
    + rewrite !dialled_app. cbn [dialled omap list_omap app]. unfold lenN in *. rewrite app_length.
      assert (length (elements ({[sa]} ∪ dn)) = size ({[sa]} ∪ dn)) as Q1 by done. assert (length (elements dn) = size dn) as Q2 by done.
      rewrite Q1 in L6. rewrite Q2 in *.
      destruct Cs as [(-> & -> & _)|(_ & -> & -> & _ & N1 & N2)].
      * cbn. assert (size dn <= size ({[sa]} ∪ dn))%nat by (apply subseteq_size; set_solver). lia.
      * assert (sa ∉ dn) as Nd by (intros I; apply Dn in I; rewrite N1, N2 in I; by destruct I).
        rewrite size_union in L6 by set_solver. rewrite size_singleton in L6. cbn. lia.
    + intros y [Hy|[Hy|Hy]%elem_of_app]%elem_of_app; [|by apply elem_of_list_singleton in Hy as ->|by apply L7].
      destruct Cs as [(_ & -> & _)|(_ & _ & -> & _)]; [by apply elem_of_nil in Hy|]. apply elem_of_cons in Hy as [->|Hy]; [done|]. by apply elem_of_list_singleton in Hy as ->.
  - destruct Cs as [(-> & -> & _)|(X & _)]; [|done].
    destruct (IH (S n) dn s am1) as (s' & am' & x & E & L); [done|lia|done|]; exists s', am', x; split; [exact E|by destruct L; constructor].
Qed.

(** How many new connections are asked for. *)
Definition p_busy (p : peer) : bool := p_connecting p || p_connected p.
Definition p_secondary (p : peer) : bool := p_negotiated p && negb (p_primary (kc_preferred cf) p).
Definition p_counted (p : peer) : bool := p_busy p && negb (p_secondary p).
Definition sane : Prop := kc_target cf + kc_target cf / 2 < 2 ^ 64 /\ kc_retry_min cf <= kc_retry_max cf.
Lemma delta_spec s : sane -> exists d, delta cf s = Val d /\
  (d = 0 \/ (d + mcount p_busy (pm_peers s) <= kc_target cf + kc_target cf / 2 /\ d + mcount p_counted (pm_peers s) <= kc_target cf)).
Proof.
  intros [Tg _]. unfold delta, csub. change (countp ?f s) with (mcount f (pm_peers s)).
  set (pr := mcount (p_primary (kc_preferred cf)) (pm_peers s)). set (ne := mcount p_negotiated (pm_peers s)).
  set (co := mcount p_connected (pm_peers s)). set (cn := mcount p_connecting (pm_peers s)).
  assert (ne = pr + mcount p_secondary (pm_peers s)) as En.
  { apply mcount_or; intros v; unfold p_secondary, p_primary; destruct (p_negotiated v); cbn; try done; by destruct (match v with Connected _ _ => _ | _ => _ end). }
  assert (ne <= co) as Ec.
  { apply mcount_le. intros k v E F. exists v. split; [done|]. by destruct v. }
  assert (mcount p_busy (pm_peers s) = cn + co) as Eb by (apply mcount_or; intros v; [done|by destruct v]).
  assert (mcount p_busy (pm_peers s) = mcount p_counted (pm_peers s) + mcount p_secondary (pm_peers s)) as Es.
  { apply mcount_or; intros v; unfold p_counted, p_busy, p_secondary; destruct v as [|c [i|]|]; cbn; try done; by destruct (_ && negb _). }
  clearbody pr ne co cn. set (mx := kc_target cf + kc_target cf / 2) in *. clearbody mx.
  destruct (N.ltb_spec ne pr); [lia|]. destruct (N.ltb_spec co pr); [lia|]. destruct (N.ltb_spec (co - pr) (ne - pr)); [lia|].
  destruct (N.leb_spec (2 ^ 64) mx); [lia|].
  destruct (N.ltb_spec mx (pr + (ne - pr) + (cn + (co - pr - (ne - pr))))); cbn [orb]; [exists 0; by split; [|left]|].
  destruct (N.ltb_spec (kc_target cf) (pr + (cn + (co - pr - (ne - pr))))); [exists 0; by split; [|left]|].
  destruct (N.ltb_spec mx (pr + (ne - pr) + (cn + (co - pr - (ne - pr))))); [lia|].
  eexists. split; [done|]. right. lia.
Qed.

Lemma maintain_spec e s am : sane -> fair_kenv e -> addr_ok am ->
  exists s' am' x d, maintain_connections cf acf e s am = Val (s', am', x) /\ looped d s am 0 s' am' x /\
    (kc_persistent cf <> [] -> s' = s /\ x = []) /\
    (d = 0 \/ (d + mcount p_busy (pm_peers s) <= kc_target cf + kc_target cf / 2 /\ d + mcount p_counted (pm_peers s) <= kc_target cf)).
Proof.
  intros Sn Fe Ok. unfold maintain_connections. destruct (kc_persistent cf) as [|a l] eqn:Ep.
  - destruct (delta_spec s Sn) as (d & -> & Dd). cbn [mbind_M].
    destruct (loop_spec e d (countp p_negotiated s <? kc_target cf) (S (S (size (am_peers am)))) Fe 0 ∅ s am Ok) as (s' & am' & x & E & L).
    { pose proof (fresh_size am). lia. }
    { intros a I. by apply elem_of_empty in I. }
    exists s', am', x, d. split; [exact E|]. split; [exact L|]. split; [done|exact Dd].
  - exists s, am, [], 0. split; [done|]. split; [|split; [done|by left]].
    constructor; try done; [intros f b F; destruct b; cbn; lia|intros y Hy; by apply elem_of_nil in Hy].
Qed.
End Main.
