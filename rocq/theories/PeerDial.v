(** Who is dialled, when, and what is said first. *)
From Verif Require Import Base AddrModel AddrSpec AddrProofs AddrMain PeerModel PeerSpec PeerProofs PeerMain PeerFacts PeerMore PeerRetry PeerEvents.
Open Scope N_scope.

Section Dial.
Context (cf : kconf) (acf : aconf).

(** ** Draws *)
Lemma usable_drawable am t pred i ka : am_idle am = Some t -> am_peers am !! i = Some ka -> usable acf am t pred i ka = true ->
  exists a, socket_addr (ka_addr ka) = Some a /\ drawable acf am a (ka_source ka) (ad_services (ka_addr ka)) /\ pred ka = true.
Proof.
  intros It Ei ((a & Sa & Dm) & At & Gp & Nc & Pr)%usable_spec. exists a. split; [done|]. split; [|done]. exists i, ka. rewrite It. cbn [default].
  unfold in_domains in Dm. split; [done|]. split; [done|]. split; [done|]. split; [done|]. split; [done|]. split; [done|]. split; [|exact Gp].
  destruct (ka_attempt ka); [right; by apply At|by left].
Qed.
Lemma drawable_usable am t pred a src sv : am_idle am = Some t -> drawable acf am a src sv -> (forall ka, ad_services (ka_addr ka) = sv -> pred ka = true) ->
  exists i ka, am_peers am !! i = Some ka /\ usable acf am t pred i ka = true.
Proof.
  intros It (i & ka & Ei & Sa & _ & Sv & Dm & Nc & At & Gp) Pr. exists i, ka. split; [done|]. unfold usable, unusable. rewrite Sa. unfold in_domains. rewrite Dm, (Pr _ Sv), andb_true_r. cbn [andb].
  rewrite It in Gp. cbn [default] in Gp. apply negb_true_iff, orb_false_iff. split; [apply orb_false_iff; split|].
  - apply andb_false_iff. destruct At as [At|At]; [left|right]; apply bool_decide_eq_false; [rewrite At; by intros [? ?]|done].
  - apply N.ltb_ge. exact Gp.
  - by apply bool_decide_eq_false.
Qed.
(** An address manager after draws gives out no address it would not have. *)
Definition less (am am' : amgr) : Prop := addr_ok am' /\ forall a src sv, drawable acf am' a src sv -> drawable acf am a src sv.
Lemma sample_less e sv am am' r : fair_aenv e -> addr_ok am -> addr_sample acf e sv am = Val (am', r) -> less am am' /\
  match r with
  | Some (ad, src) => exists a, socket_addr ad = Some a /\ drawable acf am a src (ad_services ad) /\ has_services (ad_services ad) sv = true
  | None => am' = am /\ forall a src sv', drawable acf am a src sv' -> has_services sv' sv = false
  end.
Proof.
  intros Fe [W (t & It)] E. destruct (sample_with_spec acf e (fun ka => has_services (ad_services (ka_addr ka)) sv) am t Fe W It) as (am1 & r1 & E' & S).
  unfold addr_sample in E. rewrite E in E'. injection E' as <- <-. destruct r as [[ad src]|].
  - destruct S as (i & ka & Ei & -> & -> & U & ->). split.
    + split; [split; [|by exists t]|].
      * cbn. apply (wf_dom _ (am_peers am)); [|exact W]. intros j. apply insert_dom. by eexists.
      * intros a src sv' (j & kj & Ej & Sa & So & Sv & Dm & Nc & At & Gp). cbn in *. rewrite It in Gp. cbn [default] in Gp. destruct (decide (i = j)) as [<-|Nj].
        { rewrite lookup_insert in Ej. injection Ej as <-. cbn in Gp. lia. }
        rewrite lookup_insert_ne in Ej by done. exists j, kj. rewrite It. done.
    + destruct (usable_drawable am t _ i ka It Ei U) as (a & Sa & D & P). exists a. done.
  - destruct S as [-> S]. split; [split; [split; [done|by exists t]|done]|]. split; [done|]. intros a src sv' D.
    destruct (has_services sv' sv) eqn:Hs; [|done]. destruct (drawable_usable am t (fun ka => has_services (ad_services (ka_addr ka)) sv) a src sv' It D) as (i & ka & Ei & U); [intros ka ->; done|].
    by rewrite (S i ka Ei) in U.
Qed.
Lemma has_none sv : has_services sv 0 = true.
Proof. unfold has_services. by rewrite N.land_0_r. Qed.
Lemma less_trans am am1 am2 : less am am1 -> less am1 am2 -> less am am2.
Proof. intros [_ L1] [O L2]. split; [done|]. intros a src sv D. by apply L1, L2. Qed.
Lemma draw_less e n below am am' r : fair_kenv e -> addr_ok am -> draw cf acf e n below am = Val (am', r) -> less am am' /\
  match r with
  | Some (ad, src) => exists a, socket_addr ad = Some a /\ drawable acf am a src (ad_services ad) /\ (has_services (ad_services ad) (kc_preferred cf) = true \/ below = true)
  | None => forall a src sv, drawable acf am a src sv -> has_services sv (kc_preferred cf) = false /\ below = false
  end.
Proof.
  intros [_ Fd] Ok. unfold draw. destruct (addr_sample acf (ke_draw e (3 * n)) (kc_preferred cf) am) as [[am1 r1]|] eqn:E1; cbn [mbind_M]; [|done].
  destruct (sample_less _ _ _ _ _ (Fd _) Ok E1) as [L1 S1]. destruct r1 as [[ad src]|].
  { intros [= <- <-]. split; [exact L1|]. destruct S1 as (a & Sa & D & P). exists a. auto. }
  destruct S1 as [-> S1]. destruct below; [|intros [= <- <-]; split; [exact L1|]; intros a src sv D; split; [by apply (S1 a src)|done]].
  destruct (addr_sample acf (ke_draw e (3 * n + 1)) (kc_required cf) am) as [[am2 r2]|] eqn:E2; cbn [mbind_M]; [|done].
  destruct (sample_less _ _ _ _ _ (Fd _) Ok E2) as [L2 S2]. destruct r2 as [[ad src]|].
  { intros [= <- <-]. split; [exact L2|]. destruct S2 as (a & Sa & D & P). exists a. auto. }
  destruct S2 as [-> S2]. intros E3. destruct (sample_less _ _ _ _ _ (Fd _) Ok E3) as [L3 S3]. split; [exact L3|]. destruct r as [[ad src]|].
  - destruct S3 as (a & Sa & D & P). exists a. auto.
  - destruct S3 as [_ S3]. intros a src sv D. specialize (S3 a src sv D). by rewrite has_none in S3.
Qed.

(** ** The loop *)
Lemma maintain_says e s am s' am' x a m : maintain_connections cf acf e s am = Val (s', am', x) -> KoVersion a m ∉ x.
Proof.
  intros Mc I. unfold maintain_connections in Mc. destruct (kc_persistent cf); [|injection Mc as <- <- <-; by apply elem_of_nil in I]. destruct (delta cf s) as [d|]; cbn [mbind_M] in Mc; [|done].
  revert Mc I. generalize (countp p_negotiated s <? kc_target cf). intros below. generalize (S (S (size (am_peers am)))), 0%nat, (∅ : gset sockaddr). intros fuel. revert s am s' am' x.
  induction fuel as [|fuel IH]; intros s1 am s' am' x n dn; cbn [connect_loop]; [done|].
  case_match; [|intros [= <- <- <-] Hy; by apply elem_of_nil in Hy]. destruct (draw cf acf e n _ am) as [[am1 [[ad src]|]]|]; cbn [mbind_M]; [|intros [= <- <- <-] Hy; by apply elem_of_nil in Hy|done].
  destruct (socket_addr ad) as [sa|]; [|apply IH]. destruct (connect cf (ke_now e) sa s1) as [[ok s2] x2] eqn:C. destruct ok; [|apply IH].
  destruct (connect_loop cf acf fuel (S n) e d _ _ s2 am1) as [[[s3 am2] x3]|] eqn:L; cbn [mbind_M]; [|done]. intros [= <- <- <-].
  rewrite elem_of_app, elem_of_cons. intros [Hy|[Hy|Hy]]; [|done|by apply IH in L].
  by destruct (connect_quiet _ _ _ _ _ _ _ _ C Hy).
Qed.
Definition made (am : amgr) (below : bool) (s : pmgr) (x : list kout) (y : kout) : Prop :=
  match y with
  | KoConnect a => domain_ok cf a /\ connected_at s a = false /\ connecting_at s a = false /\ KoTimer CONNECTION_TIMEOUT ∈ x /\ exists src sv, KoConnecting a src sv ∈ x
  | KoConnecting a src sv => drawable acf am a src sv /\ (has_services sv (kc_preferred cf) = true \/ below = true)
  | KoTimer d => d = CONNECTION_TIMEOUT
  | _ => False
  end.
Lemma loop_made e d below fuel : fair_kenv e -> forall n (dn : gset sockaddr) s am s' am' x, addr_ok am ->
  connect_loop cf acf fuel n e d below dn s am = Val (s', am', x) -> forall y, y ∈ x -> made am below s x y.
Proof.
  intros Fe. induction fuel as [|fuel IH]; intros n dn s am s' am' x Ok; cbn [connect_loop]; [done|].
  destruct (lenN (elements dn) <? d); [|intros [= <- <- <-] y Hy; by apply elem_of_nil in Hy].
  destruct (draw cf acf e n below am) as [[am1 r]|] eqn:D; cbn [mbind_M]; [|done]. destruct (draw_less _ _ _ _ _ _ Fe Ok D) as [[Ok1 Le] S].
  assert (forall s1 z x' y, made am1 below s1 z y -> (forall a, connected_at s1 a = false -> connecting_at s1 a = false -> connected_at s a = false /\ connecting_at s a = false) ->
    (forall w, w ∈ z -> w ∈ x') -> made am below s x' y) as Lift.
  { intros s1 z x' y My Ks In. unfold made in *. destruct y; try done.
    - destruct My as (M1 & M2 & M3 & M4 & src & sv & M5). destruct (Ks _ M2 M3) as [K1 K2]. split; [done|]. split; [done|]. split; [done|]. split; [by apply In|]. exists src, sv. by apply In.
    - destruct My as [M1 M2]. split; [by apply Le|done]. }
  destruct r as [[ad src]|]; [|intros [= <- <- <-] y Hy; by apply elem_of_nil in Hy]. destruct S as (a & Sa & Da & Pa). rewrite Sa.
  destruct (connect cf (ke_now e) a s) as [[ok s1] x1] eqn:C. apply connect_spec in C. destruct ok.
  - destruct (connect_loop cf acf fuel (S n) e d below ({[a]} ∪ dn) s1 am1) as [[[s2 am2] xs]|] eqn:L; cbn [mbind_M]; [|done]. intros [= <- <- <-] y.
    rewrite elem_of_app, elem_of_cons. intros [Hy|[->|Hy]].
    + destruct C as [(-> & -> & _)|(_ & -> & -> & Dm & N1 & N2)]; [by apply elem_of_nil in Hy|]. apply elem_of_cons in Hy as [->|Hy].
      * split; [done|]. split; [done|]. split; [done|]. split; [set_solver|]. exists src, (ad_services ad). set_solver.
      * by apply elem_of_list_singleton in Hy as ->.
    + by split.
    + refine (Lift s1 xs _ y (IH _ _ _ _ _ _ _ Ok1 L y Hy) _ _); [|set_solver]. intros b B1 B2. destruct C as [(-> & _)|(_ & -> & _ & _ & N1 & N2)]; [done|].
      unfold connected_at, connecting_at in *. cbn in B1, B2. destruct (decide (b = a)) as [->|Nb]; [by rewrite lookup_insert in B2|]. by rewrite lookup_insert_ne in B1, B2 by done.
  - destruct C as [(-> & -> & _)|(X & _)]; [|done]. intros L y Hy. refine (Lift s x x y (IH _ _ _ _ _ _ _ Ok1 L y Hy) _ _); done.
Qed.
(** If something is missing and there is an address, one is drawn. *)
Lemma loop_makes e d below fuel n s am s' am' x a src sv : fair_kenv e -> addr_ok am -> ac_ipv4 acf = kc_ipv4 cf -> ac_ipv6 acf = kc_ipv6 cf -> 0 < d ->
  drawable acf am a src sv -> has_services sv (kc_preferred cf) = true \/ below = true ->
  connect_loop cf acf (S fuel) n e d below ∅ s am = Val (s', am', x) -> exists b src' sv', KoConnecting b src' sv' ∈ x.
Proof.
  intros Fe Ok D4 D6 Pd Da Pa. cbn [connect_loop]. change (lenN (elements (∅ : gset sockaddr))) with 0. destruct (N.ltb_spec 0 d); [|lia].
  destruct (draw cf acf e n below am) as [[am1 r]|] eqn:D; cbn [mbind_M]; [|done]. destruct (draw_less _ _ _ _ _ _ Fe Ok D) as [_ S].
  destruct r as [[ad sr]|]; [|destruct (S _ _ _ Da) as [S1 S2]; destruct Pa; congruence]. destruct S as (b & Sb & Db & _). rewrite Sb.
  assert (domain_ok cf b) as Dm. { destruct Db as (? & ? & _ & _ & _ & _ & Dm & _). unfold domain_ok. by rewrite <- D4, <- D6. }
  destruct (connect cf (ke_now e) b s) as [[ok s1] x1] eqn:C. destruct (connect_ok _ _ _ _ _ _ _ Dm C) as [-> _].
  destruct (connect_loop cf acf fuel (S n) e d below ({[b]} ∪ ∅) s1 am1) as [[[s2 am2] xs]|] eqn:L; cbn [mbind_M]; [|done]. intros [= <- <- <-].
  exists b, sr, (ad_services ad). set_solver.
Qed.
Lemma maintain_made e s am s' am' x y : fair_kenv e -> addr_ok am -> maintain_connections cf acf e s am = Val (s', am', x) -> y ∈ x ->
  kc_persistent cf = [] /\ made am (countp p_negotiated s <? kc_target cf) s x y.
Proof.
  intros Fe Ok. unfold maintain_connections. destruct (kc_persistent cf); [|intros [= <- <- <-] Hy; by apply elem_of_nil in Hy].
  destruct (delta cf s) as [d|]; cbn [mbind_M]; [|done]. intros L Hy. split; [done|]. exact (loop_made _ _ _ _ Fe _ _ _ _ _ _ _ Ok L y Hy).
Qed.
Lemma delta_pos s d : delta cf s = Val d -> mcount p_busy (pm_peers s) < kc_target cf + kc_target cf / 2 -> mcount (p_counted cf) (pm_peers s) < kc_target cf -> 0 < d.
Proof.
  unfold delta, csub. change (countp ?f s) with (mcount f (pm_peers s)).
  assert (mcount p_negotiated (pm_peers s) = mcount (p_primary (kc_preferred cf)) (pm_peers s) + mcount (p_secondary cf) (pm_peers s)) as En.
  { apply mcount_or; intros v; unfold p_secondary, p_primary; destruct (p_negotiated v); cbn; try done; by destruct (match v with Connected _ _ => _ | _ => _ end). }
  assert (mcount p_busy (pm_peers s) = mcount p_connecting (pm_peers s) + mcount p_connected (pm_peers s)) as Eb.
  { apply mcount_or; [done|]. by intros []. }
  assert (mcount p_busy (pm_peers s) = mcount (p_counted cf) (pm_peers s) + mcount (p_secondary cf) (pm_peers s)) as Ec.
  { apply mcount_or; intros v; unfold p_counted, p_secondary; [|destruct (p_busy v), (p_negotiated v && _); done].
    destruct (p_busy v) eqn:B; [by destruct (p_negotiated v && _)|]. cbn. assert (p_negotiated v = false) as -> by (by destruct v). done. }
  set (pr := mcount (p_primary (kc_preferred cf)) (pm_peers s)) in *. set (ne := mcount p_negotiated (pm_peers s)) in *. set (se := mcount (p_secondary cf) (pm_peers s)) in *.
  set (co := mcount p_connected (pm_peers s)) in *. set (cn := mcount p_connecting (pm_peers s)) in *. set (bu := mcount p_busy (pm_peers s)) in *. set (ct := mcount (p_counted cf) (pm_peers s)) in *.
  set (mx := kc_target cf + kc_target cf / 2). clearbody pr ne se co cn bu ct mx. generalize (kc_target cf). intros tg.
  destruct (N.ltb_spec ne pr); [done|]. destruct (N.ltb_spec co pr); [done|]. destruct (N.ltb_spec (co - pr) (ne - pr)); [done|].
  change (2 ^ 64) with 18446744073709551616. destruct (N.leb_spec 18446744073709551616 mx); [done|].
  destruct (N.ltb_spec mx (pr + (ne - pr) + (cn + (co - pr - (ne - pr))))); [intros _; lia|]. destruct (N.ltb_spec tg (pr + (cn + (co - pr - (ne - pr))))); [intros _; lia|]. cbn [orb].
  intros [= <-]. lia.
Qed.
Lemma maintain_makes e s am s' am' x a src sv : fair_kenv e -> addr_ok am -> ac_ipv4 acf = kc_ipv4 cf -> ac_ipv6 acf = kc_ipv6 cf -> kc_persistent cf = [] ->
  mcount p_busy (pm_peers s) < kc_target cf + kc_target cf / 2 -> mcount (p_counted cf) (pm_peers s) < kc_target cf ->
  drawable acf am a src sv -> has_services sv (kc_preferred cf) = true \/ mcount p_negotiated (pm_peers s) < kc_target cf ->
  maintain_connections cf acf e s am = Val (s', am', x) -> exists b src' sv', KoConnecting b src' sv' ∈ x.
Proof.
  intros Fe Ok D4 D6 Np Lb Lc Da Pa. unfold maintain_connections. rewrite Np. destruct (delta cf s) as [d|] eqn:Ed; cbn [mbind_M]; [|done].
  apply (loop_makes _ _ _ _ _ _ _ _ _ _ a src sv Fe Ok D4 D6); [exact (delta_pos _ _ Ed Lb Lc)|exact Da|].
  destruct Pa as [Pa|Pa]; [by left|right]. by apply N.ltb_lt.
Qed.

(** ** The idle timer *)
Lemma connect_idle now a s ok s' x : connect cf now a s = (ok, s', x) -> pm_idle s' = pm_idle s.
Proof. by intros [(-> & _)|(_ & -> & _)]%connect_spec. Qed.
Lemma connect_all_idle now l : forall s s' x, connect_all cf now l s = (s', x) -> pm_idle s' = pm_idle s.
Proof.
  induction l as [|a l IH]; intros s s' x; cbn [connect_all]; [by intros [= <- <-]|]. destruct (connect cf now a s) as [[ok s1] x1] eqn:C. destruct (connect_all cf now l s1) as [s2 x2] eqn:L.
  intros [= <- <-]. rewrite (IH _ _ _ L). exact (connect_idle _ _ _ _ _ _ C).
Qed.
Lemma reconnect_idle now l : forall s s' x, reconnect_all cf now l s = (s', x) -> pm_idle s' = pm_idle s.
Proof.
  induction l as [|a l IH]; intros s s' x; cbn [reconnect_all]; [by intros [= <- <-]|]. destruct (connect cf now a s) as [[ok s1] x1] eqn:C. destruct (reconnect_all cf now l s1) as [s2 x2] eqn:L.
  intros [= <- <-]. rewrite (IH _ _ _ L). exact (connect_idle _ _ _ _ _ _ C).
Qed.
Lemma disconnect_all_idle l : forall s s' x, disconnect_all l s = (s', x) -> pm_idle s' = pm_idle s.
Proof.
  induction l as [|a l IH]; intros s s' x; cbn [disconnect_all]; [by intros [= <- <-]|]. cbn [do_disconnect]. destruct (disconnect_all l _) as [s2 x2] eqn:L.
  intros [= <- <-]. by rewrite (IH _ _ _ L).
Qed.
Lemma loop_idle e d below fuel : forall n (dn : gset sockaddr) s am s' am' x, connect_loop cf acf fuel n e d below dn s am = Val (s', am', x) -> pm_idle s' = pm_idle s.
Proof.
  induction fuel as [|fuel IH]; intros n dn s am s' am' x; cbn [connect_loop]; [done|]. destruct (lenN (elements dn) <? d); [|by intros [= <- <- <-]].
  destruct (draw cf acf e n below am) as [[am1 [[ad src]|]]|]; cbn [mbind_M]; [|by intros [= <- <- <-]|done]. destruct (socket_addr ad) as [a|]; [|apply IH].
  destruct (connect cf (ke_now e) a s) as [[ok s1] x1] eqn:C. apply connect_idle in C. destruct ok; [|rewrite <- C; apply IH].
  destruct (connect_loop cf acf fuel (S n) e d below _ s1 am1) as [[[s2 am2] x2]|] eqn:L; cbn [mbind_M]; [|done]. intros [= <- <- <-]. rewrite <- C. by apply IH in L.
Qed.
Lemma maintain_idle e s am s' am' x : maintain_connections cf acf e s am = Val (s', am', x) -> pm_idle s' = pm_idle s.
Proof.
  unfold maintain_connections. destruct (kc_persistent cf); [|by intros [= <- <- <-]]. destruct (delta cf s) as [d|]; cbn [mbind_M]; [|done]. apply loop_idle.
Qed.
Lemma idle_step o e s am s' am' x : kstep cf acf (o, e) (s, am) = Val (s', am', x) ->
  pm_idle s' = match o with KTimer => if IDLE_TIMEOUT <=? ke_now e - default 0 (pm_idle s) then Some (ke_now e) else pm_idle s | _ => pm_idle s end.
Proof.
  destruct o as [|a local l|a r|a m|a r| |a|o ae]; cbn [kstep].
  - unfold initialize. destruct (connect_all cf (ke_now e) (kc_persistent cf) s) as [s1 x1] eqn:C. apply connect_all_idle in C. destruct (maintain_connections cf acf e s1 am) as [[[s2 am2] y]|] eqn:Mc; cbn [mbind_M]; [|done].
    intros [= <- <- <-]. apply maintain_idle in Mc. congruence.
  - intros [= <- <- <-]. unfold peer_connected. destruct l; [destruct (kc_maxin cf <=? _)|]; reflexivity.
  - unfold peer_disconnected. case_bool_decide.
    + unfold persistent_disconnected. case_match; cbn [mbind_M]; [done|]. by intros [= <- <- <-].
    + destruct (maintain_connections cf acf e _ am) as [[[s2 am2] y]|] eqn:Mc; cbn [mbind_M]; [|done]. intros [= <- <- <-]. by apply maintain_idle in Mc.
  - destruct m; intros [= <- <- <-]; [unfold received_version|unfold received_verack|unfold received_wtxidrelay|done]; repeat case_match; try reflexivity. unfold disconnect. by case_match.
  - intros [= <- <- <-]. unfold disconnect. by case_match.
  - unfold timer_expired. destruct (disconnect_all _ s) as [s1 x1] eqn:D. apply disconnect_all_idle in D. rewrite D. destruct (IDLE_TIMEOUT <=? ke_now e - default 0 (pm_idle s)).
    + destruct (maintain_connections cf acf e s1 am) as [[[s2 am2] y]|] eqn:Mc; cbn [mbind_M]; [|done]. destruct (maintain_persistent cf e _) as [s3 z] eqn:P. intros [= <- <- <-].
      unfold maintain_persistent in P. by apply reconnect_idle in P.
    + cbn [mbind_M]. destruct (maintain_persistent cf e s1) as [s3 z] eqn:P. intros [= <- <- <-]. unfold maintain_persistent in P. by apply reconnect_idle in P as ->.
  - destruct (connect cf (ke_now e) a _) as [[ok s1] x1] eqn:C. intros [= <- <- <-]. by apply connect_idle in C.
  - destruct (addr_step acf (o, ae) am) as [[am1 y]|]; cbn [mbind_M]; [|done]. by intros [= <- <- <-].
Qed.
Lemma history_rested white os tr s am : khistory cf acf white os tr s am -> default 0 (pm_idle s) = rested tr.
Proof.
  revert os tr s am. apply (history_ind cf acf white (fun tr s am => default 0 (pm_idle s) = rested tr)); [done|].
  intros os tr s am o e s' am' x Hh IH Fo E. rewrite (idle_step _ _ _ _ _ _ _ E). unfold rested in *. rewrite fold_left_app. cbn [fold_left fst snd]. rewrite <- IH.
  destruct o; try done. change IDLE_TIMEOUT with 60000. by destruct (60000 <=? _).
Qed.

(** ** Who is dialled *)
Lemma reconnect_who now l y : forall s s' x, reconnect_all cf now l s = (s', x) -> y ∈ x ->
  match y with KoConnect a => a ∈ l /\ domain_ok cf a /\ connected_at s a = false /\ connecting_at s a = false /\ KoTimer CONNECTION_TIMEOUT ∈ x | KoTimer d => d = CONNECTION_TIMEOUT | _ => False end.
Proof.
  induction l as [|a l IH]; intros s s' x; cbn [reconnect_all]; [intros [= <- <-] Hy; by apply elem_of_nil in Hy|].
  destruct (connect cf now a s) as [[ok s1] x1] eqn:C. destruct (reconnect_all cf now l s1) as [s2 x2] eqn:L. intros [= <- <-] Hy. apply connect_spec in C. apply elem_of_app in Hy as [Hy|Hy].
  - destruct C as [(-> & -> & _)|(_ & -> & -> & Dm & N1 & N2)]; [by apply elem_of_nil in Hy|]. apply elem_of_cons in Hy as [->|Hy]; [|by apply elem_of_list_singleton in Hy as ->].
    split; [by left|]. split; [done|]. split; [done|]. split; [done|]. set_solver.
  - specialize (IH _ _ _ L Hy). destruct y; try done. destruct IH as (I1 & I2 & I3 & I4 & I5). split; [by right|]. split; [done|].
    assert (connected_at s a0 = false /\ connecting_at s a0 = false) as [? ?]; [|set_solver].
    destruct C as [(-> & _)|(_ & -> & _ & _ & N1 & N2)]; [done|]. unfold connected_at, connecting_at in *. cbn in I3, I4. destruct (decide (a0 = a)) as [->|Nb]; [by rewrite lookup_insert in I4|].
    by rewrite lookup_insert_ne in I3, I4 by done.
Qed.
Lemma connect_all_who now l y : forall s s' x, connect_all cf now l s = (s', x) -> y ∈ x ->
  match y with KoConnect a => a ∈ l /\ domain_ok cf a /\ connected_at s a = false /\ connecting_at s a = false /\ KoTimer CONNECTION_TIMEOUT ∈ x
  | KoError a => a ∈ l /\ ~ domain_ok cf a | KoTimer d => d = CONNECTION_TIMEOUT | _ => False end.
Proof.
  induction l as [|a l IH]; intros s s' x; cbn [connect_all]; [intros [= <- <-] Hy; by apply elem_of_nil in Hy|].
  destruct (connect cf now a s) as [[ok s1] x1] eqn:C0. pose proof C0 as C. destruct (connect_all cf now l s1) as [s2 x2] eqn:L. intros [= <- <-] Hy. apply connect_spec in C. apply elem_of_app in Hy as [Hy|[Hy|Hy]%elem_of_app].
  - destruct C as [(-> & -> & _)|(_ & -> & -> & Dm & N1 & N2)]; [by apply elem_of_nil in Hy|]. apply elem_of_cons in Hy as [->|Hy]; [|by apply elem_of_list_singleton in Hy as ->].
    split; [by left|]. split; [done|]. split; [done|]. split; [done|]. set_solver.
  - destruct ok; [by apply elem_of_nil in Hy|]. apply elem_of_list_singleton in Hy as ->. split; [by left|]. intros Dm. by destruct (connect_ok _ _ _ _ _ _ _ Dm C0).
  - specialize (IH _ _ _ L Hy). destruct y; try done; [|destruct IH; split; [by right|done]]. destruct IH as (I1 & I2 & I3 & I4 & I5). split; [by right|]. split; [done|].
    assert (connected_at s a0 = false /\ connecting_at s a0 = false) as [? ?]; [|set_solver].
    destruct C as [(-> & _)|(_ & -> & _ & _ & N1 & N2)]; [done|]. unfold connected_at, connecting_at in *. cbn in I3, I4. destruct (decide (a0 = a)) as [->|Nb]; [by rewrite lookup_insert in I4|].
    by rewrite lookup_insert_ne in I3, I4 by done.
Qed.
Lemma connect_all_reach now l a : domain_ok cf a -> a ∈ l -> forall s s' x, connect_all cf now l s = (s', x) -> connected_at s a = false -> connecting_at s a = false -> KoConnect a ∈ x.
Proof.
  intros Dm. induction l as [|b l IH]; intros Il s s' x; [by apply elem_of_nil in Il|]. cbn [connect_all]. destruct (connect cf now b s) as [[ok s1] x1] eqn:C. destruct (connect_all cf now l s1) as [s2 x2] eqn:L.
  intros [= <- <-] N1 N2. destruct (decide (b = a)) as [->|Nb].
  - unfold connect in C. rewrite N1, N2 in C. cbn [orb] in C.
    assert (negb (disconnected_at s a) && negb (disconnecting_at s a) = false) as Q.
    { revert N1 N2. unfold connected_at, connecting_at, disconnected_at, disconnecting_at. by destruct (pm_peers s !! a) as [[]|]. }
    rewrite Q in C. unfold domain_ok in Dm. rewrite Dm in C. cbn [negb] in C. injection C as <- <- <-. set_solver.
  - apply elem_of_app. right. apply elem_of_app. right. apply elem_of_cons in Il as [->|Il]; [done|].
    apply (IH Il _ _ _ L); apply connect_spec in C as [(-> & _)|(_ & -> & _)]; try done; unfold connected_at, connecting_at in *; cbn; by rewrite lookup_insert_ne.
Qed.
Lemma idle_busy s f a : seen cf s f -> (connected_at s a = false /\ connecting_at s a = false) <-> ~ busy (f a).
Proof.
  intros Sn. specialize (Sn a). unfold connected_at, connecting_at. inversion Sn as [E1 E2|t E1 E2|E1 E2|c Ec E1 E2|c i h Ec If E1 E2]; cbn; split; try done; try tauto; by intros [? ?].
Qed.
Lemma status_op a tr o now : status_of a (tr ++ [(o, now, [])]) = observe_op a now o (status_of a tr).
Proof. rewrite status_snoc. unfold observe. reflexivity. Qed.
Lemma seen_ext s f g : (forall a, f a = g a) -> seen cf s f -> seen cf s g.
Proof. intros E S a. rewrite <- E. apply S. Qed.

Lemma timer_parts e s am s' am' x : kstep cf acf (KTimer, e) (s, am) = Val (s', am', x) ->
  exists s1 x1 s2 y z, disconnect_all (select e (late_connecting (ke_now e)) s ++ (conn_addr s <$> select e (late_verack (ke_now e)) s) ++ (conn_addr s <$> select e (late_version (ke_now e)) s)) s = (s1, x1) /\
    pm_retry s2 = pm_retry s1 /\ maintain_persistent cf e s2 = (s', z) /\ x = x1 ++ y ++ z /\
    if IDLE_TIMEOUT <=? ke_now e - default 0 (pm_idle s) then exists s2' y', maintain_connections cf acf e s1 am = Val (s2', am', y') /\ pm_peers s2 = pm_peers s2' /\ y = y' ++ [KoTimer IDLE_TIMEOUT]
    else s2 = s1 /\ y = [] /\ am' = am.
Proof.
  cbn [kstep]. unfold timer_expired. set (late := _ ++ _). clearbody late. destruct (disconnect_all late s) as [s1 x1] eqn:D. pose proof (disconnect_all_idle _ _ _ _ D) as Di. rewrite Di.
  destruct (IDLE_TIMEOUT <=? ke_now e - default 0 (pm_idle s)) eqn:Id.
  - destruct (maintain_connections cf acf e s1 am) as [[[s2 am2] y]|] eqn:Mc; cbn [mbind_M]; [|done]. destruct (maintain_persistent cf e _) as [s3 z] eqn:P. intros [= <- <- <-].
    eexists s1, x1, _, _, z. split; [done|]. split; [|split; [exact P|split; [done|]]]; [cbn; exact (maintain_keeps _ _ _ _ _ _ _ _ Mc)|]. exists s2, y. done.
  - cbn [mbind_M]. destruct (maintain_persistent cf e s1) as [s3 z] eqn:P. intros [= <- <- <-]. exists s1, x1, s1, [], z. done.
Qed.

(** Dialling ends no connection and no attempt. *)
Lemma loop_stays e d below a fuel : forall n (dn : gset sockaddr) s am s' am' x, connect_loop cf acf fuel n e d below dn s am = Val (s', am', x) ->
  (connected_at s a = true -> connected_at s' a = true) /\ (connecting_at s a = true -> connecting_at s' a = true).
Proof.
  induction fuel as [|fuel IH]; intros n dn s am s' am' x; cbn [connect_loop]; [done|]. destruct (lenN (elements dn) <? d); [|by intros [= <- <- <-]].
  destruct (draw cf acf e n below am) as [[am1 [[ad src]|]]|]; cbn [mbind_M]; [|by intros [= <- <- <-]|done]. destruct (socket_addr ad) as [b|]; [|apply IH].
  destruct (connect cf (ke_now e) b s) as [[ok s1] x1] eqn:C. apply connect_spec in C.
  assert ((connected_at s a = true -> connected_at s1 a = true) /\ (connecting_at s a = true -> connecting_at s1 a = true)) as [K1 K2].
  { destruct C as [(-> & _)|(_ & -> & _ & _ & N1 & N2)]; [done|]. unfold connected_at, connecting_at in *. cbn. destruct (decide (b = a)) as [->|Nb]; [rewrite N1, N2; done|by rewrite lookup_insert_ne]. }
  destruct ok; [|intros L; destruct (IH _ _ _ _ _ _ _ L); auto].
  destruct (connect_loop cf acf fuel (S n) e d below _ s1 am1) as [[[s2 am2] x2]|] eqn:L; cbn [mbind_M]; [|done]. intros [= <- <- <-]. destruct (IH _ _ _ _ _ _ _ L). auto.
Qed.
Lemma maintain_stays e s am s' am' x a : maintain_connections cf acf e s am = Val (s', am', x) ->
  (connected_at s a = true -> connected_at s' a = true) /\ (connecting_at s a = true -> connecting_at s' a = true).
Proof. unfold maintain_connections. destruct (kc_persistent cf); [|by intros [= <- <- <-]]. destruct (delta cf s) as [d|]; cbn [mbind_M]; [|done]. apply loop_stays. Qed.

Definition dials (white : gset ip) (tr : ktrace) (am : amgr) (o : kop) (now : N) (x : list kout) (y : kout) : Prop :=
  match y with
  | KoConnect a => domain_ok cf a /\ (~ busy (status_of a (tr ++ [(o, now, [])])) \/ (o = KTimer /\ overdue now (status_of a tr))) /\ KoTimer 6000 ∈ x /\
      (o = KConnect a \/ (a ∈ kc_persistent cf /\ (o = KInit \/ o = KTimer)) \/ exists src sv, KoConnecting a src sv ∈ x)
  | KoConnecting a src sv => kc_persistent cf = [] /\ refills tr o now /\ drawable acf am a src sv /\
      (has_services sv (kc_preferred cf) = true \/ ~ full cf (tr ++ [(o, now, [])]))
  | KoError a => o = KInit /\ a ∈ kc_persistent cf /\ ~ domain_ok cf a
  | _ => True
  end.
Lemma below_full tr s : seen cf s (fun a => status_of a tr) -> (countp p_negotiated s <? kc_target cf) = true -> ~ full cf tr.
Proof. intros Sn L Fu%(full_seen cf tr s Sn)%N.leb_le. apply N.ltb_lt in L. lia. Qed.
Lemma refill_dials white tr am o e s x0 s' am' x y : fair_kenv e -> addr_ok am -> seen cf s (fun a => status_of a (tr ++ [(o, ke_now e, [])])) -> refills tr o (ke_now e) ->
  maintain_connections cf acf e s am = Val (s', am', x) -> (forall y, y ∈ x -> y ∈ x0) -> y ∈ x -> dials white tr am o (ke_now e) x0 y.
Proof.
  intros Fe Ok Sn Re Mc Sub Hy. destruct (maintain_made _ _ _ _ _ _ _ Fe Ok Mc Hy) as [Np Md]. unfold made in Md. destruct y; try done.
  - destruct Md as (M1 & M2 & M3 & M4 & src & sv & M5). split; [done|]. split; [left; by apply (idle_busy s _ a Sn)|]. split; [by apply Sub in M4|]. right. right. exists src, sv. by apply Sub.
  - destruct Md as (M1 & M2). split; [done|]. split; [done|]. split; [done|]. destruct M2 as [M2|M2]; [by left|right]. exact (below_full _ _ Sn M2).
Qed.
Lemma step_dials white os tr s am o e s' am' x y : khistory cf acf white os tr s am -> sane cf -> fair_kop (o, e) -> kstep cf acf (o, e) (s, am) = Val (s', am', x) -> y ∈ x ->
  dials white tr am o (ke_now e) x y.
Proof.
  intros Hh Sa [Fe Fo] E Hy. pose proof (history_addr _ _ _ _ _ _ _ Sa Hh) as Ok. pose proof (history_seen _ _ _ _ _ _ _ Hh) as Sn. pose proof (history_rested _ _ _ _ _ Hh) as Hr. cbn [fst snd] in *.
  destruct o as [|a local l|a r|a m|a r| |a|o ae].
  - assert (forall a, status_of a (tr ++ [(KInit, ke_now e, [])]) = status_of a tr) as St by (intros a; by rewrite status_op).
    cbn [kstep] in E. unfold initialize in E. destruct (connect_all cf (ke_now e) (kc_persistent cf) s) as [s1 x1] eqn:C.
    destruct (maintain_connections cf acf e s1 am) as [[[s2 am2] z]|] eqn:Mc; cbn [mbind_M] in E; [|done]. injection E as <- <- <-.
    cbn [app] in Hy. apply elem_of_app in Hy as [Hy|[-> |Hy]%elem_of_cons].
    + pose proof (connect_all_who _ _ _ _ _ _ C Hy) as W. destruct y; try done.
      destruct W as (W1 & W2 & W3 & W4 & W5). split; [done|]. rewrite St. split; [left; by apply (idle_busy s (fun a => status_of a tr) a Sn)|]. split; [set_solver|]. right. left. auto.
    + done.
    + destruct (kc_persistent cf) as [|p l] eqn:Ep.
      * cbn in C. injection C as <- <-. refine (refill_dials white tr am KInit e s _ s2 am2 z y Fe Ok _ I Mc _ Hy); [|set_solver].
        apply (seen_ext s (fun a => status_of a tr)); [intros b; symmetry; apply St|exact Sn].
      * exfalso. unfold maintain_connections in Mc. rewrite Ep in Mc. injection Mc as <- <- <-. by apply elem_of_nil in Hy.
  - cbn [kstep] in E. unfold peer_connected in E. destruct l.
    + destruct (kc_maxin cf <=? _); cbn in E; injection E as <- <- <-; repeat (apply elem_of_cons in Hy as [->|Hy]; [done|]); by apply elem_of_nil in Hy.
    + cbn in E; injection E as <- <- <-; repeat (apply elem_of_cons in Hy as [->|Hy]; [done|]); by apply elem_of_nil in Hy.
  - cbn [kstep] in E. unfold peer_disconnected in E. set (x1 := if disconnecting_at s a || _ then _ else _) in E.
    assert (forall y, y ∈ x1 -> dials white tr am (KDisconnected a r) (ke_now e) x y) as H1.
    { intros y'. unfold x1. repeat case_match; intros Hy'; repeat (apply elem_of_cons in Hy' as [->|Hy']; [done|]); by apply elem_of_nil in Hy'. }
    clearbody x1. case_bool_decide.
    + unfold persistent_disconnected in E. destruct (kc_retry_max cf <? kc_retry_min cf); cbn [mbind_M] in E; [done|]. injection E as <- <- <-.
      apply elem_of_app in Hy as [Hy| ->%elem_of_list_singleton]; [by apply H1|done].
    + destruct (maintain_connections cf acf e _ am) as [[[s2 am2] z]|] eqn:Mc; cbn [mbind_M] in E; [|done]. injection E as <- <- <-.
      apply elem_of_app in Hy as [Hy|Hy]; [by apply H1|]. refine (refill_dials white tr am (KDisconnected a r) e _ _ s2 am2 z y Fe Ok _ I Mc _ Hy); [|set_solver].
      intros b. rewrite status_op. cbn [observe_op set_peers pm_peers]. case_bool_decide as Eb; [subst b; rewrite lookup_delete; constructor|]. rewrite lookup_delete_ne by done. apply Sn.
  - cbn [kstep] in E. assert (Forall (fun y => match y with KoConnect _ | KoConnecting _ _ _ | KoError _ => False | _ => True end) x) as Q.
    { destruct m; injection E as <- <- <-; [unfold received_version|unfold received_verack|unfold received_wtxidrelay, disconnect|]; clear; repeat case_match; cbn; repeat constructor. }
    rewrite Forall_forall in Q. specialize (Q y Hy). by destruct y.
  - cbn [kstep] in E. injection E as <- <- <-. unfold disconnect in Hy. destruct (connected_at s a); cbn in Hy; [apply elem_of_list_singleton in Hy as ->; done|by apply elem_of_nil in Hy].
  - assert (forall a, status_of a (tr ++ [(KTimer, ke_now e, [])]) = status_of a tr) as St by (intros a; by rewrite status_op).
    destruct (timer_parts _ _ _ _ _ _ E) as (s1 & x1 & s2 & z & w & D & Er & P & -> & Id).
    pose proof (fun a => late_in cf e s _ a Sn Fe) as La. match type of D with disconnect_all ?l _ = _ => set (late := l) in * end. clearbody late.
    pose proof (disconnect_all_out _ _ _ _ D) as Dx. destruct (disconnect_all_keeps _ _ _ _ D) as [Dr Dp].
    assert (forall a, connected_at s1 a = false /\ connecting_at s1 a = false -> ~ busy (status_of a (tr ++ [(KTimer, ke_now e, [])])) \/ (KTimer = KTimer /\ overdue (ke_now e) (status_of a tr))) as Nb.
    { intros a [B1 B2]. rewrite St. destruct (decide (a ∈ late)) as [Il|Nl]; [right; split; [done|by apply La]|left].
      apply (idle_busy s (fun a => status_of a tr) a Sn). unfold connected_at, connecting_at in *. by rewrite (Dp a Nl) in B1, B2. }
    apply elem_of_app in Hy as [Hy|[Hy|Hy]%elem_of_app].
    + rewrite Dx in Hy. apply elem_of_list_fmap in Hy as (b & -> & _). done.
    + destruct (IDLE_TIMEOUT <=? ke_now e - default 0 (pm_idle s)) eqn:Ei; [|destruct Id as (_ & -> & _); by apply elem_of_nil in Hy].
      destruct Id as (s2' & y' & Mc & _ & ->). apply elem_of_app in Hy as [Hy| ->%elem_of_list_singleton]; [|done].
      destruct (maintain_made _ _ _ _ _ _ _ Fe Ok Mc Hy) as [Np Md]. unfold made in Md. destruct y; try done.
      * destruct Md as (M1 & M2 & M3 & M4 & src & sv & M5). split; [done|]. split; [by apply Nb|]. split; [set_solver|]. right. right. exists src, sv. set_solver.
      * destruct Md as (M1 & M2). split; [done|]. split; [cbn; rewrite <- Hr; by apply N.leb_le in Ei|]. split; [done|]. destruct M2 as [M2|M2]; [by left|right].
        intros (k & Nd & Le & Ak). apply N.ltb_lt in M2. change (countp p_negotiated s1) with (mcount p_negotiated (pm_peers s1)) in M2.
        assert (lenN k <= mcount p_negotiated (pm_peers s1)); [|lia]. apply mcount_list; [done|]. intros b (lb & sb & hb & Ob & Ac)%Ak. rewrite St in Ob.
        assert (b ∉ late) as Nl. { intros Il%La. rewrite Ob in Il. cbn in Il. destruct Il. congruence. }
        rewrite (Dp b Nl). pose proof (Sn b) as Sb. cbn beta in Sb. rewrite Ob in Sb. inversion Sb as [| | | |cb ib hb' Ecb If Eb]; subst. eexists. split; [done|]. cbn [p_negotiated].
        destruct If as (_ & _ & _ & _ & _ & _ & _ & _ & _ & _ & If). unfold is_negotiated. destruct (pi_state ib); [destruct If; congruence|].
        match goal with E : cn_link cb = Outbound |- _ => by rewrite E end.
    + unfold maintain_persistent in P. pose proof (reconnect_who _ _ _ _ _ _ P Hy) as W. destruct y; try done. destruct W as (W1 & W2 & W3 & W4 & W5).
      change (connected_at (set_retry _ _) a) with (connected_at s2 a) in W3. change (connecting_at (set_retry _ _) a) with (connecting_at s2 a) in W4.
      split; [done|]. split; [|split; [set_solver|right; left; split; [|by right]]].
      * apply Nb. destruct (IDLE_TIMEOUT <=? ke_now e - default 0 (pm_idle s)); [|by destruct Id as (-> & _ & _)]. destruct Id as (s2' & y' & Mc & Ep & _).
        unfold connected_at, connecting_at in *. rewrite Ep in W3, W4.
        destruct (maintain_stays _ _ _ _ _ _ a Mc) as [M1 M2]. unfold connected_at, connecting_at in M1, M2. split; [destruct (pm_peers s1 !! a) as [[]|]; try done; by rewrite M1 in W3|].
        destruct (pm_peers s1 !! a) as [[]|]; try done. by rewrite M2 in W4.
      * apply elem_of_list_In, filter_In in W1 as [_ W1]. rewrite Er, Dr in W1. destruct (decide (a ∈ kc_persistent cf)) as [|Np]; [done|].
        destruct (history_retried _ _ _ _ _ _ _ Hh a) as (R1 & _). by rewrite (R1 Np) in W1.
  - cbn [kstep] in E. destruct (connect cf (ke_now e) a _) as [[ok s1] x1] eqn:C. injection E as <- <- <-. apply connect_spec in C as [(_ & -> & _)|(_ & _ & -> & Dm & N1 & N2)]; [by apply elem_of_nil in Hy|].
    apply elem_of_cons in Hy as [-> |Hy]; [|by apply elem_of_list_singleton in Hy as ->]. split; [done|]. split; [|split; [set_solver|by left]].
    left. rewrite status_op. by apply (idle_busy s (fun a => status_of a tr) a Sn).
  - cbn [kstep] in E. destruct (addr_step acf (o, ae) am) as [[am1 z]|]; cbn [mbind_M] in E; [|done]. injection E as <- <- <-. by apply elem_of_nil in Hy.
Qed.

(** ** Theorems *)
Lemma connect_all_error now l a : ~ domain_ok cf a -> a ∈ l -> forall s s' x, connect_all cf now l s = (s', x) -> connected_at s a = false -> connecting_at s a = false -> KoError a ∈ x.
Proof.
  intros Nd. induction l as [|b l IH]; intros Pa s s1 x C N1 N2; [by apply elem_of_nil in Pa|]. cbn [connect_all] in C.
  destruct (connect cf now b s) as [[ok s3] x3] eqn:C1. destruct (connect_all cf now l s3) as [s4 x4] eqn:L. injection C as <- <-. apply connect_spec in C1 as C2. destruct (decide (b = a)) as [->|Nb].
  + destruct ok; [|set_solver]. destruct C2 as [(-> & -> & X)|(_ & _ & _ & D & _)]; [|done]. destruct (X eq_refl); congruence.
  + apply elem_of_cons in Pa as [->|Pa]; [done|]. apply elem_of_app. right. apply elem_of_app. right.
    assert (connected_at s3 a = false /\ connecting_at s3 a = false) as [M1 M2]; [|by apply (IH Pa _ _ _ L)].
    destruct C2 as [(-> & _)|(_ & -> & _)]; [done|]. unfold connected_at, connecting_at in *. cbn. by rewrite lookup_insert_ne.
Qed.
Lemma dialled_first white os tr s am e s' am' x a : khistory cf acf white os tr s am -> kstep cf acf (KInit, e) (s, am) = Val (s', am', x) -> a ∈ kc_persistent cf -> ~ busy (status_of a tr) ->
  (domain_ok cf a -> KoConnect a ∈ x) /\ (~ domain_ok cf a -> KoError a ∈ x).
Proof.
  intros Hh E Pa [N1 N2]%(idle_busy s (fun a => status_of a tr) a (history_seen _ _ _ _ _ _ _ Hh)). cbn [kstep] in E. unfold initialize in E.
  destruct (connect_all cf (ke_now e) (kc_persistent cf) s) as [s1 x1] eqn:C.
  destruct (maintain_connections cf acf e s1 am) as [[[s2 am2] z]|] eqn:Mc; cbn [mbind_M] in E; [|done]. injection E as <- <- <-. split.
  - intros Dm. apply elem_of_app. left. exact (connect_all_reach _ _ a Dm Pa _ _ _ C N1 N2).
  - intros Nd. apply elem_of_app. left. exact (connect_all_error _ _ a Nd Pa _ _ _ C N1 N2).
Qed.
Lemma dialled_asked white os tr s am e s' am' x a : khistory cf acf white os tr s am -> kstep cf acf (KConnect a, e) (s, am) = Val (s', am', x) ->
  (domain_ok cf a /\ ~ busy (status_of a tr) -> x = [KoConnect a; KoTimer 6000]) /\ (~ domain_ok cf a \/ busy (status_of a tr) -> x = []).
Proof.
  intros Hh E. pose proof (idle_busy s (fun a => status_of a tr) a (history_seen _ _ _ _ _ _ _ Hh)) as Ib. cbn beta in Ib. cbn [kstep] in E.
  destruct (connect cf (ke_now e) a _) as [[ok s1] x1] eqn:C. injection E as <- <- <-. apply connect_spec in C as C1. split.
  - intros [Dm [N1 N2]%Ib]. destruct (connect_ok _ _ _ _ _ _ _ Dm C) as [-> _]. destruct C1 as [(_ & _ & X)|(_ & _ & -> & _)]; [|done].
    change (connected_at (PMgr _ (pm_peers s) _ _) a) with (connected_at s a) in X. change (connecting_at (PMgr _ (pm_peers s) _ _) a) with (connecting_at s a) in X. destruct (X eq_refl); congruence.
  - intros B. destruct C1 as [(_ & -> & _)|(_ & _ & _ & D & N1 & N2)]; [done|]. destruct B as [B|B]; [done|]. destruct (proj1 Ib); [split; [exact N1|exact N2]|exact B].
Qed.
Lemma dropped white os tr s am e s' am' x a r : khistory cf acf white os tr s am -> kstep cf acf (KDrop a r, e) (s, am) = Val (s', am', x) ->
  x = match status_of a tr with Open _ _ _ _ => [KoDisconnect a r] | _ => [] end.
Proof.
  intros Hh E. pose proof (history_seen _ _ _ _ _ _ _ Hh a) as Sa. cbn beta in Sa. cbn [kstep] in E. injection E as _ _ <-. unfold disconnect, connected_at. inversion Sa; reflexivity.
Qed.
Lemma idle_timer white os tr s am o e s' am' x : khistory cf acf white os tr s am -> kstep cf acf (o, e) (s, am) = Val (s', am', x) ->
  o = KInit \/ (o = KTimer /\ 60000 <= ke_now e - rested tr) -> KoTimer 60000 ∈ x.
Proof.
  intros Hh E [-> |[-> Le]].
  - cbn [kstep] in E. unfold initialize in E. destruct (connect_all cf (ke_now e) (kc_persistent cf) s) as [s1 x1] eqn:C.
    destruct (maintain_connections cf acf e s1 am) as [[[s2 am2] z]|] eqn:Mc; cbn [mbind_M] in E; [|done]. injection E as <- <- <-. set_solver.
  - destruct (timer_parts _ _ _ _ _ _ E) as (s1 & x1 & s2 & z & w & D & Er & P & -> & Id). rewrite (history_rested _ _ _ _ _ Hh) in Id.
    apply N.leb_le in Le. change IDLE_TIMEOUT with 60000 in Id. rewrite Le in Id. destruct Id as (s2' & y' & _ & _ & ->). set_solver.
Qed.

(** Missing connections are made up for. *)
Lemma sees_busy_back a p st : sees cf a (Some p) st -> p_busy p = true -> busy st.
Proof. intros S B. inversion S; subst; try done. Qed.
Lemma sees_counted_back a p st : sees cf a (Some p) st -> p_counted cf p = true -> counted cf st.
Proof.
  intros S B. inversion S as [|t| |c Ec|c i h Ec If]; subst; try done; cbn; [by destruct (cn_link c)|]. destruct (cn_link c) eqn:El; [done|]. intros Ak.
  unfold p_counted, p_secondary, p_primary in B. cbn in B. unfold is_negotiated in B. rewrite El in B. unfold info in If. destruct_and!.
  match goal with E : pi_services i = _ |- _ => rewrite E in B end. destruct (pi_state i); [destruct_and!; congruence|]. cbn in B. by destruct (has_services _ _).
Qed.
Lemma at_most_below n f (P : status -> Prop) s tr : seen cf s (fun a => status_of a tr) -> (forall a p st, sees cf a (Some p) st -> f p = true -> P st) -> at_most n P tr -> mcount f (pm_peers s) <= n.
Proof.
  intros Sn Fp Am. destruct (mcount_keys f (pm_peers s)) as (l & Nd & <- & Kl). apply Am; [done|]. intros a (v & E & F)%Kl. pose proof (Sn a) as Sa. cbn beta in Sa. rewrite E in Sa. by apply (Fp a v).
Qed.
Lemma refilled white os tr s am o e s' am' x a src sv : khistory cf acf white os tr s am -> sane cf -> fair_kop (o, e) -> kstep cf acf (o, e) (s, am) = Val (s', am', x) ->
  ac_ipv4 acf = kc_ipv4 cf -> ac_ipv6 acf = kc_ipv6 cf -> kc_persistent cf = [] -> 0 < kc_target cf -> refills tr o (ke_now e) ->
  at_most (kc_target cf + kc_target cf / 2 - 1) busy (tr ++ [(o, ke_now e, [])]) -> at_most (kc_target cf - 1) (counted cf) (tr ++ [(o, ke_now e, [])]) ->
  drawable acf am a src sv -> has_services sv (kc_preferred cf) = true \/ ~ full cf (tr ++ [(o, ke_now e, [])]) ->
  exists b src' sv', KoConnecting b src' sv' ∈ x.
Proof.
  intros Hh Sa [Fe Fo] E D4 D6 Np Tp Re Ab Ac Da Pa. pose proof (history_addr _ _ _ _ _ _ _ Sa Hh) as Ok. pose proof (history_seen _ _ _ _ _ _ _ Hh) as Sn. pose proof (history_rested _ _ _ _ _ Hh) as Hr. cbn [fst snd] in *.
  set (tr1 := tr ++ [(o, ke_now e, [])]) in *.
  assert (forall s1 s2 am2 y, mcount p_busy (pm_peers s1) <= kc_target cf + kc_target cf / 2 - 1 -> mcount (p_counted cf) (pm_peers s1) <= kc_target cf - 1 ->
    (~ full cf tr1 -> mcount p_negotiated (pm_peers s1) < kc_target cf) ->
    maintain_connections cf acf e s1 am = Val (s2, am2, y) -> exists b src' sv', KoConnecting b src' sv' ∈ y) as Go.
  { intros s1 s2 am2 y Lb Lc Ln Mc. refine (maintain_makes _ _ _ _ _ _ _ _ _ Fe Ok D4 D6 Np _ _ Da _ Mc); [|lia|].
    - generalize dependent (kc_target cf / 2). intros; lia.
    - destruct Pa as [Pa|Pa]; [by left|right]. by apply Ln. }
  assert (forall s1, seen cf s1 (fun a => status_of a tr1) -> mcount p_busy (pm_peers s1) <= kc_target cf + kc_target cf / 2 - 1 /\ mcount (p_counted cf) (pm_peers s1) <= kc_target cf - 1 /\
    (~ full cf tr1 -> mcount p_negotiated (pm_peers s1) < kc_target cf)) as Le.
  { intros s1 S1. split; [apply (at_most_below _ _ _ _ _ S1 sees_busy_back Ab)|]. split; [apply (at_most_below _ _ _ _ _ S1 sees_counted_back Ac)|].
    intros Nf. rewrite <- (full_seen cf _ _ S1) in Nf. change (mcount p_negotiated (pm_peers s1)) with (countp p_negotiated s1). apply not_true_iff_false, N.leb_gt in Nf. exact Nf. }
  destruct o as [|b local l|b r|b m|b r| |b|o ae]; try done.
  - assert (seen cf s (fun a => status_of a tr1)) as S1 by (apply (seen_ext s (fun a => status_of a tr)); [intros b; unfold tr1; by rewrite status_op|exact Sn]).
    cbn [kstep] in E. unfold initialize in E. rewrite Np in E. cbn [connect_all] in E. destruct (maintain_connections cf acf e s am) as [[[s2 am2] z]|] eqn:Mc; cbn [mbind_M] in E; [|done]. injection E as <- <- <-.
    destruct (Le s S1) as (L1 & L2 & L3). destruct (Go _ _ _ _ L1 L2 L3 Mc) as (b & src' & sv' & I). exists b, src', sv'. set_solver.
  - cbn [kstep] in E. unfold peer_disconnected in E. rewrite Np in E. rewrite bool_decide_eq_false_2 in E by apply not_elem_of_nil.
    destruct (maintain_connections cf acf e _ am) as [[[s2 am2] z]|] eqn:Mc; cbn [mbind_M] in E; [|done]. injection E as <- <- <-.
    assert (seen cf (set_peers s (delete b (pm_peers s))) (fun a => status_of a tr1)) as S1.
    { intros c. unfold tr1. rewrite status_op. cbn [observe_op set_peers pm_peers]. case_bool_decide as Eb; [subst c; rewrite lookup_delete; constructor|]. rewrite lookup_delete_ne by done. apply Sn. }
    destruct (Le _ S1) as (L1 & L2 & L3). destruct (Go _ _ _ _ L1 L2 L3 Mc) as (c & src' & sv' & I). exists c, src', sv'. apply elem_of_app. by right.
  - assert (seen cf s (fun a => status_of a tr1)) as S1 by (apply (seen_ext s (fun a => status_of a tr)); [intros b; unfold tr1; by rewrite status_op|exact Sn]).
    destruct (timer_parts _ _ _ _ _ _ E) as (s1 & x1 & s2 & z & w & D & Er & P & -> & Id). cbn in Re. rewrite Hr in Id. apply N.leb_le in Re. change IDLE_TIMEOUT with 60000 in Id. rewrite Re in Id.
    destruct Id as (s2' & y' & Mc & _ & ->). destruct (Le s S1) as (L1 & L2 & L3).
    destruct (Go s1 s2' am' y') as (b & src' & sv' & I); [etrans; [|exact L1]; by apply (disconnect_all_count _ _ eq_refl _ _ _ D)|etrans; [|exact L2]; by apply (disconnect_all_count _ _ eq_refl _ _ _ D)| |exact Mc|].
    + intros Nf. eapply N.le_lt_trans; [|by apply L3]. by apply (disconnect_all_count _ _ eq_refl _ _ _ D).
    + exists b, src', sv'. set_solver.
Qed.

(** ** What is said first *)
Lemma mk_socket a sv : a.1.1 = true -> a.1.2 < 2 ^ 32 -> socket_addr (mk_address a sv) = Some a.
Proof.
  destruct a as [[b n] p]. cbn. intros -> Lt. unfold socket_addr, is_onion, mk_address. cbn [ad_bits fst snd ad_port]. change (2 ^ 32) with 4294967296 in *. change (2 ^ 80) with 1208925819614629174706176.
  rewrite (N.div_small _ 1208925819614629174706176) by lia. cbn [N.eqb]. rewrite N.div_add_l by done. rewrite (N.div_small n) by done. rewrite N.add_0_r.
  rewrite N.add_comm, N.mod_add by done. rewrite N.mod_small by done. reflexivity.
Qed.
Lemma mk_greets a local nonce height now : greets cf a local nonce height now (mk_version cf a local nonce height now).
Proof.
  constructor; try done.
  - intros Lt. unfold mk_version. cbn. unfold wrap32, two32. by rewrite N.mod_small.
  - cbn. split; [done|]. split; [done|]. destruct (a.1.1) eqn:E; [by apply mk_socket|]. reflexivity.
  - cbn. split; [done|]. split; [done|]. destruct (local.1.1) eqn:E; [by apply mk_socket|]. reflexivity.
  - intros Lt. cbn. unfold to_i32. change (2 ^ 31) with 2147483648 in Lt. change (2 ^ 31)%Z with 2147483648%Z. change (2 ^ 32)%Z with 4294967296%Z. rewrite Z.mod_small by lia. lia.
Qed.
Lemma said white os tr s am o e s' am' x a m : khistory cf acf white os tr s am -> kstep cf acf (o, e) (s, am) = Val (s', am', x) -> KoVersion a m ∈ x ->
  exists local nonce, greets cf a local nonce (ke_height e) (ke_now e) m /\
    ((o = KConnected a local Outbound /\ nonce = ke_nonce e) \/
     (exists v since h, o = KMessage a (MVersion v) /\ nonce = vm_nonce v /\ status_of a tr = Open local Inbound since h)).
Proof.
  intros Hh E Hy. pose proof (history_seen _ _ _ _ _ _ _ Hh) as Sn. destruct o as [|b local l|b r|b v|b r| |b|o ae]; cbn [kstep] in E.
  - exfalso. unfold initialize in E. destruct (connect_all cf (ke_now e) (kc_persistent cf) s) as [s1 x1] eqn:C.
    destruct (maintain_connections cf acf e s1 am) as [[[s2 am2] z]|] eqn:Mc; cbn [mbind_M] in E; [|done]. injection E as <- <- <-. cbn [app] in Hy. apply elem_of_app in Hy as [Hy|[Hy|Hy]%elem_of_cons]; [|done|].
    + by pose proof (connect_all_quiet _ _ _ _ _ _ _ C Hy).
    + by apply (maintain_says _ _ _ _ _ _ _ _ Mc) in Hy.
  - unfold peer_connected in E. destruct l.
    + exfalso. destruct (kc_maxin cf <=? _); cbn in E; injection E as <- <- <-; repeat (apply elem_of_cons in Hy as [Hy|Hy]; [done|]); by apply elem_of_nil in Hy.
    + cbn in E. injection E as <- <- <-. apply elem_of_cons in Hy as [Hy|Hy]; [|exfalso; repeat (apply elem_of_cons in Hy as [Hy|Hy]; [done|]); by apply elem_of_nil in Hy].
      injection Hy as -> ->. exists local, (ke_nonce e). split; [apply mk_greets|by left].
  - exfalso. unfold peer_disconnected in E. set (x1 := if disconnecting_at s b || _ then _ else _) in E.
    assert (KoVersion a m ∉ x1) as H1.
    { unfold x1. repeat case_match; intros Hy'; repeat (apply elem_of_cons in Hy' as [Hy'|Hy']; [done|]); by apply elem_of_nil in Hy'. }
    clearbody x1. case_bool_decide.
    + unfold persistent_disconnected in E. destruct (kc_retry_max cf <? kc_retry_min cf); cbn [mbind_M] in E; [done|]. injection E as <- <- <-.
      apply elem_of_app in Hy as [Hy|Hy%elem_of_list_singleton]; done.
    + destruct (maintain_connections cf acf e _ am) as [[[s2 am2] z]|] eqn:Mc; cbn [mbind_M] in E; [|done]. injection E as <- <- <-. apply elem_of_app in Hy as [Hy|Hy]; [done|].
      by apply (maintain_says _ _ _ _ _ _ _ _ Mc) in Hy.
  - destruct v as [v| | |]; injection E as <- <- <-; cbn [snd] in Hy.
    + unfold received_version in Hy. pose proof (Sn b) as Sb. cbn beta in Sb. destruct (pm_peers s !! b) as [[|c i|]|] eqn:Eb; [by apply elem_of_nil in Hy| |by apply elem_of_nil in Hy..].
      assert (cn_addr c = b /\ exists h, status_of b tr = Open (cn_local c) (cn_link c) (cn_since c) h) as [Ec [h Es]] by (inversion Sb; eauto).
      destruct (refuses cf e b c v s); cbn [snd do_disconnect] in Hy; [by apply elem_of_list_singleton in Hy|]. rewrite Ec in Hy.
      destruct (cn_link c); cbn [is_inbound app] in Hy; [|exfalso; repeat (apply elem_of_cons in Hy as [Hy|Hy]; [done|]); by apply elem_of_nil in Hy].
      apply elem_of_cons in Hy as [Hy|Hy]; [|exfalso; repeat (apply elem_of_cons in Hy as [Hy|Hy]; [done|]); by apply elem_of_nil in Hy].
      injection Hy as -> ->. exists (cn_local c), (vm_nonce v). split; [apply mk_greets|]. right. exists v, (cn_since c), h. done.
    + exfalso. unfold received_verack in Hy. repeat case_match; cbn in Hy; repeat (apply elem_of_cons in Hy as [Hy|Hy]; [done|]); by apply elem_of_nil in Hy.
    + exfalso. unfold received_wtxidrelay, disconnect in Hy. repeat case_match; cbn in Hy; repeat (apply elem_of_cons in Hy as [Hy|Hy]; [done|]); by apply elem_of_nil in Hy.
    + by apply elem_of_nil in Hy.
  - exfalso. injection E as <- <- <-. unfold disconnect in Hy. destruct (connected_at s b); cbn in Hy; [by apply elem_of_list_singleton in Hy|by apply elem_of_nil in Hy].
  - exfalso. destruct (timer_parts _ _ _ _ _ _ E) as (s1 & x1 & s2 & z & w & D & Er & P & -> & Id). apply disconnect_all_out in D. unfold maintain_persistent in P.
    apply elem_of_app in Hy as [Hy|[Hy|Hy]%elem_of_app].
    + rewrite D in Hy. apply elem_of_list_fmap in Hy as (? & ? & _). done.
    + destruct (IDLE_TIMEOUT <=? _); [|destruct Id as (_ & -> & _); by apply elem_of_nil in Hy]. destruct Id as (s2' & y' & Mc & _ & ->).
      apply elem_of_app in Hy as [Hy|Hy%elem_of_list_singleton]; [|done]. by apply (maintain_says _ _ _ _ _ _ _ _ Mc) in Hy.
    + by pose proof (reconnect_quiet _ _ _ _ _ _ _ P Hy).
  - exfalso. destruct (connect cf (ke_now e) b _) as [[ok s1] x1] eqn:C. injection E as <- <- <-. by destruct (connect_quiet _ _ _ _ _ _ _ _ C Hy).
  - destruct (addr_step acf (o, ae) am) as [[am1 z]|]; cbn [mbind_M] in E; [|done]. injection E as <- <- <-. by apply elem_of_nil in Hy.
Qed.
Lemma greeted white os tr s am e s' am' x a local : khistory cf acf white os tr s am -> kstep cf acf (KConnected a local Outbound, e) (s, am) = Val (s', am', x) ->
  exists m, x = [KoVersion a m; KoTimer 12000; KoConnected a local Outbound] /\ greets cf a local (ke_nonce e) (ke_height e) (ke_now e) m.
Proof. intros Hh E. cbn in E. injection E as _ _ <-. eexists. split; [reflexivity|]. apply mk_greets. Qed.

(** The clock is told of the difference to the clock of the peer. *)
Lemma to_i64_id z : (-2 ^ 63 <= z < 2 ^ 63)%Z -> to_i64 z = z.
Proof. intros B. unfold to_i64. change (2 ^ 63)%Z with 9223372036854775808%Z in *. change (2 ^ 64)%Z with 18446744073709551616%Z. rewrite Z.mod_small by lia. lia. Qed.
Lemma offsets white os tr s am e s' am' x a local l since h : khistory cf acf white os tr s am -> status_of a tr = Open local l since (Some h) -> he_acked h = false ->
  (-2 ^ 62 <= vm_timestamp (he_msg h) < 2 ^ 62)%Z -> he_time h / 1000 < 2 ^ 32 ->
  kstep cf acf (KMessage a MVerack, e) (s, am) = Val (s', am', x) ->
  exists y, x = [y; KoOffset a (vm_timestamp (he_msg h) - Z.of_N (he_time h / 1000))] /\ exists sv pe ag rc he ve re wt, y = KoNegotiated a l sv pe ag rc he ve re wt.
Proof.
  intros Hh Os Un Bt Bn E. pose proof (history_seen _ _ _ _ _ _ _ Hh a) as Sa. cbn beta in Sa. rewrite Os in Sa. inversion Sa as [| | | |c i h' Ec If Ea]; subst. cbn [kstep] in E. injection E as _ _ <-.
  unfold received_verack. match goal with E : Some _ = pm_peers s !! _ |- _ => rewrite <- E end.
  destruct If as (_ & _ & _ & _ & _ & _ & _ & _ & _ & [_ Of] & If). destruct (pi_state i); [|congruence]. cbn [snd]. rewrite Of. unfold wrap32, two32. change (2 ^ 32) with 4294967296 in *. rewrite N.mod_small by exact Bn. rewrite to_i64_id.
  - eexists. split; [reflexivity|]. by eexists _, _, _, _, _, _, _, _.
  - change (2 ^ 62)%Z with 4611686018427387904%Z in *. change (2 ^ 63)%Z with 9223372036854775808%Z. lia.
Qed.
End Dial.
