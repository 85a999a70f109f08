(** Retries of persistent peers, and the number of outbound connections. *)
From Verif Require Import Base AddrModel AddrSpec PeerModel PeerSpec PeerProofs PeerMain PeerFacts PeerMore.
Open Scope N_scope.

Section Retry.
Context (cf : kconf) (acf : aconf).

(** ** What happens to the retry table *)
Lemma connect_keeps now a s ok s' x : connect cf now a s = (ok, s', x) -> pm_retry s' = pm_retry s.
Proof. by intros [(-> & _)|(_ & -> & _)]%connect_spec. Qed.
Lemma connect_all_keeps now l : forall s s' x, connect_all cf now l s = (s', x) -> pm_retry s' = pm_retry s.
Proof.
  induction l as [|a l IH]; intros s1 s2 y; cbn [connect_all]; [by intros [= <- <-]|].
  destruct (connect cf now a s1) as [[ok s3] x3] eqn:C. destruct (connect_all cf now l s3) as [s4 x4] eqn:D. intros [= <- <-]. rewrite (IH _ _ _ D). by eapply connect_keeps.
Qed.
Lemma reconnect_keeps now l : forall s s' x, reconnect_all cf now l s = (s', x) -> pm_retry s' = pm_retry s.
Proof.
  induction l as [|a l IH]; intros s1 s2 y; cbn [reconnect_all]; [by intros [= <- <-]|].
  destruct (connect cf now a s1) as [[ok s3] x3] eqn:C. destruct (reconnect_all cf now l s3) as [s4 x4] eqn:D. intros [= <- <-]. rewrite (IH _ _ _ D). by eapply connect_keeps.
Qed.
Lemma disconnect_all_keeps l : forall s s' x, disconnect_all l s = (s', x) -> pm_retry s' = pm_retry s /\ forall a, a ∉ l -> pm_peers s' !! a = pm_peers s !! a.
Proof.
  induction l as [|a l IH]; intros s1 s2 y; cbn [disconnect_all do_disconnect]; [by intros [= <- <-]|].
  destruct (disconnect_all l _) as [s4 x4] eqn:D. intros [= <- <-]. destruct (IH _ _ _ D) as [-> K]. split; [done|]. intros b [Nb Nl]%not_elem_of_cons. rewrite (K b Nl). cbn. by rewrite lookup_insert_ne.
Qed.
Lemma maintain_keeps e s am s' am' x : maintain_connections cf acf e s am = Val (s', am', x) -> pm_retry s' = pm_retry s.
Proof.
  unfold maintain_connections. destruct (kc_persistent cf); [|by intros [= <- <- <-]]. destruct (delta cf s) as [d|]; cbn [mbind_M]; [|done].
  generalize (countp p_negotiated s <? kc_target cf). intros below. generalize (S (S (size (am_peers am)))), 0%nat, (∅ : gset sockaddr). intros fuel. revert s am s' am' x.
  induction fuel as [|fuel IHf]; intros s1 am1 s2 am2 y n dn; cbn [connect_loop]; [done|].
  case_match; [|by intros [= <- <- <-]]. destruct (draw cf acf e n _ am1) as [[am3 [[ad src]|]]|]; cbn [mbind_M]; [|by intros [= <- <- <-]|done].
  destruct (socket_addr ad) as [sa|]; [|apply IHf]. destruct (connect cf (ke_now e) sa s1) as [[ok s3] x3] eqn:C. destruct ok.
  - destruct (connect_loop cf acf fuel (S n) e d _ _ s3 am3) as [[[s4 am4] x4]|] eqn:L; cbn [mbind_M]; [|done]. intros [= <- <- <-]. rewrite (IHf _ _ _ _ _ _ _ L). by eapply connect_keeps.
  - intros L. rewrite (IHf _ _ _ _ _ _ _ L). by eapply connect_keeps.
Qed.
Definition attempts (s : pmgr) (a : sockaddr) : N := match pm_retry s !! a with Some (_, n) => n | None => 0 end.
Definition expire (now : N) (r : option N * N) : option N * N := if due now r then (None, r.2) else r.
Lemma retry_step o e s am s' am' x : kstep cf acf (o, e) (s, am) = Val (s', am', x) ->
  pm_retry s' = match o with
    | KConnected a _ _ => delete a (pm_retry s)
    | KDisconnected a _ => if bool_decide (a ∈ kc_persistent cf) then <[a := (Some (ke_now e + backoff cf (attempts s a)), attempts s a + 1)]> (pm_retry s) else pm_retry s
    | KTimer => expire (ke_now e) <$> pm_retry s
    | _ => pm_retry s
    end.
Proof.
  intros E. destruct o as [|a local l|a r|a m|a r| |a|o ae]; cbn [kstep] in E.
  - unfold initialize in E. destruct (connect_all _ _ _ s) as [s1 x1] eqn:C. destruct (maintain_connections cf acf e s1 am) as [[[s2 am2] z]|] eqn:Mc; cbn [mbind_M] in E; [|done].
    injection E as <- <- <-. rewrite (maintain_keeps _ _ _ _ _ _ Mc). by eapply connect_all_keeps.
  - injection E as <- <- <-. unfold peer_connected. destruct l; [destruct (_ <=? _)|]; done.
  - unfold peer_disconnected in E. case_bool_decide.
    + unfold persistent_disconnected in E. case_match; [done|]. cbn [mbind_M] in E. by injection E as <- <- <-.
    + destruct (maintain_connections cf acf e _ am) as [[[s2 am2] z]|] eqn:Mc; cbn [mbind_M] in E; [|done]. injection E as <- <- <-. by rewrite (maintain_keeps _ _ _ _ _ _ Mc).
  - destruct m; injection E as <- <- <-; unfold received_version, received_verack, received_wtxidrelay, disconnect; repeat case_match; done.
  - injection E as <- <- <-. unfold disconnect. by case_match.
  - unfold timer_expired in E. destruct (disconnect_all _ s) as [s1 x1] eqn:D. apply disconnect_all_keeps in D as [D _]. rewrite <- D. case_match.
    + destruct (maintain_connections cf acf e s1 am) as [[[s2 am2] z]|] eqn:Mc; cbn [mbind_M] in E; [|done]. destruct (maintain_persistent cf e _) as [s3 w] eqn:P. injection E as <- <- <-.
      unfold maintain_persistent in P. apply reconnect_keeps in P. rewrite P. cbn. by rewrite (maintain_keeps _ _ _ _ _ _ Mc).
    + cbn [mbind_M] in E. destruct (maintain_persistent cf e _) as [s3 w] eqn:P. injection E as <- <- <-. unfold maintain_persistent in P. by apply reconnect_keeps in P.
  - destruct (connect cf (ke_now e) a _) as [[ok s1] x1] eqn:C. injection E as <- <- <-. by apply connect_keeps in C.
  - destruct (addr_step acf (o, ae) am) as [[am1 z]|]; cbn [mbind_M] in E; [|done]. by injection E as <- <- <-.
Qed.

(** ** Reconnecting *)
Lemma reconnect_in now l a : domain_ok cf a -> forall s s' x, reconnect_all cf now l s = (s', x) -> pm_peers s !! a = None -> KoConnect a ∈ x <-> a ∈ l.
Proof.
  intros Dm. induction l as [|b l IH]; intros s1 s2 y; cbn [reconnect_all].
  - intros [= <- <-] _. split; intros I; by apply elem_of_nil in I.
  - destruct (connect cf now b s1) as [[ok s3] x3] eqn:C. destruct (reconnect_all cf now l s3) as [s4 x4] eqn:D. intros [= <- <-] En.
    rewrite elem_of_app, elem_of_cons. destruct (decide (a = b)) as [<-|Nb].
    + split; [by left|]. intros _. left. unfold connect in C. unfold connected_at, connecting_at, disconnected_at in C. rewrite En in C. cbn in C. red in Dm. rewrite Dm in C. cbn in C. injection C as <- <- <-. by left.
    + pose proof (connect_spec _ _ _ _ _ _ _ C) as Cs. rewrite <- (IH _ _ _ D).
      * split; [|by intros [?|?]; auto]. intros [I|I]; [|by auto]. apply (connect_quiet _ _ _ _ _ _ _ _ C) in I as [[= ->]|?]; done.
      * destruct Cs as [(-> & _)|(_ & -> & _)]; [done|]. cbn. by rewrite lookup_insert_ne.
Qed.
Lemma outs_still_idle a now x st : outs a now x st = Idle -> KoConnect a ∉ x.
Proof.
  revert st. induction x as [|y x IH]; intros st E I; [by apply elem_of_nil in I|]. unfold outs in E. cbn [fold_left] in E. fold (outs a now x (observe_out a now y st)) in E.
  apply elem_of_cons in I as [<-|I]; [|by apply (IH _ E)]. apply outs_idle in E. cbn in E. by rewrite bool_decide_eq_true_2 in E.
Qed.
Lemma persistent_quiet e s am s' am' x a : a ∈ kc_persistent cf -> maintain_connections cf acf e s am = Val (s', am', x) -> s' = s /\ x = [].
Proof. intros P. unfold maintain_connections. destruct (kc_persistent cf); [by apply elem_of_nil in P|]. by intros [= <- <- <-]. Qed.
Lemma timer_dials e s am s' am' x f a : seen cf s f -> fair_kenv e -> kstep cf acf (KTimer, e) (s, am) = Val (s', am', x) -> a ∈ kc_persistent cf -> domain_ok cf a -> pm_peers s !! a = None ->
  KoConnect a ∈ x <-> exists r, pm_retry s !! a = Some r /\ due (ke_now e) r = true.
Proof.
  intros Sn Fe E Pe Dm En. cbn [kstep] in E. unfold timer_expired in E. pose proof (late_in cf e s f a Sn Fe) as La. set (late := _ ++ _) in *. clearbody late.
  assert (a ∉ late) as Nl.
  { rewrite La. pose proof (Sn a) as Sa. rewrite En in Sa. destruct (f a); [cbn; tauto|inversion Sa..]. }
  destruct (disconnect_all late s) as [s1 x1] eqn:D. pose proof (disconnect_all_out _ _ _ _ D) as Dx. apply disconnect_all_keeps in D as [Dr Dp]. specialize (Dp a Nl).
  assert (forall y, y ∈ x1 -> y <> KoConnect a) as N1 by (intros y I ->; rewrite Dx in I; apply elem_of_list_fmap in I as (? & ? & _); done).
  assert (forall s2 s3 w, pm_retry s2 = pm_retry s -> pm_peers s2 !! a = None -> maintain_persistent cf e s2 = (s3, w) -> KoConnect a ∈ w <-> exists r, pm_retry s !! a = Some r /\ due (ke_now e) r = true) as P.
  { intros s2 s3 w Er Ep P. unfold maintain_persistent in P. rewrite (reconnect_in _ _ a Dm _ _ _ P Ep), Er, elem_of_list_In, filter_In, <- elem_of_list_In. destruct Fe as [Fo _]. rewrite (Fo _).
    rewrite elem_of_list_fmap. split.
    - intros [_ F]. destruct (pm_retry s !! a) as [r|]; [by exists r|done].
    - intros (r & Eq & F). rewrite Eq. split; [|done]. exists (a, r). split; [done|]. by apply elem_of_map_to_list. }
  assert (forall l, KoConnect a ∈ x1 ++ l <-> KoConnect a ∈ l) as Ax by (intros l; rewrite elem_of_app; split; [intros [?%N1|?]; done|by right]).
  case_match.
  - destruct (maintain_connections cf acf e s1 am) as [[[s2 am2] z]|] eqn:Mc; cbn [mbind_M] in E; [|done]. destruct (persistent_quiet _ _ _ _ _ _ _ Pe Mc) as [-> ->].
    destruct (maintain_persistent cf e _) as [s3 w] eqn:Q. injection E as <- <- <-. rewrite Ax. cbn [app]. rewrite elem_of_cons. rewrite <- (P (PMgr (Some (ke_now e)) (pm_peers s1) (pm_retry s1) (pm_white s1)) s3 w Dr (eq_trans Dp En) Q).
    split; [by intros [?|?]|by right].
  - cbn [mbind_M] in E. destruct (maintain_persistent cf e _) as [s3 w] eqn:Q. injection E as <- <- <-. rewrite Ax. cbn [app]. exact (P _ _ _ Dr (eq_trans Dp En) Q).
Qed.

(** ** C47 *)
Lemma drops_snoc a tr t : drops a (tr ++ [t]) = drops_step a t (drops a tr).
Proof. unfold drops. by rewrite fold_left_app. Qed.
Definition retried (tr : ktrace) (s : pmgr) (a : sockaddr) : Prop :=
  (a ∉ kc_persistent cf -> pm_retry s !! a = None) /\
  (a ∈ kc_persistent cf -> attempts s a = failures a tr) /\
  (a ∈ kc_persistent cf -> domain_ok cf a -> status_of a tr = Idle -> forall t n, last_drop a tr = Some (t, n) -> pm_retry s !! a = Some (Some (t + backoff cf n), n + 1)).
Lemma history_retried white os tr s am : khistory cf acf white os tr s am -> forall a, retried tr s a.
Proof.
  revert os tr s am. apply (history_ind cf acf white (fun tr s am => forall a, retried tr s a)).
  - intros am a. split; [done|]. split; [done|]. by intros _ _ _ t n.
  - intros os tr s am o e s' am' x Hh IH Fo E a. specialize (IH a) as (R1 & R2 & R3). pose proof (retry_step _ _ _ _ _ _ _ E) as Er.
    pose proof (history_seen _ _ _ _ _ _ _ Hh) as Sn. destruct Fo as [Fe _]. cbn [snd] in Fe.
    unfold retried, attempts, failures, last_drop in *. rewrite Er, drops_snoc, status_snoc, observe_outs. unfold drops_step. cbn [fst snd].
    assert (forall P : Prop, (outs a (ke_now e) x (observe_op a (ke_now e) o (status_of a tr)) = Idle -> observe_op a (ke_now e) o (status_of a tr) = status_of a tr -> status_of a tr = Idle -> P) ->
      observe_op a (ke_now e) o (status_of a tr) = status_of a tr -> outs a (ke_now e) x (observe_op a (ke_now e) o (status_of a tr)) = Idle -> P) as Go.
    { intros P HP Eo Ei. apply HP; [done|done|]. apply outs_idle in Ei. by rewrite Eo in Ei. }
    destruct o as [|b local l|b r|b m|b r| |b|o ae]; cbn [observe_op].
    + split; [done|]. split; [done|]. intros Pe Dm. revert R3. intros R3 Ei. apply outs_idle in Ei. by apply R3.
    + case_bool_decide as Eb.
      * subst b. rewrite lookup_delete. split; [done|]. split; [done|]. intros _ _ Ei. by apply outs_idle in Ei.
      * rewrite lookup_delete_ne by done. split; [done|]. split; [done|]. intros Pe Dm Ei. apply outs_idle in Ei. by apply R3.
    + destruct (decide (b = a)) as [->|Eb].
      * rewrite !(bool_decide_eq_true_2 (a = a)) by done. split; [|split].
        -- intros Np. rewrite bool_decide_eq_false_2 by done. by apply R1.
        -- intros Pe. rewrite bool_decide_eq_true_2 by done. rewrite lookup_insert. cbn [fst]. by rewrite (R2 Pe).
        -- intros Pe _ _ t n [= <- <-]. rewrite bool_decide_eq_true_2 by done. rewrite lookup_insert. by rewrite (R2 Pe).
      * rewrite !(bool_decide_eq_false_2 (b = a)) by done. assert ((if bool_decide (b ∈ kc_persistent cf) then <[b := (Some (ke_now e + backoff cf (match pm_retry s !! b with Some (_, n) => n | None => 0 end)), match pm_retry s !! b with Some (_, n) => n | None => 0 end + 1)]> (pm_retry s) else pm_retry s) !! a = pm_retry s !! a) as ->.
        { case_bool_decide; [by rewrite lookup_insert_ne|done]. }
        split; [done|]. split; [done|]. intros Pe Dm Ei. apply outs_idle in Ei. by apply R3.
    + split; [done|]. split; [done|]. intros Pe Dm Ei. apply outs_idle in Ei. case_bool_decide; [|by apply R3]. destruct (status_of a tr) eqn:St; try done. by apply R3.
    + split; [done|]. split; [done|]. intros Pe Dm Ei. apply outs_idle in Ei. by apply R3.
    + rewrite lookup_fmap. split; [intros Np; by rewrite (R1 Np)|]. split.
      * intros Pe. rewrite <- (R2 Pe). destruct (pm_retry s !! a) as [[t n]|]; [|done]. cbn [fmap option_fmap option_map]. unfold expire. by destruct (due (ke_now e) (t, n)).
      * intros Pe Dm Ei t n Ld. pose proof (outs_still_idle _ _ _ _ Ei) as Nk. apply outs_idle in Ei. specialize (R3 Pe Dm Ei t n Ld). rewrite R3. cbn [fmap option_fmap option_map]. unfold expire.
        destruct (due (ke_now e) (Some (t + backoff cf n), n + 1)) eqn:Du; [|done]. destruct Nk. apply (timer_dials _ _ _ _ _ _ _ _ Sn Fe E Pe Dm).
        -- pose proof (Sn a) as Sa. cbn beta in Sa. rewrite Ei in Sa. by inversion Sa.
        -- by eexists.
    + split; [done|]. split; [done|]. intros Pe Dm Ei. apply outs_idle in Ei. by apply R3.
    + split; [done|]. split; [done|]. intros Pe Dm Ei. apply outs_idle in Ei. by apply R3.
Qed.

Lemma backoff_delay n : n < 2 ^ 32 -> backoff cf n = retry_delay cf n.
Proof. intros Lt. unfold backoff, retry_delay, wrap32, two32. rewrite N.mod_small; [done|]. exact Lt. Qed.
Lemma drop_timer white os tr s am a r e s' am' x : khistory cf acf white os tr s am -> a ∈ kc_persistent cf -> failures a tr < 2 ^ 32 ->
  kstep cf acf (KDisconnected a r, e) (s, am) = Val (s', am', x) ->
  exists y, x = y ++ [KoTimer (retry_delay cf (failures a tr))] /\ forall d, KoTimer d ∉ y.
Proof.
  intros Hh Pe Lt E. pose proof (history_retried _ _ _ _ _ Hh a) as (_ & R2 & _). cbn [kstep] in E. unfold peer_disconnected in E. rewrite bool_decide_eq_true_2 in E by done.
  unfold persistent_disconnected in E. case_match; [done|]. cbn [mbind_M] in E. cbn [pm_retry set_peers] in E. fold (attempts s a) in E. rewrite (R2 Pe), (backoff_delay _ Lt) in E. injection E as <- <- <-.
  eexists. split; [done|]. intros d I. repeat case_match; try (by apply elem_of_nil in I); by apply elem_of_list_singleton in I.
Qed.
Lemma retry_bounds n : kc_retry_min cf <= kc_retry_max cf -> kc_retry_min cf <= retry_delay cf n <= kc_retry_max cf.
Proof. unfold retry_delay. lia. Qed.
Lemma retry_mono n m : n <= m -> retry_delay cf n <= retry_delay cf m.
Proof.
  intros Le. unfold retry_delay. assert (2 ^ n <= 2 ^ m) by (apply N.pow_le_mono_r; lia). change (2 ^ 64 - 1) with 18446744073709551615. lia.
Qed.
Lemma redialled white os tr s am a t n e s' am' x : khistory cf acf white os tr s am -> fair_kenv e -> a ∈ kc_persistent cf -> domain_ok cf a -> status_of a tr = Idle -> last_drop a tr = Some (t, n) -> n < 2 ^ 32 ->
  kstep cf acf (KTimer, e) (s, am) = Val (s', am', x) -> KoConnect a ∈ x <-> t + retry_delay cf n <= ke_now e.
Proof.
  intros Hh Fe Pe Dm Ei Ld Lt E. pose proof (history_retried _ _ _ _ _ Hh a) as (_ & _ & R3). pose proof (history_seen _ _ _ _ _ _ _ Hh) as Sn.
  rewrite (timer_dials _ _ _ _ _ _ _ _ Sn Fe E Pe Dm).
  - rewrite (R3 Pe Dm Ei t n Ld), (backoff_delay _ Lt). split.
    + intros (q & [= <-] & D). cbn in D. by apply N.leb_le.
    + intros Le. eexists. split; [done|]. cbn. by apply N.leb_le.
  - pose proof (Sn a) as Sa. cbn beta in Sa. rewrite Ei in Sa. by inversion Sa.
Qed.

(** ** C48 *)
Lemma busy_count f n s tr : seen cf s (fun a => status_of a tr) -> forall (P : status -> Prop), (forall a p st, sees cf a p st -> P st -> exists q, p = Some q /\ f q = true) ->
  mcount f (pm_peers s) <= n -> at_most n P tr.
Proof. intros Sn P Pf. by apply (at_most_count cf). Qed.
Lemma sees_busy a p st : sees cf a p st -> busy st -> exists q, p = Some q /\ p_busy q = true.
Proof. intros S B. inversion S; subst; try done; by eexists. Qed.
Lemma sees_counted a p st : sees cf a p st -> counted cf st -> exists q, p = Some q /\ p_counted cf q = true.
Proof.
  intros S B. inversion S as [|t| |c Ec|c i h Ec If]; subst; try done; eexists; (split; [done|]); try done.
  unfold p_counted, p_secondary, p_primary, p_busy. cbn. unfold info in If. destruct_and!. unfold is_negotiated. cbn in B. destruct (cn_link c), (pi_state i); cbn; try done.
  match goal with E : pi_services i = _ |- _ => rewrite E end. by rewrite B.
Qed.
Definition p_out (p : peer) : bool := match p with Connecting _ => true | Connected c _ => is_outbound (cn_link c) | _ => false end.
Lemma sees_out a p st : sees cf a p st -> busy_outbound st -> exists q, p = Some q /\ p_out q = true.
Proof. intros S B. inversion S; subst; try done; eexists; (split; [done|]); cbn in *; try done; by rewrite B. Qed.

Lemma dialled_in a x : a ∈ dialled x <-> KoConnect a ∈ x.
Proof.
  unfold dialled. rewrite elem_of_list_omap. split.
  - intros (y & I & E). destruct y; try done. by injection E as ->.
  - intros I. by exists (KoConnect a).
Qed.
Lemma disconnect_all_count f l : f Disconnecting = false -> forall s s' x, disconnect_all l s = (s', x) -> mcount f (pm_peers s') <= mcount f (pm_peers s).
Proof.
  intros F. induction l as [|a l IH]; intros s1 s2 y; cbn [disconnect_all do_disconnect]; [by intros [= <- <-]|].
  destruct (disconnect_all l _) as [s4 x4] eqn:D. intros [= <- <-]. etrans; [by eapply IH|]. apply mcount_le. intros k v E Fv. cbn in E.
  destruct (decide (k = a)) as [->|Nk]; [rewrite lookup_insert in E; injection E as <-; by rewrite F in Fv|]. rewrite lookup_insert_ne in E by done. by exists v.
Qed.
(** With no persistent peers, a call that dials leaves the totals within their limits. *)
Lemma dial_step white os tr s am o e s' am' x : khistory cf acf white os tr s am -> sane cf -> fair_kop (o, e) -> kc_persistent cf = [] -> (forall a, o <> KConnect a) ->
  kstep cf acf (o, e) (s, am) = Val (s', am', x) ->
  match o with
  | KInit | KDisconnected _ _ | KTimer => True
  | _ => forall a, KoConnect a ∉ x
  end /\
  ((exists a, KoConnect a ∈ x) -> mcount p_busy (pm_peers s') <= kc_target cf + kc_target cf / 2 /\ mcount (p_counted cf) (pm_peers s') <= kc_target cf) /\
  ((forall a, KoConnect a ∉ x) -> match o with KConnected _ _ _ => True | _ => mcount p_out (pm_peers s') <= mcount p_out (pm_peers s) end).
Proof.
  intros Hh Sn [Fe Fo] Np Nk E. pose proof (history_addr _ _ _ _ _ _ _ Sn Hh) as Ok. pose proof (history_seen _ _ _ _ _ _ _ Hh) as Se. cbn [fst snd] in *.
  assert (forall a, pm_retry s !! a = None) as Re.
  { intros a. destruct (history_retried _ _ _ _ _ Hh a) as (R1 & _). apply R1. rewrite Np. apply not_elem_of_nil. }
  assert (dial_count p_busy true) as F1 by done. assert (dial_count (p_counted cf) true) as F2 by done. assert (dial_count p_out true) as F3 by done.
  assert (forall s am s' am' x, addr_ok am -> maintain_connections cf acf e s am = Val (s', am', x) ->
    ((exists a, KoConnect a ∈ x) -> mcount p_busy (pm_peers s') <= kc_target cf + kc_target cf / 2 /\ mcount (p_counted cf) (pm_peers s') <= kc_target cf) /\
    ((forall a, KoConnect a ∉ x) -> mcount p_out (pm_peers s') <= mcount p_out (pm_peers s))) as Mt.
  { clear E s s' am am' x Hh Ok Se Re. intros s am s' am' x Ok E. destruct (maintain_spec cf acf e s am Sn Fe Ok) as (s2 & am2 & x2 & d & E' & L & _ & Dd). rewrite E in E'. injection E' as <- <- <-.
    destruct L as [_ _ _ _ Lc Lb _]. rewrite (Lc _ _ F1), (Lc _ _ F2), (Lc _ _ F3). cbn beta iota. split.
    - intros [a I%dialled_in]. assert (0 < lenN (dialled x)) by (destruct (dialled x); [by apply elem_of_nil in I|unfold lenN; cbn [length]; lia]).
      set (t := kc_target cf + kc_target cf / 2) in *. clearbody t. lia.
    - intros No. destruct (dialled x) as [|a l] eqn:Ex; [unfold lenN; cbn; lia|]. destruct (No a). apply dialled_in. rewrite Ex. by left. }
  assert (forall (P : Prop) (x : list kout), (forall a : sockaddr, KoConnect a ∉ x) -> ((exists a, KoConnect a ∈ x) -> P)) as Vac by (intros P y N [a I]; by apply N in I).
  destruct o as [|a local l|a r|a m|a r| |a|o ae]; cbn [kstep] in E.
  - split; [done|]. unfold initialize in E. rewrite Np in E. cbn [connect_all] in E. destruct (maintain_connections cf acf e s am) as [[[s2 am2] z]|] eqn:Mc; cbn [mbind_M] in E; [|done].
    injection E as <- <- <-. destruct (Mt _ _ _ _ _ Ok Mc) as [M1 M2]. cbn [app]. split.
    + intros [a [I|I]%elem_of_cons]; [done|]. apply M1. by exists a.
    + intros N. apply M2. intros a I. apply (N a). by right.
  - injection E as <- <- <-. assert (forall b, KoConnect b ∉ (peer_connected cf e a local l s).2) as N.
    { intros b. unfold peer_connected. destruct l; [destruct (_ <=? _)|]; cbn; intros I; repeat (apply elem_of_cons in I as [I|I]; [done|]); by apply elem_of_nil in I. }
    split; [exact N|]. split; [by apply Vac|done].
  - split; [done|]. unfold peer_disconnected in E. rewrite bool_decide_eq_false_2 in E by (rewrite Np; apply not_elem_of_nil).
    destruct (maintain_connections cf acf e _ am) as [[[s2 am2] z]|] eqn:Mc; cbn [mbind_M] in E; [|done]. injection E as <- <- <-. destruct (Mt _ _ _ _ _ Ok Mc) as [M1 M2].
    set (w := if _ || _ then _ else _). assert (forall b, KoConnect b ∉ w) as Nw.
    { intros b. unfold w. repeat case_match; intros I; repeat (apply elem_of_cons in I as [I|I]; [done|]); by apply elem_of_nil in I. }
    clearbody w. split.
    + intros [b [I|I]%elem_of_app]; [by apply Nw in I|]. apply M1. by exists b.
    + intros N. etrans; [apply M2; intros b I; apply (N b); apply elem_of_app; by right|]. apply mcount_le. cbn. intros k v Ek Fv. apply lookup_delete_Some in Ek as [_ Ek]. by exists v.
  - assert ((forall b, KoConnect b ∉ x) /\ mcount p_out (pm_peers s') <= mcount p_out (pm_peers s)) as [N L]; [|split; [exact N|]; split; [by apply Vac|done]].
    assert (forall b r (t : pmgr), mcount p_out (pm_peers (do_disconnect b r t).1) <= mcount p_out (pm_peers t)) as Dd.
    { intros b r t. apply mcount_le. cbn. intros k v Ek Fv. destruct (decide (k = b)) as [->|Nb]; [rewrite lookup_insert in Ek; by injection Ek as <-|]. rewrite lookup_insert_ne in Ek by done. by exists v. }
    assert (forall b c i j, pm_peers s !! b = Some (Connected c i) -> mcount p_out (<[b := Connected c j]> (pm_peers s)) <= mcount p_out (pm_peers s)) as Rp.
    { intros b c i j Eb. apply mcount_le. intros k v Ek Fv. destruct (decide (k = b)) as [->|Nb]; [rewrite lookup_insert in Ek; injection Ek as <-; by eexists|]. rewrite lookup_insert_ne in Ek by done. by exists v. }
    assert (forall (l : list kout), forallb (fun y => match y with KoConnect _ => false | _ => true end) l = true -> forall b, KoConnect b ∉ l) as Fl.
    { intros l Al b I. apply elem_of_list_In in I. rewrite forallb_forall in Al. by specialize (Al _ I). }
    destruct m as [m| | |]; injection E as <- <- <-.
    + unfold received_version. destruct (pm_peers s !! a) as [[t|c i|]|] eqn:Ea; try (split; [by apply Fl|done]).
      assert (cn_addr c = a) as -> by (pose proof (Se a) as Q; cbn beta in Q; rewrite Ea in Q; by inversion Q).
      destruct (refuses cf e a c m s) as [r|]; [split; [by apply Fl|apply Dd]|]. split; [apply Fl; by destruct (is_inbound (cn_link c))|]. cbn. by eapply Rp.
    + unfold received_verack. destruct (pm_peers s !! a) as [[t|c [i|]|]|] eqn:Ea; try (split; [by apply Fl|done]).
      destruct (pi_state i); [|split; [by apply Fl|apply Dd]]. split; [by apply Fl|]. cbn. by eapply Rp.
    + unfold received_wtxidrelay, disconnect. destruct (pm_peers s !! a) as [[t|c [i|]|]|] eqn:Ea; try (split; [by apply Fl|done]).
      destruct (pi_state i); [split; [by apply Fl|]; cbn; by eapply Rp|]. destruct (connected_at s a); [split; [by apply Fl|apply Dd]|split; [by apply Fl|done]].
    + split; [by apply Fl|done].
  - injection E as <- <- <-. unfold disconnect. case_match.
    + cbn. assert (forall b, KoConnect b ∉ [KoDisconnect a r]) as N by (intros b I; by apply elem_of_list_singleton in I). split; [exact N|]. split; [by apply Vac|]. intros _.
      apply mcount_le. intros k v Ek Fv. destruct (decide (k = a)) as [->|Nb]; [rewrite lookup_insert in Ek; by injection Ek as <-|]. rewrite lookup_insert_ne in Ek by done. by exists v.
    + cbn. assert (forall b : sockaddr, KoConnect b ∉ ([] : list kout)) as N by (intros b I; by apply elem_of_nil in I). split; [exact N|]. split; [by apply Vac|done].
  - split; [done|]. unfold timer_expired in E. destruct (disconnect_all _ s) as [s1 x1] eqn:D. pose proof (disconnect_all_out _ _ _ _ D) as Dx. pose proof (disconnect_all_count p_out _ eq_refl _ _ _ D) as Dc.
    apply disconnect_all_keeps in D as [Dr _].
    assert (forall b, KoConnect b ∉ x1) as N1 by (intros b I; rewrite Dx in I; apply elem_of_list_fmap in I as (? & ? & _); done).
    assert (forall t, pm_retry t = pm_retry s -> exists t', maintain_persistent cf e t = (t', []) /\ pm_peers t' = pm_peers t) as Mp.
    { intros t Er. unfold maintain_persistent. rewrite Er. assert (pm_retry s = ∅) as -> by (by apply map_empty). rewrite map_to_list_empty. destruct Fe as [Fo' _].
      assert (ke_order e (fst <$> []) = []) as -> by (apply Permutation_nil; symmetry; apply Fo'). cbn. by eexists. }
    case_match.
    + destruct (maintain_connections cf acf e s1 am) as [[[s2 am2] z]|] eqn:Mc; cbn [mbind_M] in E; [|done]. destruct (Mt _ _ _ _ _ Ok Mc) as [M1 M2].
      destruct (Mp (PMgr (Some (ke_now e)) (pm_peers s2) (pm_retry s2) (pm_white s2))) as (s3 & Q & Eq); [cbn; by rewrite (maintain_keeps _ _ _ _ _ _ Mc)|]. rewrite Q in E. injection E as <- <- <-. rewrite Eq. cbn [pm_peers]. split.
      * intros [b [I|[[I|I]%elem_of_app|I]%elem_of_app]%elem_of_app]; [by apply N1 in I| |by apply elem_of_list_singleton in I|by apply elem_of_nil in I]. apply M1. by exists b.
      * intros N. etrans; [apply M2; intros b I; apply (N b); rewrite !elem_of_app; auto|done].
    + cbn [mbind_M] in E. destruct (Mp s1 Dr) as (s3 & Q & Eq). rewrite Q in E. injection E as <- <- <-. rewrite Eq. cbn [app]. rewrite app_nil_r. split; [by apply Vac|done].
  - by destruct (Nk a).
  - destruct (addr_step acf (o, ae) am) as [[am1 z]|]; cbn [mbind_M] in E; [|done]. injection E as <- <- <-.
    assert (forall b : sockaddr, KoConnect b ∉ ([] : list kout)) as N by (intros b I; by apply elem_of_nil in I). split; [exact N|]. split; [by apply Vac|done].
Qed.
Lemma dial_limited white os tr s am o e s' am' x a : khistory cf acf white os tr s am -> sane cf -> fair_kop (o, e) -> kc_persistent cf = [] -> (forall b, o <> KConnect b) ->
  kstep cf acf (o, e) (s, am) = Val (s', am', x) -> KoConnect a ∈ x ->
  at_most (kc_target cf + kc_target cf / 2) busy (tr ++ [(o, ke_now e, x)]) /\ at_most (kc_target cf) (counted cf) (tr ++ [(o, ke_now e, x)]).
Proof.
  intros Hh Sn Fo Np Nk E I. destruct (dial_step _ _ _ _ _ _ _ _ _ _ Hh Sn Fo Np Nk E) as (_ & B & _). destruct B as [B1 B2]; [by exists a|].
  pose proof (history_seen _ _ _ _ _ _ _ (history_snoc _ _ _ _ _ _ _ _ _ _ _ _ Hh Fo E)) as Se. split.
  - apply (at_most_count cf _ _ p_busy s'); [exact Se|apply sees_busy|exact B1].
  - apply (at_most_count cf _ _ (p_counted cf) s'); [exact Se|apply sees_counted|exact B2].
Qed.
Lemma lawful_init tr t : lawful (tr ++ [t]) -> lawful tr.
Proof. intros L tr1 o now x tr2 ->. apply (L tr1 o now x (tr2 ++ [t])). by rewrite <- app_assoc. Qed.
Lemma out_limited white os tr s am : khistory cf acf white os tr s am -> sane cf -> kc_persistent cf = [] -> lawful tr -> mcount p_out (pm_peers s) <= kc_target cf + kc_target cf / 2.
Proof.
  intros Hh Sn Np. revert os tr s am Hh. apply (history_ind cf acf white (fun tr s am => lawful tr -> mcount p_out (pm_peers s) <= kc_target cf + kc_target cf / 2)).
  - intros am _. unfold mcount. cbn. rewrite map_to_list_empty. cbn. unfold lenN. cbn. lia.
  - intros os tr s am o e s' am' x Hh IH Fo E L. specialize (IH (lawful_init _ _ L)). specialize (L tr o (ke_now e) x [] eq_refl).
    assert (forall b, o <> KConnect b) as Nk by (intros b ->; done).
    destruct (dial_step _ _ _ _ _ _ _ _ _ _ Hh Sn Fo Np Nk E) as (_ & B1 & B2).
    destruct (dialled x) as [|a l] eqn:Ed.
    + assert (forall a, KoConnect a ∉ x) as N by (intros a I%dialled_in; rewrite Ed in I; by apply elem_of_nil in I). specialize (B2 N).
      assert (mcount p_out (pm_peers s') <= mcount p_out (pm_peers s)) as B; [|lia]. destruct o as [|a local l|a r|a m|a r| |a|o ae]; try done.
      cbn [kstep] in E. injection E as <- <- <-. apply mcount_le. intros k v Ek Fv. unfold peer_connected in Ek.
      assert (k <> a -> pm_peers s !! k = Some v) as Ne by (intros Nk'; destruct l; [destruct (_ <=? _)|]; cbn in Ek; rewrite ?lookup_insert_ne in Ek by done; done).
      destruct (decide (k = a)) as [->|Nb]; [|exists v; by split; [apply Ne|]]. destruct l.
      * destruct (_ <=? _); cbn in Ek; rewrite lookup_insert in Ek; injection Ek as <-; done.
      * destruct L as [since St]. pose proof (history_seen _ _ _ _ _ _ _ Hh a) as Sa. cbn beta in Sa. rewrite St in Sa. inversion Sa; subst. by eexists.
    + destruct B1 as [B1 _]; [exists a; apply dialled_in; rewrite Ed; by left|]. etrans; [|exact B1]. apply mcount_le. intros k v Ek Fv. exists v. split; [done|]. by destruct v.
Qed.
Lemma outbound_limited white os tr s am : khistory cf acf white os tr s am -> sane cf -> kc_persistent cf = [] -> lawful tr -> at_most (kc_target cf + kc_target cf / 2) busy_outbound tr.
Proof.
  intros Hh Sn Np L. apply (at_most_count cf _ _ p_out s); [by eapply history_seen|apply sees_out|by eapply out_limited].
Qed.
End Retry.
