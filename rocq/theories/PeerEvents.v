(** Events of the peer manager, and long histories of failures. *)
From Verif Require Import Base AddrModel AddrSpec PeerModel PeerSpec PeerProofs PeerMain PeerFacts PeerMore PeerRetry.
Open Scope N_scope.

Section Events.
Context (cf : kconf) (acf : aconf).

(** Outputs that are not events about connections. *)
Definition plain (x : kout) : bool := match x with KoConnected _ _ _ | KoDisconnected _ _ | KoFailed _ => false | _ => true end.
Definition plains (x : list kout) : Prop := Forall (fun y => plain y = true) x.
Lemma connect_plain now a s ok s' x : connect cf now a s = (ok, s', x) -> plains x.
Proof. intros [(_ & -> & _)|(_ & _ & -> & _)]%connect_spec; repeat constructor. Qed.
Lemma connect_all_plain now l : forall s s' x, connect_all cf now l s = (s', x) -> plains x.
Proof.
  induction l as [|a l IH]; intros s s' x; cbn [connect_all]; [intros [= <- <-]; constructor|].
  destruct (connect cf now a s) as [[ok s1] x1] eqn:C. destruct (connect_all cf now l s1) as [s2 x2] eqn:D. intros [= <- <-].
  apply Forall_app. split; [by eapply connect_plain|]. apply Forall_app. split; [destruct ok; repeat constructor|by eapply IH].
Qed.
Lemma reconnect_plain now l : forall s s' x, reconnect_all cf now l s = (s', x) -> plains x.
Proof.
  induction l as [|a l IH]; intros s s' x; cbn [reconnect_all]; [intros [= <- <-]; constructor|].
  destruct (connect cf now a s) as [[ok s1] x1] eqn:C. destruct (reconnect_all cf now l s1) as [s2 x2] eqn:D. intros [= <- <-].
  apply Forall_app. split; [by eapply connect_plain|by eapply IH].
Qed.
Lemma maintain_plain e s am s' am' x : maintain_connections cf acf e s am = Val (s', am', x) -> plains x.
Proof.
  unfold maintain_connections. destruct (kc_persistent cf); [|intros [= <- <- <-]; constructor]. destruct (delta cf s) as [d|]; cbn [mbind_M]; [|done].
  generalize (countp p_negotiated s <? kc_target cf). intros below. generalize (S (S (size (am_peers am)))), 0%nat, (∅ : gset sockaddr). intros fuel. revert s am s' am' x.
  induction fuel as [|fuel IH]; intros s1 am s' am' x n dn; cbn [connect_loop]; [done|].
  case_match; [|intros [= <- <- <-]; constructor]. destruct (draw cf acf e n _ am) as [[am1 [[ad src]|]]|]; cbn [mbind_M]; [|intros [= <- <- <-]; constructor|done].
  destruct (socket_addr ad) as [sa|]; [|apply IH]. destruct (connect cf (ke_now e) sa s1) as [[ok s2] x2] eqn:C. destruct ok; [|apply IH].
  destruct (connect_loop cf acf fuel (S n) e d _ _ s2 am1) as [[[s3 am2] x3]|] eqn:L; cbn [mbind_M]; [|done]. intros [= <- <- <-].
  apply Forall_app. split; [by eapply connect_plain|]. apply Forall_cons. split; [done|by eapply IH].
Qed.
Lemma step_plain o e s am s' am' x : kstep cf acf (o, e) (s, am) = Val (s', am', x) ->
  match o with
  | KConnected a local l => exists y, x = y ++ [KoConnected a local l] /\ plains y
  | KDisconnected a r => exists y, x = (if disconnecting_at s a || connected_at s a then [KoDisconnected a r]
      else if connecting_at s a then match r with DConnection => [KoFailed a] | _ => [] end else []) ++ y /\ plains y
  | _ => plains x
  end.
Proof.
  intros E. destruct o as [|a local l|a r|a m|a r| |a|o ae]; cbn [kstep] in E.
  - unfold initialize in E. destruct (connect_all _ _ _ s) as [s1 x1] eqn:C. destruct (maintain_connections cf acf e s1 am) as [[[s2 am2] z]|] eqn:Mc; cbn [mbind_M] in E; [|done].
    injection E as <- <- <-. apply Forall_app. split; [by eapply connect_all_plain|]. apply Forall_cons. split; [done|by eapply maintain_plain].
  - injection E as <- <- <-. unfold peer_connected. destruct l; [destruct (_ <=? _)|]; cbn.
    + exists [KoDisconnect a RLimit; KoTimer HANDSHAKE_TIMEOUT]. split; [done|]. repeat constructor.
    + exists [KoTimer HANDSHAKE_TIMEOUT]. split; [done|]. repeat constructor.
    + eexists [_; KoTimer HANDSHAKE_TIMEOUT]. split; [done|]. repeat constructor.
  - unfold peer_disconnected in E. case_bool_decide.
    + unfold persistent_disconnected in E. case_match; [done|]. cbn [mbind_M] in E. injection E as <- <- <-. eexists. split; [done|]. repeat constructor.
    + destruct (maintain_connections cf acf e _ am) as [[[s2 am2] z]|] eqn:Mc; cbn [mbind_M] in E; [|done]. injection E as <- <- <-. eexists. split; [done|]. by eapply maintain_plain.
  - destruct m; injection E as <- <- <-; unfold received_version, received_verack, received_wtxidrelay, disconnect; repeat case_match; repeat constructor.
  - injection E as <- <- <-. unfold disconnect. case_match; repeat constructor.
  - unfold timer_expired in E. destruct (disconnect_all _ s) as [s1 x1] eqn:D. apply disconnect_all_out in D.
    assert (plains x1) as P1 by (rewrite D; apply Forall_fmap, Forall_forall; done). case_match.
    + destruct (maintain_connections cf acf e s1 am) as [[[s2 am2] z]|] eqn:Mc; cbn [mbind_M] in E; [|done]. destruct (maintain_persistent cf e _) as [s3 w] eqn:P. injection E as <- <- <-.
      unfold maintain_persistent in P. apply Forall_app. split; [done|]. apply Forall_app. split; [|by eapply reconnect_plain]. apply Forall_app. split; [by eapply maintain_plain|repeat constructor].
    + cbn [mbind_M] in E. destruct (maintain_persistent cf e _) as [s3 w] eqn:P. injection E as <- <- <-. unfold maintain_persistent in P. apply Forall_app. split; [done|]. cbn. by eapply reconnect_plain.
  - destruct (connect cf (ke_now e) a _) as [[ok s1] x1] eqn:C. injection E as <- <- <-. by eapply connect_plain.
  - destruct (addr_step acf (o, ae) am) as [[am1 z]|]; cbn [mbind_M] in E; [|done]. injection E as <- <- <-. constructor.
Qed.
Lemma plain_not x y : plains x -> plain y = false -> y ∉ x.
Proof. intros P F I. rewrite (proj1 (Forall_forall _ _) P y I) in F. done. Qed.
Lemma events white os tr s am o e s' am' x : khistory cf acf white os tr s am -> kstep cf acf (o, e) (s, am) = Val (s', am', x) ->
  (forall a local l, KoConnected a local l ∈ x <-> o = KConnected a local l) /\
  (forall a r, KoDisconnected a r ∈ x <-> o = KDisconnected a r /\ match status_of a tr with Open _ _ _ _ | Closing => True | _ => False end) /\
  (forall a, KoFailed a ∈ x <-> o = KDisconnected a DConnection /\ exists t, status_of a tr = Dialing t).
Proof.
  intros Hh E. apply step_plain in E. pose proof (history_seen _ _ _ _ _ _ _ Hh) as Sn.
  assert (forall P : Prop, plains x -> (forall y, plain y = false -> y ∈ x <-> False)) as Pl.
  { intros _ P y F. split; [by apply plain_not|done]. }
  destruct o as [|b local l|b r|b m|b r| |b|o ae].
  1, 4-8: by split; [intros a lo li; rewrite (Pl True E) by done|split; [intros a rr|intros a]; rewrite (Pl True E) by done]; split; intros Q; destruct_and?.
  - destruct E as (y & -> & P). assert (forall z, plain z = false -> z ∈ y ++ [KoConnected b local l] <-> z = KoConnected b local l) as Q.
    { intros z F. rewrite elem_of_app, elem_of_list_singleton. split; [|by right]. by intros [I%(plain_not _ _ P)|?]. }
    split; [|split]; intros; rewrite Q by done.
    + split; congruence.
    + split; [done|by intros [? _]].
    + split; [done|by intros [? _]].
  - destruct E as (y & -> & P). specialize (Sn b). cbn beta in Sn. unfold disconnecting_at, connected_at, connecting_at.
    assert (forall w z, plain z = false -> z ∈ w ++ y <-> z ∈ w) as Q.
    { intros w z F. rewrite elem_of_app. split; [|by left]. by intros [?|I%(plain_not _ _ P)]. }
    assert (forall z : kout, z ∈ ([] : list kout) <-> False) as Nl by (intros z; split; [apply not_elem_of_nil|done]).
    split; [|split]; intros; rewrite Q by done; inversion Sn as [Ep Es|t Ep Es|Ep Es|c Ec Ep Es|c i h Ec If Ep Es]; cbn [orb]; try (destruct r); rewrite ?elem_of_list_singleton, ?Nl.
    all: split; [try done; try (intros [= ]; subst; by rewrite <- Es; eauto)|try done].
    all: try (intros [[= ] Z]; subst; rewrite <- Es in Z; (done || by destruct Z)).
    all: intros [[= ] Z]; subst; done.
Qed.

(** ** Any number of failures *)
Lemma failures_snoc a tr now x r : failures a (tr ++ [(KDisconnected a r, now, x)]) = failures a tr + 1.
Proof. unfold failures. rewrite drops_snoc. unfold drops_step. cbn [fst]. by rewrite bool_decide_eq_true_2. Qed.
Lemma repeated white a (r : dreason) e os tr s am : sane cf -> fair_kenv e -> khistory cf acf white os tr s am ->
  forall k, exists os' tr' s' am', khistory cf acf white os' tr' s' am' /\ failures a tr' = failures a tr + N.of_nat k.
Proof.
  intros Sn Fe Hh k. induction k as [|k (os' & tr' & s' & am' & Hh' & Fl)].
  - exists os, tr, s, am. split; [exact Hh|]. change (N.of_nat 0) with 0. lia.
  - destruct (step_total cf acf (KDisconnected a r) e s' am' Sn (conj Fe I) (history_addr _ _ _ _ _ _ _ Sn Hh')) as (s2 & am2 & x & E & _).
    eexists _, _, s2, am2. split; [refine (history_snoc cf acf white os' tr' s' am' (KDisconnected a r) e s2 am2 x Hh' _ E); by split|]. rewrite failures_snoc. lia.
Qed.
Lemma wrapped white os tr s am a r e : sane cf -> fair_kenv e -> khistory cf acf white os tr s am -> a ∈ kc_persistent cf ->
  exists s' am' x, kstep cf acf (KDisconnected a r, e) (s, am) = Val (s', am', x) /\ KoTimer (backoff cf (failures a tr)) ∈ x.
Proof.
  intros Sn Fe Hh Pe. destruct (step_total cf acf (KDisconnected a r) e s am Sn (conj Fe I) (history_addr _ _ _ _ _ _ _ Sn Hh)) as (s2 & am2 & x & E & _).
  exists s2, am2, x. split; [exact E|]. pose proof (history_retried _ _ _ _ _ _ _ Hh a) as (_ & R2 & _). cbn [kstep] in E. unfold peer_disconnected in E. rewrite bool_decide_eq_true_2 in E by done.
  unfold persistent_disconnected in E. case_match; [done|]. cbn [mbind_M] in E. cbn [pm_retry set_peers] in E. fold (attempts s a) in E. rewrite (R2 Pe) in E. injection E as <- <- <-.
  apply elem_of_app. right. by left.
Qed.
End Events.
Lemma long_delay cf : kc_retry_min cf <= kc_retry_max cf -> kc_retry_max cf <= 2 ^ 64 -> forall n, 64 <= n -> retry_delay cf n = kc_retry_max cf.
Proof.
  intros L1 L2 n Ln. unfold retry_delay. assert (2 ^ 64 <= 2 ^ n) by (apply N.pow_le_mono_r; lia). change (2 ^ 64) with 18446744073709551616 in *. lia.
Qed.
