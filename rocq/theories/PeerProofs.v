(** The state of the peer manager agrees with what is observed. *)
From Verif Require Import Base AddrModel AddrSpec PeerModel PeerSpec.
Open Scope N_scope.

Section Proofs.
Context (cf : kconf) (acf : aconf).

Definition info (a : sockaddr) (h : hello) (i : pinfo) : Prop :=
  pi_height i = to_height (vm_height (he_msg h)) /\ pi_services i = vm_services (he_msg h) /\ pi_agent i = vm_agent (he_msg h) /\
  pi_receiver i = vm_receiver (he_msg h) /\ pi_relay i = vm_relay (he_msg h) /\ pi_wtxid i = he_wtxid h /\
  pi_version i = N.min (kc_version cf) (vm_version (he_msg h)) /\ pi_persistent i = bool_decide (a ∈ kc_persistent cf) /\
  pi_nonce i = vm_nonce (he_msg h) /\
  (MIN_PROTOCOL_VERSION <= vm_version (he_msg h) /\ pi_offset i = to_i64 (vm_timestamp (he_msg h) - Z.of_N (wrap32 (he_time h / 1000)))) /\
  match pi_state i with HVerack _ => he_acked h = true | HVersion t => he_acked h = false /\ he_time h = t end.
Inductive sees (a : sockaddr) : option peer -> status -> Prop :=
| sees_idle : sees a None Idle
| sees_dialing t : sees a (Some (Connecting t)) (Dialing t)
| sees_closing : sees a (Some Disconnecting) Closing
| sees_open c : cn_addr c = a -> sees a (Some (Connected c None)) (Open (cn_local c) (cn_link c) (cn_since c) None)
| sees_hello c i h : cn_addr c = a -> info a h i -> sees a (Some (Connected c (Some i))) (Open (cn_local c) (cn_link c) (cn_since c) (Some h)).

Definition seen (s : pmgr) (f : sockaddr -> status) : Prop := forall a, sees a (pm_peers s !! a) (f a).
Definition outs (a : sockaddr) (now : N) (x : list kout) (st : status) : status := fold_left (fun st y => observe_out a now y st) x st.
Definition follows (now : N) (s : pmgr) (x : list kout) (s' : pmgr) : Prop := forall f, seen s f -> seen s' (fun a => outs a now x (f a)).

Lemma outs_app a now x y st : outs a now (x ++ y) st = outs a now y (outs a now x st).
Proof. unfold outs. by rewrite fold_left_app. Qed.
Lemma follows_trans now s x s1 y s2 : follows now s x s1 -> follows now s1 y s2 -> follows now s (x ++ y) s2.
Proof. intros A B f F a. rewrite outs_app. exact (B _ (A _ F) a). Qed.
Lemma follows_nil now s : follows now s [] s.
Proof. by intros f F. Qed.
Lemma follows_peers now s x s1 s2 : pm_peers s2 = pm_peers s1 -> follows now s x s1 -> follows now s x s2.
Proof. intros E A f F a. rewrite E. by apply A. Qed.
Definition neutral (x : kout) : bool := match x with KoConnect _ | KoDisconnect _ _ => false | _ => true end.
Lemma follows_neutral now s x : forallb neutral x = true -> follows now s x s.
Proof.
  intros N f F a. assert (outs a now x (f a) = f a) as ->; [|apply F]. revert N. generalize (f a). induction x as [|y x IH]; intros st N; [done|].
  cbn [forallb] in N. apply andb_true_iff in N as [N1 N2]. unfold outs. cbn [fold_left]. fold (outs a now x (observe_out a now y st)).
  rewrite (IH _ N2). by destruct y.
Qed.

Lemma follows_disconnect now a r s s' x : do_disconnect a r s = (s', x) -> follows now s x s'.
Proof.
  intros [= <- <-] f F b. cbn. destruct (decide (b = a)) as [->|Nb].
  - rewrite lookup_insert, bool_decide_eq_true_2 by done. constructor.
  - rewrite lookup_insert_ne, bool_decide_eq_false_2 by done. apply F.
Qed.
Lemma follows_drop now a r s s' x : disconnect a r s = (s', x) -> follows now s x s'.
Proof. unfold disconnect. case_match; [apply follows_disconnect|]. intros [= <- <-]. apply follows_nil. Qed.
Lemma follows_connect now a s ok s' x : connect cf now a s = (ok, s', x) -> follows now s x s'.
Proof.
  unfold connect. case_match; [intros [= <- <- <-]; apply follows_nil|]. case_match; [intros [= <- <- <-]; apply follows_nil|].
  case_match; [intros [= <- <- <-]; apply follows_nil|]. intros [= <- <- <-] f F b. cbn. destruct (decide (b = a)) as [->|Nb].
  - rewrite lookup_insert, bool_decide_eq_true_2 by done. constructor.
  - rewrite lookup_insert_ne, bool_decide_eq_false_2 by done. apply F.
Qed.
Lemma follows_connect_all now l : forall s s' x, connect_all cf now l s = (s', x) -> follows now s x s'.
Proof.
  induction l as [|a l IH]; intros s s' x; cbn [connect_all]; [intros [= <- <-]; apply follows_nil|].
  destruct (connect cf now a s) as [[ok s1] x1] eqn:C. destruct (connect_all cf now l s1) as [s2 x2] eqn:D. intros [= <- <-].
  apply (follows_trans _ _ _ s1); [by eapply follows_connect|]. apply (follows_trans _ _ _ s1); [by apply follows_neutral; destruct ok|]. by apply IH.
Qed.
Lemma follows_reconnect now l : forall s s' x, reconnect_all cf now l s = (s', x) -> follows now s x s'.
Proof.
  induction l as [|a l IH]; intros s s' x; cbn [reconnect_all]; [intros [= <- <-]; apply follows_nil|].
  destruct (connect cf now a s) as [[ok s1] x1] eqn:C. destruct (reconnect_all cf now l s1) as [s2 x2] eqn:D. intros [= <- <-].
  apply (follows_trans _ _ _ s1); [by eapply follows_connect|]. by apply IH.
Qed.
Lemma follows_disconnect_all now l : forall s s' x, disconnect_all l s = (s', x) -> follows now s x s'.
Proof.
  induction l as [|a l IH]; intros s s' x; cbn [disconnect_all]; [intros [= <- <-]; apply follows_nil|].
  destruct (do_disconnect a RTimeout s) as [s1 x1] eqn:C. destruct (disconnect_all l s1) as [s2 x2] eqn:D. intros [= <- <-].
  apply (follows_trans _ _ _ s1); [by eapply follows_disconnect|]. by apply IH.
Qed.
Lemma follows_loop e d below fuel : forall n (done : gset sockaddr) s am s' am' x, connect_loop cf acf fuel n e d below done s am = Val (s', am', x) -> follows (ke_now e) s x s'.
Proof.
  induction fuel as [|fuel IH]; intros n dn s am s' am' x; cbn [connect_loop]; [done|].
  case_match; [|intros [= <- <- <-]; apply follows_nil]. destruct (draw cf acf e n below am) as [[am1 [[a src]|]]|] eqn:D; cbn [mbind_M]; [|intros [= <- <- <-]; apply follows_nil|done].
  destruct (socket_addr a) as [sa|]; [|apply IH]. destruct (connect cf (ke_now e) sa s) as [[ok s1] x1] eqn:C.
  destruct ok.
  - destruct (connect_loop cf acf fuel (S n) e d below ({[sa]} ∪ dn) s1 am1) as [[[s2 am2] x2]|] eqn:L; cbn [mbind_M]; [|done]. intros [= <- <- <-].
    apply (follows_trans _ _ _ s1); [by eapply follows_connect|]. apply (follows_trans _ _ [_] s1); [by apply follows_neutral|]. by eapply IH.
  - intros L. assert (s1 = s) as ->; [|by eapply IH]. revert C. unfold connect. repeat case_match; by intros [= <- <-].
Qed.
Lemma follows_maintain e s am s' am' x : maintain_connections cf acf e s am = Val (s', am', x) -> follows (ke_now e) s x s'.
Proof.
  unfold maintain_connections. destruct (kc_persistent cf); [|intros [= <- <- <-]; apply follows_nil]. destruct (delta cf s) as [d|]; cbn [mbind_M]; [|done]. apply follows_loop.
Qed.
Lemma follows_persistent e s s' x : maintain_persistent cf e s = (s', x) -> follows (ke_now e) s x s'.
Proof. unfold maintain_persistent. intros A%follows_reconnect f F. by apply A. Qed.
Lemma follows_timer e s am s' am' x : timer_expired cf acf e s am = Val (s', am', x) -> follows (ke_now e) s x s'.
Proof.
  unfold timer_expired. destruct (disconnect_all _ s) as [s1 x1] eqn:D. case_match.
  - destruct (maintain_connections cf acf e s1 am) as [[[s2 am2] y]|] eqn:Mc; cbn [mbind_M]; [|done].
    destruct (maintain_persistent cf e _) as [s3 z] eqn:P. intros [= <- <- <-].
    apply (follows_trans _ _ _ s1); [by eapply follows_disconnect_all|]. apply (follows_trans _ _ _ s2).
    + apply (follows_trans _ _ _ s2); [by eapply follows_maintain|by apply follows_neutral].
    + intros f F. apply (follows_persistent _ _ _ _ P). exact F.
  - cbn [mbind_M]. destruct (maintain_persistent cf e _) as [s3 z] eqn:P. intros [= <- <- <-].
    apply (follows_trans _ _ _ s1); [by eapply follows_disconnect_all|]. apply (follows_trans _ _ [] s1); [apply follows_nil|].
    by eapply follows_persistent.
Qed.

(** One call. *)
Lemma step_seen o e s am s' am' x f : seen s f -> kstep cf acf (o, e) (s, am) = Val (s', am', x) -> seen s' (fun a => observe a (o, ke_now e, x) (f a)).
Proof.
  intros F. destruct o as [|a local l|a r|a m|a r| |a|o ae]; cbn [kstep fst snd].
  - unfold initialize. destruct (connect_all cf (ke_now e) (kc_persistent cf) s) as [s1 x1] eqn:C.
    destruct (maintain_connections cf acf e s1 am) as [[[s2 am2] y]|] eqn:Mc; cbn [mbind_M]; [|done]. intros [= <- <- <-].
    refine (follows_trans (ke_now e) s _ s1 _ s2 _ _ f F); [by eapply follows_connect_all|].
    refine (follows_trans (ke_now e) s1 [KoTimer IDLE_TIMEOUT] s1 y s2 _ _); [by apply follows_neutral|by eapply follows_maintain].
  - intros [= <- <- <-] b. unfold peer_connected.
    set (s1 := PMgr _ _ _ _).
    assert (seen s1 (fun a' => observe_op a' (ke_now e) (KConnected a local l) (f a'))) as F1.
    { intros b'. unfold s1. cbn. destruct (decide (b' = a)) as [->|Nb]; [rewrite lookup_insert, bool_decide_eq_true_2 by done|rewrite lookup_insert_ne, bool_decide_eq_false_2 by done; apply F].
      by apply (sees_open a (Conn a local l (ke_now e))). }
    destruct (match l with Inbound => _ | Outbound => _ end) as [s2 x2] eqn:E.
    assert (follows (ke_now e) s1 (x2 ++ [KoTimer HANDSHAKE_TIMEOUT; KoConnected a local l]) s2) as G.
    { apply (follows_trans _ _ _ s2); [|by apply follows_neutral]. destruct l.
      - destruct (kc_maxin cf <=? countp p_inbound s1); [by eapply follows_disconnect|injection E as <- <-; apply follows_nil].
      - injection E as <- <-. by apply follows_neutral. }
    exact (G _ F1 b).
  - unfold peer_disconnected. set (x0 := if disconnecting_at s a || connected_at s a then _ else _). set (s1 := set_peers s _).
    assert (forallb neutral x0 = true) as N0 by (unfold x0; repeat case_match; done).
    assert (seen s1 (fun a' => observe_op a' (ke_now e) (KDisconnected a r) (f a'))) as F1.
    { intros b'. unfold s1. cbn. destruct (decide (b' = a)) as [->|Nb]; [rewrite lookup_delete, bool_decide_eq_true_2 by done; constructor|rewrite lookup_delete_ne, bool_decide_eq_false_2 by done; apply F]. }
    intros E b. assert (exists y, x = x0 ++ y /\ follows (ke_now e) s1 y s') as (y & -> & G).
    { case_bool_decide.
      - unfold persistent_disconnected in E. destruct (kc_retry_max cf <? kc_retry_min cf); [done|]. cbn [mbind_M] in E. injection E as <- <- <-.
        eexists. split; [done|]. apply (follows_peers _ _ _ s1); [done|]. by apply follows_neutral.
      - destruct (maintain_connections cf acf e s1 am) as [[[s2 am2] y]|] eqn:Mc; cbn [mbind_M] in E; [|done]. injection E as <- <- <-.
        eexists. split; [done|]. by eapply follows_maintain. }
    exact (follows_trans _ _ _ _ _ _ (follows_neutral (ke_now e) s1 x0 N0) G _ F1 b).
  - destruct m as [m| | |].
    + intros [= <- <- <-] b. unfold received_version. pose proof (F a) as Fa. destruct (pm_peers s !! a) as [[t|c i|]|] eqn:Ea.
      all: try by (cbn; case_bool_decide; [subst b; rewrite Ea; inversion Fa; constructor|apply F]).
      assert (exists h, f a = Open (cn_local c) (cn_link c) (cn_since c) h /\ cn_addr c = a) as (h & Ef & Ec) by (inversion Fa; eauto).
      destruct (refuses cf e a c m s) as [r|] eqn:Rf; cbn.
      * destruct (decide (b = a)) as [->|Nb].
        -- rewrite lookup_insert, !bool_decide_eq_true_2 by done. constructor.
        -- rewrite lookup_insert_ne, !bool_decide_eq_false_2 by congruence. apply F.
      * rewrite Ec. unfold observe. cbn [fst snd]. rewrite fold_left_app.
        assert (forall st, fold_left (fun st y => observe_out b (ke_now e) y st) (if is_inbound (cn_link c) then [KoVersion a (mk_version cf a (cn_local c) (vm_nonce m) (ke_height e) (ke_now e))] else []) st = st) as -> by (intros st; by destruct (is_inbound _)).
        cbn. destruct (decide (b = a)) as [->|Nb].
        -- rewrite lookup_insert, (bool_decide_eq_true_2 (a = a)) by done. rewrite Ef. cbn [hear]. apply sees_hello; [done|].
           assert (MIN_PROTOCOL_VERSION <= vm_version m) as V by (unfold refuses in Rf; destruct (N.ltb_spec (vm_version m) MIN_PROTOCOL_VERSION); [done|done]).
           unfold info. cbn. do 10 (split; [done|]). done.
        -- rewrite lookup_insert_ne, bool_decide_eq_false_2 by done. apply F.
    + intros [= <- <- <-] b. unfold received_verack. pose proof (F a) as Fa. destruct (pm_peers s !! a) as [[t|c [i|]|]|] eqn:Ea.
      all: try by (cbn; case_bool_decide; [subst b; rewrite Ea; inversion Fa; constructor|apply F]).
      assert (exists h, f a = Open (cn_local c) (cn_link c) (cn_since c) (Some h) /\ cn_addr c = a /\ info a h i) as (h & Ef & Ec & If) by (inversion Fa; eauto).
      destruct (pi_state i) as [t|t] eqn:St; cbn.
      * destruct (decide (b = a)) as [->|Nb].
        -- rewrite lookup_insert, bool_decide_eq_true_2 by done. rewrite Ef. cbn [hear]. apply sees_hello; [done|].
           unfold info in *. rewrite St in If. cbn. destruct_and!. do 10 (split; [done|]). done.
        -- rewrite lookup_insert_ne, bool_decide_eq_false_2 by done. apply F.
      * destruct (decide (b = a)) as [->|Nb].
        -- rewrite lookup_insert, !bool_decide_eq_true_2 by done. constructor.
        -- rewrite lookup_insert_ne, !bool_decide_eq_false_2 by congruence. apply F.
    + intros [= <- <- <-] b. unfold received_wtxidrelay. pose proof (F a) as Fa. destruct (pm_peers s !! a) as [[t|c [i|]|]|] eqn:Ea.
      all: try by (cbn; case_bool_decide; [subst b; rewrite Ea; inversion Fa; constructor|apply F]).
      assert (exists h, f a = Open (cn_local c) (cn_link c) (cn_since c) (Some h) /\ cn_addr c = a /\ info a h i) as (h & Ef & Ec & If) by (inversion Fa; eauto).
      destruct (pi_state i) as [t|t] eqn:St.
      * cbn. destruct (decide (b = a)) as [->|Nb].
        -- rewrite lookup_insert, bool_decide_eq_true_2 by done. rewrite Ef. cbn [hear]. apply sees_hello; [done|].
           unfold info in *. rewrite St in If. cbn. rewrite St. destruct_and!. do 5 (split; [done|]). split; [|do 4 (split; [done|]); done].
           assert (he_acked h = false) as -> by done. by rewrite orb_true_r.
        -- rewrite lookup_insert_ne, bool_decide_eq_false_2 by done. apply F.
      * unfold disconnect, connected_at. rewrite Ea. cbn. destruct (decide (b = a)) as [->|Nb].
        -- rewrite lookup_insert, !bool_decide_eq_true_2 by done. constructor.
        -- rewrite lookup_insert_ne, !bool_decide_eq_false_2 by congruence. apply F.
    + intros [= <- <- <-] b. cbn. case_bool_decide; [subst b|apply F]. pose proof (F a) as Fa. inversion Fa; try done; by constructor.
  - intros [= <- <- <-] b. destruct (disconnect a r s) as [s1 x1] eqn:D. exact (follows_drop (ke_now e) _ _ _ _ _ D f F b).
  - intros T%follows_timer. exact (T f F).
  - destruct (connect cf (ke_now e) a _) as [[ok s1] x1] eqn:C. intros [= <- <- <-]. exact (follows_connect _ _ _ _ _ _ C f F).
  - destruct (addr_step acf (o, ae) am) as [[am1 y]|]; cbn [mbind_M]; [|done]. by intros [= <- <- <-].
Qed.
End Proofs.
