(** Handshakes, refusals, time limits, retries and targets. *)
From Verif Require Import Base AddrModel AddrSpec PeerModel PeerSpec PeerProofs PeerMain PeerFacts.
Open Scope N_scope.

Lemma split_two {A} (a b : A) : forall l1 l2 k1 k2, l1 ++ a :: l2 = k1 ++ b :: k2 -> a = b \/ a ∈ k2 \/ b ∈ l2.
Proof.
  induction l1 as [|x l1 IH]; intros l2 [|y k1] k2 E; cbn in E; injection E as E1 E2; subst.
  - by left.
  - right. right. set_solver.
  - right. left. set_solver.
  - by apply (IH l2 k1 k2).
Qed.

Section More.
Context (cf : kconf) (acf : aconf).

(** ** C44 *)
Lemma handshake_order white os tr s am o e s' am' x a l sv pe ag rc he ve re wt : khistory cf acf white os tr s am -> fair_kop (o, e) ->
  kstep cf acf (o, e) (s, am) = Val (s', am', x) -> KoNegotiated a l sv pe ag rc he ve re wt ∈ x ->
  o = KMessage a MVerack /\
  exists tr1 local since x1 tr2 m t2 x2 tr3,
    tr = tr1 ++ (KConnected a local l, since, x1) :: tr2 ++ (KMessage a (MVersion m), t2, x2) :: tr3 /\
    (forall r, KoDisconnect a r ∉ x1) /\ Forall (fun t => ~ cuts a t) (tr2 ++ (KMessage a (MVersion m), t2, x2) :: tr3) /\
    Forall (fun t => t.1.1 <> KMessage a MVerack /\ forall m, t.1.1 <> KMessage a (MVersion m)) tr3 /\
    MIN_PROTOCOL_VERSION <= vm_version m /\
    sv = vm_services m /\ ag = vm_agent m /\ rc = vm_receiver m /\ he = to_height (vm_height m) /\ ve = N.min (kc_version cf) (vm_version m) /\ re = vm_relay m /\
    (wt = true <-> Exists (fun t => t.1.1 = KMessage a MWtxidRelay) tr3) /\ (pe = true <-> a ∈ kc_persistent cf).
Proof.
  intros Hh Fo E I. destruct (negotiated_verack _ _ _ _ _ _ _ _ _ _ _ _ _ _ _ _ _ _ _ E I) as (-> & c & i & t & Ea & St & -> & -> & -> & -> & -> & -> & -> & -> & ->).
  split; [done|]. pose proof (history_seen _ _ _ _ _ _ _ Hh a) as S. cbn beta in S. rewrite Ea in S. inversion S as [| | | |c' i' h Ec If]; subst.
  match goal with E : Open _ _ _ _ = status_of _ _ |- _ => symmetry in E; rename E into Os end. destruct (open_origin _ _ _ _ _ _ Os) as (tr1 & x1 & tr2 & -> & Nx & Nc & tr3 & y & tr4 & -> & Nv & Un & _).
  unfold info in If. rewrite St in If. destruct If as (I1 & I2 & I3 & I4 & I5 & I6 & I7 & I8 & I9 & [I10 _] & Ak & _). destruct (Un Ak) as [Na Wt].
  exists tr1, (cn_local c), (cn_since c), x1, tr3, (he_msg h), (he_time h), y, tr4.
  split; [done|]. split; [done|]. split; [done|]. split.
  { apply Forall_and. by split. }
  do 7 (split; [done|]). rewrite I6, I8, bool_decide_eq_true. by split.
Qed.

(** ** C45 *)
Lemma white_spec white os tr s am : khistory cf acf white os tr s am ->
  forall i, i ∈ pm_white s <-> i ∈ white \/ exists a t x, (KConnect a, t, x) ∈ tr /\ a.1 = i.
Proof.
  revert os tr s am. apply (history_ind cf acf white (fun tr s am => forall i, i ∈ pm_white s <-> i ∈ white \/ exists a t x, (KConnect a, t, x) ∈ tr /\ a.1 = i)).
  - intros am i. cbn. split; [by left|]. intros [?|(a & t & x & I & _)]; [done|]. by apply elem_of_nil in I.
  - intros os tr s am o e s' am' x Hh IH Fo E i.
    assert (pm_white s' = match o with KConnect a => {[a.1]} ∪ pm_white s | _ => pm_white s end) as ->.
    { assert (forall now a s ok s' x, connect cf now a s = (ok, s', x) -> pm_white s' = pm_white s) as Cn.
      { intros now a s1 ok s2 y [(-> & _)|(_ & -> & _)]%connect_spec; done. }
      assert (forall now l s s' x, connect_all cf now l s = (s', x) -> pm_white s' = pm_white s) as Ca.
      { intros now l. induction l as [|a l IHl]; intros s1 s2 y; cbn [connect_all]; [by intros [= <- <-]|].
        destruct (connect cf now a s1) as [[ok s3] x3] eqn:C. destruct (connect_all cf now l s3) as [s4 x4] eqn:D. intros [= <- <-]. rewrite (IHl _ _ _ D). by eapply Cn. }
      assert (forall now l s s' x, reconnect_all cf now l s = (s', x) -> pm_white s' = pm_white s) as Cr.
      { intros now l. induction l as [|a l IHl]; intros s1 s2 y; cbn [reconnect_all]; [by intros [= <- <-]|].
        destruct (connect cf now a s1) as [[ok s3] x3] eqn:C. destruct (reconnect_all cf now l s3) as [s4 x4] eqn:D. intros [= <- <-]. rewrite (IHl _ _ _ D). by eapply Cn. }
      assert (forall e s am s' am' x, maintain_connections cf acf e s am = Val (s', am', x) -> pm_white s' = pm_white s) as Cm.
      { intros e1 s1 am1 s2 am2 y. unfold maintain_connections. destruct (kc_persistent cf); [|by intros [= <- <- <-]]. destruct (delta cf s1) as [d|]; cbn [mbind_M]; [|done].
        generalize (countp p_negotiated s1 <? kc_target cf). intros below. generalize (S (S (size (am_peers am1)))), 0%nat, (∅ : gset sockaddr). intros fuel. clear Hh Fo E. revert s1 am1 s2 am2 y.
        induction fuel as [|fuel IHf]; intros s1 am1 s2 am2 y n dn; cbn [connect_loop]; [done|].
        case_match; [|by intros [= <- <- <-]]. destruct (draw cf acf e1 n _ am1) as [[am3 [[ad src]|]]|]; cbn [mbind_M]; [|by intros [= <- <- <-]|done].
        destruct (socket_addr ad) as [sa|]; [|apply IHf]. destruct (connect cf (ke_now e1) sa s1) as [[ok s3] x3] eqn:C. destruct ok.
        - destruct (connect_loop cf acf fuel (S n) e1 d _ _ s3 am3) as [[[s4 am4] x4]|] eqn:L; cbn [mbind_M]; [|done]. intros [= <- <- <-]. rewrite (IHf _ _ _ _ _ _ _ L). by eapply Cn.
        - intros L. rewrite (IHf _ _ _ _ _ _ _ L). by eapply Cn. }
      assert (forall l s s' x, disconnect_all l s = (s', x) -> pm_white s' = pm_white s) as Cd.
      { intros l. induction l as [|a l IHl]; intros s1 s2 y; cbn [disconnect_all do_disconnect]; [by intros [= <- <-]|].
        destruct (disconnect_all l _) as [s4 x4] eqn:D. intros [= <- <-]. by rewrite (IHl _ _ _ D). }
      destruct o as [|a local l|a r|a m|a r| |a|o ae]; cbn [kstep] in E.
      - unfold initialize in E. destruct (connect_all _ _ _ s) as [s1 x1] eqn:C. destruct (maintain_connections cf acf e s1 am) as [[[s2 am2] z]|] eqn:Mc; cbn [mbind_M] in E; [|done].
        injection E as <- <- <-. rewrite (Cm _ _ _ _ _ _ Mc). by eapply Ca.
      - injection E as <- <- <-. unfold peer_connected. destruct l; [destruct (_ <=? _)|]; done.
      - unfold peer_disconnected in E. case_bool_decide.
        + unfold persistent_disconnected in E. case_match; [done|]. cbn [mbind_M] in E. by injection E as <- <- <-.
        + destruct (maintain_connections cf acf e _ am) as [[[s2 am2] z]|] eqn:Mc; cbn [mbind_M] in E; [|done]. injection E as <- <- <-. by rewrite (Cm _ _ _ _ _ _ Mc).
      - destruct m; injection E as <- <- <-; unfold received_version, received_verack, received_wtxidrelay, disconnect; repeat case_match; done.
      - injection E as <- <- <-. unfold disconnect. by case_match.
      - unfold timer_expired in E. destruct (disconnect_all _ s) as [s1 x1] eqn:D. apply Cd in D. rewrite <- D. case_match.
        + destruct (maintain_connections cf acf e s1 am) as [[[s2 am2] z]|] eqn:Mc; cbn [mbind_M] in E; [|done]. destruct (maintain_persistent cf e _) as [s3 w] eqn:P. injection E as <- <- <-.
          unfold maintain_persistent in P. apply Cr in P. rewrite P. cbn. by eapply Cm.
        + cbn [mbind_M] in E. destruct (maintain_persistent cf e _) as [s3 w] eqn:P. injection E as <- <- <-. unfold maintain_persistent in P. by apply Cr in P.
      - destruct (connect cf (ke_now e) a _) as [[ok s1] x1] eqn:C. injection E as <- <- <-. by apply Cn in C.
      - destruct (addr_step acf (o, ae) am) as [[am1 z]|]; cbn [mbind_M] in E; [|done]. by injection E as <- <- <-. }
    assert ((exists a t y, (KConnect a, t, y) ∈ tr ++ [(o, ke_now e, x)] /\ a.1 = i) <-> (exists a t y, (KConnect a, t, y) ∈ tr /\ a.1 = i) \/ exists a, o = KConnect a /\ a.1 = i) as ->.
    { split.
      - intros (a & t & y & [I|I]%elem_of_app & Ei); [left; by eauto|]. apply elem_of_list_singleton in I. injection I as Eo Et Ex. right. exists a. by split.
      - intros [(a & t & y & I & Ei)|(a & -> & Ei)]; [exists a, t, y; set_solver|]. exists a, (ke_now e), x. set_solver. }
    destruct o; rewrite ?elem_of_union, ?elem_of_singleton, IH; try (split; [tauto|]; intros [?|[?|(? & ? & ?)]]; tauto || done).
    split; [intros [->|?]; [right; right; by eauto|tauto]|]. intros [?|[?|(b & [= <-] & <-)]]; tauto.
Qed.

Lemma version_refused white os tr s am a local l since h m e s' am' x : khistory cf acf white os tr s am -> status_of a tr = Open local l since h ->
  kstep cf acf (KMessage a (MVersion m), e) (s, am) = Val (s', am', x) ->
  vm_version m < MIN_PROTOCOL_VERSION \/
  (l = Outbound /\ has_services (vm_services m) (kc_required cf) = false /\ ~ trusted cf white tr a (vm_agent m)) \/
  (exists b lb sb hb, status_of b tr = Open lb Outbound sb (Some hb) /\ vm_nonce (he_msg hb) = vm_nonce m) ->
  exists r, x = [KoDisconnect a r].
Proof.
  intros Hh Op E Bad. pose proof (history_seen _ _ _ _ _ _ _ Hh) as Sn. pose proof (Sn a) as Sa. cbn beta in Sa. rewrite Op in Sa.
  assert (exists c i, pm_peers s !! a = Some (Connected c i) /\ cn_link c = l) as (c & i & Ea & El) by (inversion Sa; eauto).
  cbn [kstep] in E. injection E as <- <- <-. unfold received_version. rewrite Ea.
  destruct (refuses cf e a c m s) as [r|] eqn:R; [by exists r|]. exfalso. unfold refuses in R.
  destruct (N.ltb_spec (vm_version m) MIN_PROTOCOL_VERSION) as [V|V]; [done|].
  destruct (is_outbound (cn_link c) && _ && _) eqn:B1 in R; [done|]. destruct (is_outbound (cn_link c) && _ && _) eqn:B2 in R; [done|].
  destruct (existsb _ _) eqn:B3 in R; [done|]. destruct Bad as [Bad|[(-> & Ns & Nt)|(b & lb & sb & hb & Ob & En)]]; [lia| |].
  - rewrite El, Ns in B1. cbn in B1. apply negb_false_iff, orb_true_iff in B1. apply Nt. unfold trusted.
    destruct B1 as [B1|B1]; [|by auto]. apply orb_true_iff in B1 as [B1|B1]; apply bool_decide_eq_true in B1; [|by auto].
    apply (white_spec _ _ _ _ _ Hh) in B1 as [?|?]; auto.
  - assert (existsb (fun p => match p.2 with Connected c (Some i) => is_outbound (cn_link c) && (pi_nonce i =? vm_nonce m) | _ => false end) (map_to_list (pm_peers s)) = true) as X; [|congruence].
    specialize (Sn b). cbn beta in Sn. rewrite Ob in Sn. inversion Sn as [| | | |cb ib hb' Ecb If]; subst. apply existsb_exists. exists (cn_addr cb, Connected cb (Some ib)). split.
    + apply elem_of_list_In, elem_of_map_to_list. done.
    + cbn. destruct If as (_ & _ & _ & _ & _ & _ & _ & _ & I9 & _). rewrite I9, En, N.eqb_refl. by destruct (cn_link cb).
Qed.
Lemma nonce_spec white os tr s am m : khistory cf acf white os tr s am ->
  existsb (fun p => match p.2 with Connected c (Some i) => is_outbound (cn_link c) && (pi_nonce i =? vm_nonce m) | _ => false end) (map_to_list (pm_peers s)) = true <->
  exists b lb sb hb, status_of b tr = Open lb Outbound sb (Some hb) /\ vm_nonce (he_msg hb) = vm_nonce m.
Proof.
  intros Hh. pose proof (history_seen _ _ _ _ _ _ _ Hh) as Sn. split.
  - intros ([b p] & I%elem_of_list_In%elem_of_map_to_list & F)%existsb_exists. cbn [snd] in F. destruct p as [|c [i|]|]; try done.
    apply andb_true_iff in F as [Fo En%N.eqb_eq]. specialize (Sn b). cbn beta in Sn. rewrite I in Sn. inversion Sn as [| | | |cb ib hb Ecb If E1 E2]; subst.
    exists (cn_addr c), (cn_local c), (cn_since c), hb. split; [rewrite <- E2; destruct (cn_link c); done|].
    destruct If as (_ & _ & _ & _ & _ & _ & _ & _ & I9 & _). congruence.
  - intros (b & lb & sb & hb & Ob & En). specialize (Sn b). cbn beta in Sn. rewrite Ob in Sn. inversion Sn as [| | | |cb ib hb' Ecb If]; subst.
    apply existsb_exists. exists (cn_addr cb, Connected cb (Some ib)). split.
    + apply elem_of_list_In, elem_of_map_to_list. done.
    + cbn. destruct If as (_ & _ & _ & _ & _ & _ & _ & _ & I9 & _). rewrite I9, En, N.eqb_refl. by destruct (cn_link cb).
Qed.
Lemma full_seen tr s : seen cf s (fun a => status_of a tr) -> kc_target cf <=? countp p_negotiated s = true <-> full cf tr.
Proof.
  intros Sn. rewrite N.leb_le. change (countp p_negotiated s) with (mcount p_negotiated (pm_peers s)). split.
  - intros Le. destruct (mcount_keys p_negotiated (pm_peers s)) as (k & Nd & El & Ak). exists k. split; [done|]. split; [by rewrite El|].
    intros b (p & Eb & F)%Ak. specialize (Sn b). cbn beta in Sn. rewrite Eb in Sn. inversion Sn as [| | | |cb ib hb Ecb If E1 E2]; subst; try done.
    cbn [p_negotiated] in F. apply andb_true_iff in F as [F1 F2]. exists (cn_local cb), (cn_since cb), hb. split; [by destruct (cn_link cb)|].
    destruct If as (_ & _ & _ & _ & _ & _ & _ & _ & _ & _ & If). unfold is_negotiated in F1. by destruct (pi_state ib).
  - intros (k & Nd & Le & Ak). etrans; [exact Le|]. apply mcount_list; [done|]. intros b (lb & sb & hb & Ob & Ac)%Ak.
    specialize (Sn b). cbn beta in Sn. rewrite Ob in Sn. inversion Sn as [| | | |cb ib hb' Ecb If Eb]; subst. eexists. split; [done|]. cbn [p_negotiated].
    destruct If as (_ & _ & _ & _ & _ & _ & _ & _ & _ & _ & If). unfold is_negotiated. destruct (pi_state ib); [destruct If; congruence|]. by destruct (cn_link cb).
Qed.
Lemma full_spec white os tr s am : khistory cf acf white os tr s am -> kc_target cf <=? countp p_negotiated s = true <-> full cf tr.
Proof. intros Hh. exact (full_seen _ _ (history_seen _ _ _ _ _ _ _ Hh)). Qed.
Lemma stale_spec h z : (-2 ^ 31 <= z < 2 ^ 31)%Z -> h < 2 ^ 63 -> (MAX_STALE_HEIGHT_DIFFERENCE <? h - to_height z) = true <-> (0 <= z)%Z /\ (z + 2016 < Z.of_N h)%Z.
Proof.
  intros Bz Bh. rewrite N.ltb_lt. unfold MAX_STALE_HEIGHT_DIFFERENCE, to_height. change (2 ^ 63) with 9223372036854775808 in Bh.
  change (2 ^ 31)%Z with 2147483648%Z in Bz. change (- 2147483648)%Z with (-2147483648)%Z in Bz. change (2 ^ 64)%Z with 18446744073709551616%Z.
  destruct (Z.leb_spec 0 z).
  - rewrite Z.mod_small by lia. lia.
  - assert (z mod 18446744073709551616 = z + 18446744073709551616)%Z as -> by (symmetry; apply (Z.mod_unique _ _ (-1)); lia). lia.
Qed.
Lemma version_exact white os tr s am a local l since h m e s' am' x : khistory cf acf white os tr s am -> status_of a tr = Open local l since h ->
  (-2 ^ 31 <= vm_height m < 2 ^ 31)%Z -> ke_height e < 2 ^ 63 -> kstep cf acf (KMessage a (MVersion m), e) (s, am) = Val (s', am', x) ->
  (unwelcome cf white tr a l m (ke_height e) (ke_hook e a m) /\ exists r, x = [KoDisconnect a r]) \/
  (~ unwelcome cf white tr a l m (ke_height e) (ke_hook e a m) /\
   exists v, x = match l with Inbound => [KoVersion a v] | Outbound => [] end ++ [KoWtxidRelay a; KoVerack a; KoSendHeaders a; KoTimer 12000]).
Proof.
  intros Hh Op Bz Bh E. pose proof (history_seen _ _ _ _ _ _ _ Hh) as Sn. pose proof (Sn a) as Sa. cbn beta in Sa. rewrite Op in Sa.
  assert (exists c i, pm_peers s !! a = Some (Connected c i) /\ cn_link c = l /\ cn_addr c = a) as (c & i & Ea & El & Ec) by (inversion Sa; eauto).
  cbn [kstep] in E. injection E as <- <- <-. unfold received_version. rewrite Ea.
  assert (trusted cf white tr a (vm_agent m) <-> bool_decide (a.1 ∈ pm_white s) || bool_decide (vm_agent m ∈ kc_agents cf) || is_local a.1 = true) as Tr.
  { rewrite !orb_true_iff, !bool_decide_eq_true, (white_spec _ _ _ _ _ Hh). unfold trusted. tauto. }
  pose proof (nonce_spec _ _ _ _ _ m Hh) as No. pose proof (full_spec _ _ _ _ _ Hh) as Fu. pose proof (stale_spec _ _ Bz Bh) as St.
  assert (unwelcome cf white tr a l m (ke_height e) (ke_hook e a m) <-> refuses cf e a c m s <> None) as U.
  { unfold unwelcome, refuses. rewrite <- No, <- Fu, <- St, Tr, El. clear. generalize (bool_decide (a.1 ∈ pm_white s) || bool_decide (vm_agent m ∈ kc_agents cf) || is_local a.1) as t. intros t.
    generalize (existsb (fun p => match p.2 with Connected c (Some i) => is_outbound (cn_link c) && (pi_nonce i =? vm_nonce m) | _ => false end) (map_to_list (pm_peers s))) as nn. intros nn.
    assert (l = Outbound <-> is_outbound l = true) as -> by (by destruct l). generalize (is_outbound l) as o. intros o.
    generalize (kc_target cf <=? countp p_negotiated s) as f. intros f. generalize (MAX_STALE_HEIGHT_DIFFERENCE <? ke_height e - to_height (vm_height m)) as st. intros st.
    generalize (has_services (vm_services m) (kc_required cf)) as rq. intros rq. generalize (has_services (vm_services m) (kc_preferred cf)) as pr. intros pr.
    generalize (ke_hook e a m) as hk. intros hk. change 70012 with MIN_PROTOCOL_VERSION.
    destruct (N.ltb_spec (vm_version m) MIN_PROTOCOL_VERSION) as [V|V]; [split; [done|by left]|].
    assert (vm_version m < MIN_PROTOCOL_VERSION <-> False) as -> by (split; [lia|done]).
    destruct o, rq, t, st, nn, pr, f, hk; cbn [andb negb]; (split; [intros X Y|intros X]); naive_solver. }
  destruct (refuses cf e a c m s) as [r|].
  - left. split; [by apply U|]. by exists r.
  - right. split; [intros X%U; done|]. cbn [snd]. rewrite Ec, El. destruct l; cbn [is_inbound app]; [by eexists|]. by exists m.
Qed.
Lemma refused_for_good white os tr1 t tr2 s am o e s' am' x a r l sv pe ag rc he ve re wt : khistory cf acf white os (tr1 ++ t :: tr2) s am -> fair_kop (o, e) ->
  KoDisconnect a r ∈ t.2 -> kstep cf acf (o, e) (s, am) = Val (s', am', x) -> KoNegotiated a l sv pe ag rc he ve re wt ∈ x ->
  exists local since y, (KConnected a local l, since, y) ∈ tr2.
Proof.
  intros Hh Fo D E I. destruct (handshake_order _ _ _ _ _ _ _ _ _ _ _ _ _ _ _ _ _ _ _ _ Hh Fo E I) as (-> & u1 & local & since & x1 & u2 & m & t2 & x2 & u3 & Eq & N1 & N2 & _).
  apply split_two in Eq as [->|[In|In]].
  - by apply N1 in D.
  - rewrite Forall_forall in N2. destruct (N2 t In). right. right. by exists r.
  - by exists local, since, x1.
Qed.

(** ** Time limits *)
Lemma select_in e f s a : fair_kenv e -> a ∈ select e f s <-> exists p, pm_peers s !! a = Some p /\ f p = true.
Proof.
  intros [Fo _]. unfold select. rewrite elem_of_list_In, filter_In, <- elem_of_list_In, (Fo _). split.
  - intros [_ F]. destruct (pm_peers s !! a) as [p|]; [by exists p|done].
  - intros (p & E & F). rewrite E. split; [|done]. apply elem_of_list_fmap. exists (a, p). split; [done|]. by apply elem_of_map_to_list.
Qed.
Lemma overdue_spec now s f a : seen cf s f ->
  (exists p, pm_peers s !! a = Some p /\ (late_connecting now p = true \/ late_verack now p = true \/ late_version now p = true)) <-> overdue now (f a).
Proof.
  unfold overdue, late_connecting, late_verack, late_version, CONNECTION_TIMEOUT, HANDSHAKE_TIMEOUT. intros F. specialize (F a). split.
  - intros (p & E & L). rewrite E in F. inversion F as [|t| |c Ec|c i h Ec If]; subst; cbn in L |- *.
    + destruct L as [L|[L|L]]; try done. by apply N.leb_le in L.
    + by destruct L as [L|[L|L]].
    + destruct L as [L|[L|L]]; try done. by apply N.leb_le in L.
    + destruct L as [L|[L|L]]; try done. unfold info in If. destruct_and!. destruct (pi_state i); [|done]. destruct_and!. subst. by apply N.leb_le in L.
  - intros O. inversion F as [Ep|t Ep|Ep|c Ec Ep|c i h Ec If Ep]; subst; rewrite <- H in O; cbn in O; try done.
    + eexists. split; [done|]. left. cbn. by apply N.leb_le.
    + eexists. split; [done|]. right. right. cbn. by apply N.leb_le.
    + eexists. split; [done|]. right. left. cbn. unfold info in If. destruct_and!. destruct (pi_state i); [|congruence]. destruct_and!. subst. by apply N.leb_le.
Qed.
Lemma conn_addr_id s f a : seen cf s f -> conn_addr s a = a.
Proof. intros F. specialize (F a). unfold conn_addr. inversion F; done. Qed.
Lemma late_in e s f a : seen cf s f -> fair_kenv e ->
  a ∈ select e (late_connecting (ke_now e)) s ++ (conn_addr s <$> select e (late_verack (ke_now e)) s) ++ (conn_addr s <$> select e (late_version (ke_now e)) s) <-> overdue (ke_now e) (f a).
Proof.
  intros F Fe. rewrite <- (overdue_spec _ _ _ _ F). rewrite !elem_of_app.
  assert (forall l : list sockaddr, a ∈ conn_addr s <$> l <-> a ∈ l) as Q.
  { intros l. rewrite elem_of_list_fmap. split; [intros (b & -> & I); by rewrite (conn_addr_id _ _ _ F)|]. intros I. exists a. by rewrite (conn_addr_id _ _ _ F). }
  rewrite !Q, !(select_in _ _ _ _ Fe). split.
  - intros [(p & E & L)|[(p & E & L)|(p & E & L)]]; exists p; auto.
  - intros (p & E & [L|[L|L]]); eauto 6.
Qed.
Lemma maintain_no_disconnect e s am s' am' x a r : maintain_connections cf acf e s am = Val (s', am', x) -> KoDisconnect a r ∉ x.
Proof.
  unfold maintain_connections. destruct (kc_persistent cf); [|intros [= <- <- <-] Hy; by apply elem_of_nil in Hy]. destruct (delta cf s) as [d|]; cbn [mbind_M]; [|done].
  generalize (countp p_negotiated s <? kc_target cf). intros below. generalize (S (S (size (am_peers am)))), 0%nat, (∅ : gset sockaddr). intros fuel. revert s am s' am' x.
  induction fuel as [|fuel IH]; intros s1 am s' am' x n dn; cbn [connect_loop]; [done|].
  case_match; [|intros [= <- <- <-] Hy; by apply elem_of_nil in Hy]. destruct (draw cf acf e n _ am) as [[am1 [[ad src]|]]|]; cbn [mbind_M]; [|intros [= <- <- <-] Hy; by apply elem_of_nil in Hy|done].
  destruct (socket_addr ad) as [sa|]; [|apply IH]. destruct (connect cf (ke_now e) sa s1) as [[ok s2] x2] eqn:C. destruct ok; [|apply IH].
  destruct (connect_loop cf acf fuel (S n) e d _ _ s2 am1) as [[[s3 am2] x3]|] eqn:L; cbn [mbind_M]; [|done]. intros [= <- <- <-].
  rewrite elem_of_app, elem_of_cons. intros [Hy|[Hy|Hy]]; [|done|by apply IH in L].
  by destruct (connect_quiet _ _ _ _ _ _ _ _ C Hy).
Qed.
Lemma timed_out white os tr s am e s' am' x a r : khistory cf acf white os tr s am -> fair_kenv e -> kstep cf acf (KTimer, e) (s, am) = Val (s', am', x) ->
  KoDisconnect a r ∈ x <-> r = RTimeout /\ overdue (ke_now e) (status_of a tr).
Proof.
  intros Hh Fe E. pose proof (history_seen _ _ _ _ _ _ _ Hh) as Sn. rewrite <- (late_in e s _ a Sn Fe). cbn [kstep] in E. unfold timer_expired in E.
  set (late := _ ++ _) in *. clearbody late. destruct (disconnect_all late s) as [s1 x1] eqn:D. apply disconnect_all_out in D.
  assert (KoDisconnect a r ∈ x <-> KoDisconnect a r ∈ x1) as ->.
  { assert (forall w s3 s4, maintain_persistent cf e s3 = (s4, w) -> KoDisconnect a r ∉ w) as Np.
    { intros w s3 s4 P I. unfold maintain_persistent in P. by apply (reconnect_quiet _ _ _ _ _ _ _ P I). }
    case_match.
    - destruct (maintain_connections cf acf e s1 am) as [[[s2 am2] z]|] eqn:Mc; cbn [mbind_M] in E; [|done]. destruct (maintain_persistent cf e _) as [s3 w] eqn:P. injection E as <- <- <-.
      rewrite !elem_of_app. split; [|by left]. intros [?|[[I|I]|I]]; [done|by apply (maintain_no_disconnect _ _ _ _ _ _ _ _ Mc) in I|by apply elem_of_list_singleton in I|by apply (Np _ _ _ P) in I].
    - cbn [mbind_M] in E. destruct (maintain_persistent cf e _) as [s3 w] eqn:P. injection E as <- <- <-. rewrite !elem_of_app. split; [|by left].
      intros [?|I]; [done|by apply (Np _ _ _ P) in I]. }
  subst x1. rewrite elem_of_list_fmap. split; [intros (b & [= -> ->] & I); done|]. intros [-> I]. by exists a.
Qed.
End More.
