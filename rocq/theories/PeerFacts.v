(** Facts about all histories of the peer manager. *)
From Verif Require Import Base AddrModel AddrSpec AddrProofs AddrFacts PeerModel PeerSpec PeerProofs PeerMain.
Open Scope N_scope.

Section Facts.
Context (cf : kconf) (acf : aconf).

(** ** No panic *)
Lemma step_total o e s am : sane cf -> fair_kop (o, e) -> addr_ok am ->
  exists s' am' x, kstep cf acf (o, e) (s, am) = Val (s', am', x) /\ addr_ok am'.
Proof.
  intros Sn [Fe Fo] Ok. cbn [fst snd] in *. destruct o as [|a local l|a r|a m|a r| |a|o ae]; cbn [kstep].
  - unfold initialize. destruct (connect_all cf (ke_now e) (kc_persistent cf) s) as [s1 x1].
    destruct (maintain_spec cf acf e s1 am Sn Fe Ok) as (s2 & am2 & y & d & -> & L & _). cbn [mbind_M]. eexists _, _, _. split; [done|]. by destruct L.
  - eexists _, _, _. by split.
  - unfold peer_disconnected. case_bool_decide.
    + unfold persistent_disconnected. destruct (N.ltb_spec (kc_retry_max cf) (kc_retry_min cf)) as [X|_]; [destruct Sn; lia|]. cbn [mbind_M]. eexists _, _, _. by split.
    + destruct (maintain_spec cf acf e (set_peers s (delete a (pm_peers s))) am Sn Fe Ok) as (s2 & am2 & y & d & -> & L & _). cbn [mbind_M]. eexists _, _, _. split; [done|]. by destruct L.
  - destruct m; eexists _, _, _; by split.
  - eexists _, _, _. by split.
  - unfold timer_expired. destruct (disconnect_all _ s) as [s1 x1]. case_match.
    + destruct (maintain_spec cf acf e s1 am Sn Fe Ok) as (s2 & am2 & y & d & -> & L & _). cbn [mbind_M].
      destruct (maintain_persistent cf e _) as [s3 z]. eexists _, _, _. split; [done|]. by destruct L.
    + cbn [mbind_M]. destruct (maintain_persistent cf e _) as [s3 z]. eexists _, _, _. by split.
  - destruct (connect cf (ke_now e) a _) as [[ok s1] x]. eexists _, _, _. by split.
  - destruct (addr_step_ok acf o ae am Fo Ok) as (am' & x & -> & Ok'). cbn [mbind_M]. eexists _, _, _. by split.
Qed.
Lemma run_total os : sane cf -> Forall fair_kop os -> forall s am, addr_ok am -> exists s' am' tr, krun cf acf os (s, am) = Val (s', am', tr) /\ addr_ok am'.
Proof.
  intros Sn. induction os as [|[o e] os IH]; intros Fs s am Ok; cbn [krun]; [eexists _, _, _; by split|]. apply Forall_cons in Fs as [Fo Fs].
  destruct (step_total o e s am Sn Fo Ok) as (s1 & am1 & x & -> & Ok1). cbn [mbind_M].
  destruct (IH Fs s1 am1 Ok1) as (s' & am' & tr & -> & Ok'). cbn [mbind_M]. eexists _, _, _. by split.
Qed.
Lemma history_addr_ok store t0 aos am : addr_history acf store t0 aos am -> addr_ok am.
Proof. intros Hh%history_inv. destruct Hh as [W It _ _ _]. split; [exact W|]. by eexists. Qed.
Lemma no_panic white store t0 aos am os : sane cf -> addr_history acf store t0 aos am -> Forall fair_kop os ->
  exists s' am' tr, krun cf acf os (pm_new white, am) = Val (s', am', tr).
Proof. intros Sn Ok%history_addr_ok Fs. destruct (run_total os Sn Fs (pm_new white) am Ok) as (s' & am' & tr & E & _). by exists s', am', tr. Qed.

(** ** Induction over histories *)
Lemma krun_snoc os o e : forall st, krun cf acf (os ++ [(o, e)]) st =
  ('(st, tr) <-- krun cf acf os st ;; '(s, am, x) <-- kstep cf acf (o, e) st ;; Val (s, am, tr ++ [(o, ke_now e, x)])).
Proof.
  induction os as [|[o' e'] os IH]; intros st; cbn [krun app].
  - cbn [mbind_M]. destruct (kstep cf acf (o, e) st) as [[[s am] x]|]; cbn [mbind_M]; done.
  - destruct (kstep cf acf (o', e') st) as [[[s am] x]|]; cbn [mbind_M]; [|done]. rewrite IH.
    destruct (krun cf acf os (s, am)) as [[st' tr]|]; cbn [mbind_M]; [|done]. destruct (kstep cf acf (o, e) st') as [[[s2 am2] y]|]; cbn [mbind_M]; done.
Qed.
Lemma history_ind white (P : ktrace -> pmgr -> amgr -> Prop) : (forall am, P [] (pm_new white) am) ->
  (forall os tr s am o e s' am' x, khistory cf acf white os tr s am -> P tr s am -> fair_kop (o, e) -> kstep cf acf (o, e) (s, am) = Val (s', am', x) ->
     P (tr ++ [(o, ke_now e, x)]) s' am') ->
  forall os tr s am, khistory cf acf white os tr s am -> P tr s am.
Proof.
  intros P0 Ps os. induction os as [|[o e] os IH] using rev_ind; intros tr s am [(store & t0 & aos & am0 & Ha & R) Fs].
  - cbn in R. injection R as <- <- <-. apply P0.
  - rewrite krun_snoc in R. destruct (krun cf acf os (pm_new white, am0)) as [[[s1 am1] tr1]|] eqn:R1; cbn [mbind_M] in R; [|done].
    destruct (kstep cf acf (o, e) (s1, am1)) as [[[s2 am2] x]|] eqn:E; cbn [mbind_M] in R; [|done]. injection R as <- <- <-.
    apply Forall_app in Fs as [Fs Fo]. apply Forall_cons in Fo as [Fo _].
    assert (khistory cf acf white os tr1 s1 am1) as Hh. { split; [|done]. exists store, t0, aos, am0. split; [exact Ha|exact R1]. }
    apply (Ps os tr1 s1 am1 o e); [exact Hh|by apply IH|exact Fo|exact E].
Qed.
Lemma history_snoc white os tr s am o e s' am' x : khistory cf acf white os tr s am -> fair_kop (o, e) -> kstep cf acf (o, e) (s, am) = Val (s', am', x) ->
  khistory cf acf white (os ++ [(o, e)]) (tr ++ [(o, ke_now e, x)]) s' am'.
Proof.
  intros [(store & t0 & aos & am0 & Ha & R) Fs] Fo E. split; [|apply Forall_app; split; [done|by apply Forall_singleton]].
  exists store, t0, aos, am0. split; [exact Ha|]. rewrite krun_snoc, R. cbn [mbind_M]. rewrite E. done.
Qed.
Lemma status_snoc a tr t : status_of a (tr ++ [t]) = observe a t (status_of a tr).
Proof. unfold status_of. by rewrite fold_left_app. Qed.
Lemma history_seen white os tr s am : khistory cf acf white os tr s am -> seen cf s (fun a => status_of a tr).
Proof.
  revert os tr s am. apply (history_ind white (fun tr s am => seen cf s (fun a => status_of a tr))).
  - intros am a. cbn. rewrite lookup_empty. constructor.
  - intros os tr s am o e s' am' x Hh Sn Fo E a. rewrite status_snoc. exact (step_seen cf acf o e s am s' am' x _ Sn E a).
Qed.
Lemma history_addr white os tr s am : sane cf -> khistory cf acf white os tr s am -> addr_ok am.
Proof.
  intros Sn [(store & t0 & aos & am0 & Ha & R) Fs]. apply history_addr_ok in Ha.
  destruct (run_total os Sn Fs (pm_new white) am0 Ha) as (s' & am' & tr' & E & Ok). rewrite R in E. by injection E as <- <- <-.
Qed.

(** ** How states change *)
Lemma outs_open a now x : forall st local l since h, outs a now x st = Open local l since h -> st = Open local l since h /\ forall r, KoDisconnect a r ∉ x.
Proof.
  induction x as [|y x IH]; intros st local l since h E; [split; [done|]; intros r Hy; by apply elem_of_nil in Hy|].
  unfold outs in E. cbn [fold_left] in E. fold (outs a now x (observe_out a now y st)) in E. apply IH in E as [E Nd].
  assert (observe_out a now y st = st /\ forall r, y <> KoDisconnect a r) as [Ey Ny].
  { destruct y as [| | | | |a'|a' r'| | | | | | |]; cbn in *; try done; case_bool_decide; try done. split; [done|]. intros r [= ->]. done. }
  rewrite Ey in E. split; [exact E|]. intros r [Hy|Hy]%elem_of_cons; [by apply (Ny r)|by apply (Nd r)].
Qed.
Lemma outs_idle a now x : forall st, outs a now x st = Idle -> st = Idle.
Proof.
  induction x as [|y x IH]; intros st E; [done|]. unfold outs in E. cbn [fold_left] in E. fold (outs a now x (observe_out a now y st)) in E. apply IH in E.
  destruct y; cbn in E; try done; by case_bool_decide.
Qed.
Lemma observe_outs a o now x st : observe a (o, now, x) st = outs a now x (observe_op a now o st).
Proof. done. Qed.

(** ** C46: inbound connections *)
Lemma p_inbound_open s f a : seen cf s f -> (exists p, pm_peers s !! a = Some p /\ p_inbound p = true) <-> open_inbound (f a).
Proof.
  intros F. specialize (F a). split.
  - intros (p & E & I). rewrite E in F. destruct p as [t|c i|]; try done. destruct (cn_link c) eqn:El; [|cbn in I; by rewrite El in I].
    inversion F; subst; unfold open_inbound; rewrite El; eauto.
  - intros (local & since & h & E). rewrite E in F. inversion F; subst; eexists; (split; [done|]); cbn; by destruct (cn_link c).
Qed.
Lemma inbound_bound white os tr s am : khistory cf acf white os tr s am -> mcount p_inbound (pm_peers s) <= kc_maxin cf - 1.
Proof.
  revert os tr s am. apply (history_ind white (fun tr s am => mcount p_inbound (pm_peers s) <= kc_maxin cf - 1)).
  - intros am. unfold mcount. cbn. rewrite map_to_list_empty. cbn. unfold lenN. cbn. lia.
  - intros os tr s am o e s' am' x Hh IH Fo E. pose proof (history_seen _ _ _ _ _ Hh) as Sn.
    pose proof (step_seen cf acf o e s am s' am' x _ Sn E) as Sn'.
    assert ((forall a local l, o <> KConnected a local l) -> mcount p_inbound (pm_peers s') <= kc_maxin cf - 1) as Other.
    { intros No. etrans; [|exact IH]. apply mcount_le. intros a p Ep Ip.
      assert (open_inbound (observe a (o, ke_now e, x) (status_of a tr))) as (local & since & h & O) by (apply (p_inbound_open _ _ _ Sn'); by exists p).
      rewrite observe_outs in O. apply outs_open in O as [O _]. apply (p_inbound_open _ _ _ Sn).
      destruct o as [|a' local' l'|a' r|a' m|a' r| |a'|o' ae]; cbn in O; unfold open_inbound; try by eauto.
      - by destruct (No a' local' l').
      - case_bool_decide; [done|]. by eauto.
      - case_bool_decide; [|by eauto]. destruct (status_of a tr); try done. injection O as -> -> -> _. eauto. }
    destruct o as [|a local l|a r|a m|a r| |a|o ae]; try (apply Other; congruence). clear Other Sn'.
    cbn [kstep] in E. injection E as E <- <-. unfold peer_connected in E. set (s1 := PMgr _ _ _ _) in E.
    assert (mcount p_inbound (pm_peers s1) <= (if is_inbound l then 1 else 0) + mcount p_inbound (pm_peers s)) as B1.
    { unfold s1. cbn [pm_peers]. rewrite mcount_replace. cbn [p_inbound cn_link].
      assert (mcount p_inbound (delete a (pm_peers s)) <= mcount p_inbound (pm_peers s)); [|lia].
      apply mcount_le. intros k v [_ Ek]%lookup_delete_Some Fv. by exists v. }
    destruct l; cbn [is_inbound] in B1.
    + change (countp p_inbound s1) with (mcount p_inbound (pm_peers s1)) in E. destruct (N.leb_spec (kc_maxin cf) (mcount p_inbound (pm_peers s1))) as [Le|Lt]; cbn in E; subst s'.
      * cbn [pm_peers set_peers]. etrans; [|exact IH]. apply mcount_le. intros k v Ek Fv. unfold s1 in Ek. cbn [pm_peers] in Ek. destruct (decide (k = a)) as [->|Nk].
        -- rewrite lookup_insert in Ek. by injection Ek as <-.
        -- rewrite !lookup_insert_ne in Ek by done. by exists v.
      * lia.
    + cbn in E. subst s'. lia.
Qed.
Lemma at_most_count n (P : status -> Prop) (f : peer -> bool) s tr : seen cf s (fun a => status_of a tr) ->
  (forall a p st, sees cf a p st -> P st -> exists q, p = Some q /\ f q = true) -> mcount f (pm_peers s) <= n -> at_most n P tr.
Proof.
  intros Sn Pf Le l Nd Al. etrans; [|exact Le]. apply mcount_list; [done|]. intros a I. destruct (Pf a _ _ (Sn a) (Al a I)) as (q & E & F). by exists q.
Qed.
Lemma inbound_limited white os tr s am : khistory cf acf white os tr s am -> at_most (kc_maxin cf - 1) open_inbound tr.
Proof.
  intros Hh. apply (at_most_count _ _ p_inbound s); [by eapply history_seen| |by eapply inbound_bound].
  intros a p st S (local & since & h & ->). inversion S; subst; eexists; (split; [done|]); cbn; by destruct (cn_link c).
Qed.

(** ** C44: handshakes *)
Lemma outs_quiet_negotiated e s am s' am' x a l sv pe ag rc he ve re wt : maintain_connections cf acf e s am = Val (s', am', x) ->
  KoNegotiated a l sv pe ag rc he ve re wt ∉ x.
Proof.
  unfold maintain_connections. destruct (kc_persistent cf); [|intros [= <- <- <-] Hy; by apply elem_of_nil in Hy]. destruct (delta cf s) as [d|]; cbn [mbind_M]; [|done].
  generalize (countp p_negotiated s <? kc_target cf). intros below. generalize (S (S (size (am_peers am)))), 0%nat, (∅ : gset sockaddr). intros fuel. revert s am s' am' x.
  induction fuel as [|fuel IH]; intros s1 am s' am' x n dn; cbn [connect_loop]; [done|].
  case_match; [|intros [= <- <- <-] Hy; by apply elem_of_nil in Hy]. destruct (draw cf acf e n _ am) as [[am1 [[ad src]|]]|]; cbn [mbind_M]; [|intros [= <- <- <-] Hy; by apply elem_of_nil in Hy|done].
  destruct (socket_addr ad) as [sa|]; [|apply IH]. destruct (connect cf (ke_now e) sa s1) as [[ok s2] x2] eqn:C. destruct ok; [|apply IH].
  destruct (connect_loop cf acf fuel (S n) e d _ _ s2 am1) as [[[s3 am2] x3]|] eqn:L; cbn [mbind_M]; [|done]. intros [= <- <- <-].
  rewrite elem_of_app, elem_of_cons. intros [Hy|[Hy|Hy]]; [|done|by apply IH in L].
  apply connect_spec in C as [(_ & -> & _)|(_ & _ & -> & _)]; [by apply elem_of_nil in Hy|]. by repeat (apply elem_of_cons in Hy as [Hy|Hy]; [done|]); apply elem_of_nil in Hy.
Qed.
Lemma connect_quiet now a s ok s' x y : connect cf now a s = (ok, s', x) -> y ∈ x -> y = KoConnect a \/ y = KoTimer CONNECTION_TIMEOUT.
Proof.
  intros [(_ & -> & _)|(_ & _ & -> & _)]%connect_spec Hy; [by apply elem_of_nil in Hy|]. apply elem_of_cons in Hy as [->|Hy]; [by left|]. apply elem_of_list_singleton in Hy as ->. by right.
Qed.
Lemma connect_all_quiet now l : forall s s' x y, connect_all cf now l s = (s', x) -> y ∈ x -> match y with KoConnect _ | KoTimer _ | KoError _ => True | _ => False end.
Proof.
  induction l as [|a l IH]; intros s s' x y; cbn [connect_all]; [intros [= <- <-] Hy; by apply elem_of_nil in Hy|].
  destruct (connect cf now a s) as [[ok s1] x1] eqn:C. destruct (connect_all cf now l s1) as [s2 x2] eqn:D. intros [= <- <-].
  rewrite !elem_of_app. intros [Hy|[Hy|Hy]].
  - by destruct (connect_quiet _ _ _ _ _ _ _ C Hy) as [ -> | -> ].
  - destruct ok; [by apply elem_of_nil in Hy|]. by apply elem_of_list_singleton in Hy as ->.
  - by apply (IH _ _ _ _ D).
Qed.
Lemma reconnect_quiet now l : forall s s' x y, reconnect_all cf now l s = (s', x) -> y ∈ x -> match y with KoConnect _ | KoTimer _ => True | _ => False end.
Proof.
  induction l as [|a l IH]; intros s s' x y; cbn [reconnect_all]; [intros [= <- <-] Hy; by apply elem_of_nil in Hy|].
  destruct (connect cf now a s) as [[ok s1] x1] eqn:C. destruct (reconnect_all cf now l s1) as [s2 x2] eqn:D. intros [= <- <-].
  rewrite !elem_of_app. intros [Hy|Hy]; [by destruct (connect_quiet _ _ _ _ _ _ _ C Hy) as [ -> | -> ]|by apply (IH _ _ _ _ D)].
Qed.
Lemma disconnect_all_out l : forall s s' x, disconnect_all l s = (s', x) -> x = (fun a => KoDisconnect a RTimeout) <$> l.
Proof.
  induction l as [|a l IH]; intros s s' x; cbn [disconnect_all]; [by intros [= <- <-]|]. cbn [do_disconnect]. destruct (disconnect_all l (set_peers s (<[a:=Disconnecting]> (pm_peers s)))) as [s2 x2] eqn:D. intros [= <- <-].
  cbn. by rewrite (IH _ _ _ D).
Qed.

Lemma negotiated_verack o e s am s' am' x a l sv pe ag rc he ve re wt : kstep cf acf (o, e) (s, am) = Val (s', am', x) -> KoNegotiated a l sv pe ag rc he ve re wt ∈ x ->
  o = KMessage a MVerack /\ exists c i t, pm_peers s !! a = Some (Connected c (Some i)) /\ pi_state i = HVersion t /\
    l = cn_link c /\ sv = pi_services i /\ pe = pi_persistent i /\ ag = pi_agent i /\ rc = pi_receiver i /\ he = pi_height i /\ ve = pi_version i /\ re = pi_relay i /\ wt = pi_wtxid i.
Proof.
  set (y := KoNegotiated a l sv pe ag rc he ve re wt). intros E I. destruct o as [|b local lk|b r|b m|b r| |b|o ae]; cbn [kstep] in E.
  - exfalso. unfold initialize in E. destruct (connect_all cf (ke_now e) (kc_persistent cf) s) as [s1 x1] eqn:C.
    destruct (maintain_connections cf acf e s1 am) as [[[s2 am2] z]|] eqn:Mc; cbn [mbind_M] in E; [|done]. injection E as <- <- <-.
    apply elem_of_app in I as [I|[I|I]%elem_of_cons]; [by apply (connect_all_quiet _ _ _ _ _ _ C I)|done|by eapply outs_quiet_negotiated].
  - exfalso. injection E as <- <- <-. unfold peer_connected in I. destruct (match lk with Inbound => _ | Outbound => _ end) as [s2 x2] eqn:Q. cbn [snd] in I.
    apply elem_of_app in I as [I|I]; [|by repeat (apply elem_of_cons in I as [I|I]; [done|]); apply elem_of_nil in I].
    destruct lk; [destruct (_ <=? _)|]; injection Q as <- <-; try (by apply elem_of_nil in I); by apply elem_of_list_singleton in I.
  - exfalso. unfold peer_disconnected in E. set (x0 := if disconnecting_at s b || connected_at s b then _ else _) in E.
    assert (y ∉ x0) as N0 by (unfold x0; intros I0; repeat case_match; try (by apply elem_of_nil in I0); by apply elem_of_list_singleton in I0).
    case_bool_decide.
    + unfold persistent_disconnected in E. case_match; [done|]. cbn [mbind_M] in E. injection E as <- <- <-.
      apply elem_of_app in I as [I|I]; [done|]. by apply elem_of_list_singleton in I.
    + destruct (maintain_connections cf acf e _ am) as [[[s2 am2] z]|] eqn:Mc; cbn [mbind_M] in E; [|done]. injection E as <- <- <-.
      apply elem_of_app in I as [I|I]; [done|]. by eapply outs_quiet_negotiated.
  - destruct m as [m| | |]; injection E as <- <- <-.
    + exfalso. unfold received_version in I. destruct (pm_peers s !! b) as [[t|c i|]|]; try (by apply elem_of_nil in I).
      destruct (refuses cf e b c m s); cbn in I; [by apply elem_of_list_singleton in I|]. apply elem_of_app in I as [I|I].
      * destruct (is_inbound _); [by apply elem_of_list_singleton in I|by apply elem_of_nil in I].
      * by repeat (apply elem_of_cons in I as [I|I]; [done|]); apply elem_of_nil in I.
    + unfold received_verack in I. destruct (pm_peers s !! b) as [[t|c [i|]|]|] eqn:Eb; try (by apply elem_of_nil in I).
      destruct (pi_state i) as [t|t] eqn:St; cbn in I; [|by apply elem_of_list_singleton in I].
      apply elem_of_cons in I as [I|I]; [|by apply elem_of_list_singleton in I]. injection I as -> -> -> -> -> -> -> -> -> ->.
      split; [done|]. exists c, i, t. by repeat split.
    + exfalso. unfold received_wtxidrelay, disconnect in I. repeat case_match; try (by apply elem_of_nil in I). by apply elem_of_list_singleton in I.
    + by apply elem_of_nil in I.
  - exfalso. injection E as <- <- <-. unfold disconnect in I. case_match; [by apply elem_of_list_singleton in I|by apply elem_of_nil in I].
  - exfalso. unfold timer_expired in E. destruct (disconnect_all _ s) as [s1 x1] eqn:D. apply disconnect_all_out in D.
    assert (y ∉ x1) as N1 by (subst x1; by intros (q & ? & _)%elem_of_list_fmap).
    case_match.
    + destruct (maintain_connections cf acf e s1 am) as [[[s2 am2] z]|] eqn:Mc; cbn [mbind_M] in E; [|done].
      destruct (maintain_persistent cf e _) as [s3 w] eqn:P. injection E as <- <- <-.
      apply elem_of_app in I as [I|[[I|I]%elem_of_app|I]%elem_of_app]; [done|by eapply outs_quiet_negotiated|by apply elem_of_list_singleton in I|].
      unfold maintain_persistent in P. by apply (reconnect_quiet _ _ _ _ _ _ P I).
    + cbn [mbind_M] in E. destruct (maintain_persistent cf e _) as [s3 w] eqn:P. injection E as <- <- <-.
      apply elem_of_app in I as [I|I]; [done|]. unfold maintain_persistent in P. by apply (reconnect_quiet _ _ _ _ _ _ P I).
  - exfalso. destruct (connect cf (ke_now e) b _) as [[ok s1] x1] eqn:C. injection E as <- <- <-. by destruct (connect_quiet _ _ _ _ _ _ _ C I).
  - exfalso. destruct (addr_step acf (o, ae) am) as [[am1 z]|]; cbn [mbind_M] in E; [|done]. injection E as <- <- <-. by apply elem_of_nil in I.
Qed.

(** What an open connection in a trace means. *)
Lemma open_origin a tr : forall local l since h, status_of a tr = Open local l since h ->
  exists tr1 x tr2, tr = tr1 ++ (KConnected a local l, since, x) :: tr2 /\ (forall r, KoDisconnect a r ∉ x) /\ Forall (fun t => ~ cuts a t) tr2 /\
  match h with
  | None => Forall (fun t => forall m, t.1.1 <> KMessage a (MVersion m)) tr2
  | Some h => exists tr3 y tr4, tr2 = tr3 ++ (KMessage a (MVersion (he_msg h)), he_time h, y) :: tr4 /\
      Forall (fun t => forall m, t.1.1 <> KMessage a (MVersion m)) tr4 /\
      (he_acked h = false -> Forall (fun t => t.1.1 <> KMessage a MVerack) tr4 /\
         (he_wtxid h = true <-> Exists (fun t => t.1.1 = KMessage a MWtxidRelay) tr4)) /\
      (he_acked h = true -> Exists (fun t => t.1.1 = KMessage a MVerack) tr4)
  end.
Proof.
  induction tr as [|[[o now] x] tr IH] using rev_ind; intros local l since h E; [done|]. rewrite status_snoc, observe_outs in E.
  apply outs_open in E as [E Nd].
  assert (forall h0, status_of a tr = Open local l since h0 -> (forall m, o = KMessage a m -> h = hear now m h0) -> ((forall m, o <> KMessage a m) -> h = h0) ->
    (~ cuts a (o, now, x)) -> exists tr1 x0 tr2, tr ++ [(o, now, x)] = tr1 ++ (KConnected a local l, since, x0) :: tr2 /\ (forall r, KoDisconnect a r ∉ x0) /\ Forall (fun t => ~ cuts a t) tr2 /\
    match h with
    | None => Forall (fun t => forall m, t.1.1 <> KMessage a (MVersion m)) tr2
    | Some h => exists tr3 y tr4, tr2 = tr3 ++ (KMessage a (MVersion (he_msg h)), he_time h, y) :: tr4 /\
        Forall (fun t => forall m, t.1.1 <> KMessage a (MVersion m)) tr4 /\
        (he_acked h = false -> Forall (fun t => t.1.1 <> KMessage a MVerack) tr4 /\
           (he_wtxid h = true <-> Exists (fun t => t.1.1 = KMessage a MWtxidRelay) tr4)) /\
        (he_acked h = true -> Exists (fun t => t.1.1 = KMessage a MVerack) tr4)
    end) as Ext.
  { intros h0 E0 Hm Hn Nc. destruct (IH _ _ _ _ E0) as (tr1 & x0 & tr2 & -> & N0 & Fc & Hh). exists tr1, x0, (tr2 ++ [(o, now, x)]).
    split; [by rewrite <- app_assoc|]. split; [done|]. split; [apply Forall_app; split; [done|by apply Forall_singleton]|].
    assert ((exists m, o = KMessage a m) \/ (forall m, o <> KMessage a m)) as [(m & ->)|No'].
    { destruct o as [| | |b m| | | |]; try by right. destruct (decide (b = a)) as [->|Nb]; [left; by exists m|right; congruence]. }
    2: { rewrite (Hn No') in *. clear Hm Hn. destruct h0 as [h0|].
         - destruct Hh as (tr3 & y & tr4 & -> & A & B & C). exists tr3, y, (tr4 ++ [(o, now, x)]). split; [by rewrite <- app_assoc|].
           split; [apply Forall_app; split; [done|]; apply Forall_singleton; intros m; apply No'|]. split.
           + intros Ea. destruct (B Ea) as [B1 B2]. split; [apply Forall_app; split; [done|]; apply Forall_singleton; apply No'|].
             rewrite B2, Exists_app, Exists_cons, Exists_nil. cbn. split; [by left|]. intros [?|[?|[]]]; [done|]. by apply No' in H.
           + intros Ea. apply Exists_app. left. by apply C.
         - apply Forall_app. split; [done|]. apply Forall_singleton. intros m. apply No'. }
    rewrite (Hm m eq_refl) in *. clear Hm Hn. destruct m as [m| | |]; cbn [hear].
    - exists tr2, x, []. split; [done|]. split; [done|]. split; [|done]. intros _. split; [done|]. cbn [he_wtxid]. split; [done|]. by intros ?%Exists_nil.
    - destruct h0 as [h0|].
      + destruct Hh as (tr3 & y & tr4 & -> & A & B & C). exists tr3, y, (tr4 ++ [(KMessage a MVerack, now, x)]). cbn. split; [by rewrite <- app_assoc|].
        split; [apply Forall_app; split; [done|by apply Forall_singleton]|]. split; [done|]. intros _. apply Exists_app. right. by apply Exists_cons_hd.
      + apply Forall_app. split; [done|by apply Forall_singleton].
    - destruct h0 as [h0|].
      + destruct Hh as (tr3 & y & tr4 & -> & A & B & C). exists tr3, y, (tr4 ++ [(KMessage a MWtxidRelay, now, x)]). cbn. split; [by rewrite <- app_assoc|].
        split; [apply Forall_app; split; [done|by apply Forall_singleton]|]. split.
        * intros Ea. destruct (B Ea) as [B1 B2]. split; [apply Forall_app; split; [done|by apply Forall_singleton]|]. rewrite Ea. cbn. rewrite orb_true_r. split; [|done].
          intros _. apply Exists_app. right. by apply Exists_cons_hd.
        * intros Ea. apply Exists_app. left. by apply C.
      + apply Forall_app. split; [done|by apply Forall_singleton].
    - destruct h0 as [h0|].
      + destruct Hh as (tr3 & y & tr4 & -> & A & B & C). exists tr3, y, (tr4 ++ [(KMessage a MOther, now, x)]). split; [by rewrite <- app_assoc|].
        split; [apply Forall_app; split; [done|by apply Forall_singleton]|]. split.
        * intros Ea. destruct (B Ea) as [B1 B2]. split; [apply Forall_app; split; [done|by apply Forall_singleton]|]. rewrite B2, Exists_app. split; [by left|]. intros [?|X]; [done|].
          apply Exists_cons in X as [?|?%Exists_nil]; done.
        * intros Ea. apply Exists_app. left. by apply C.
      + apply Forall_app. split; [done|by apply Forall_singleton]. }
  assert ((forall l' r', o <> KConnected a l' r') -> (forall r, o <> KDisconnected a r) -> ~ cuts a (o, now, x)) as Cut.
  { intros N1 N2 [(l0 & l1 & Q)|[(r & Q)|(r & I)]]; cbn in *; [by eapply N1|by eapply N2|by eapply Nd]. }
  destruct o as [|b local' l'|b r|b m|b r| |b|o ae]; cbn in E.
  all: try (by apply (Ext h); [exact E|intros m' [=]|done|apply Cut; congruence]).
  - case_bool_decide as Eb.
    + subst b. injection E as -> -> -> <-. exists tr, x, []. split; [done|]. split; [done|]. by split.
    + apply (Ext h); [exact E|done|done|]. apply Cut; congruence.
  - case_bool_decide as Eb; [done|]. apply (Ext h); [exact E|done|done|]. apply Cut; congruence.
  - case_bool_decide as Eb.
    + subst b. destruct (status_of a tr) as [|t|local0 l0 since0 h0|] eqn:E0; try done. injection E as -> -> -> <-.
      apply (Ext h0); [done|by intros m' [= ->]|intros Nm; by destruct (Nm m)|]. apply Cut; congruence.
    + apply (Ext h); [exact E|intros m' [= -> _]; done|done|]. apply Cut; congruence.
Qed.
End Facts.
