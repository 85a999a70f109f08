(** What the log of a run says about connections: limits, handshakes, dropped
    peers, and the replies about peers. *)
From Verif Require Import Base PowModel UtilModel FeeModel BlockModel AddrModel AddrSpec AddrFacts PeerModel PeerSpec PeerProofs PeerMain PeerFacts PeerMore PeerEvents PeerDial PingModel
  DispModel DispSpec DispProofs LoadModel NodeModel FullModel FullSpec FullSim FullMgrSpec FullMgr FullLinkSpec FullLink.
From Verif Require SyncModel CbfModel InvModel PingSpec.
Open Scope N_scope.

Lemma strip_open st local l h : strip st = LOpen local l h -> exists since h', st = Open local l since h' /\ h = (fun h => (he_msg h, he_wtxid h, he_acked h)) <$> h'.
Proof. destruct st; try done. intros [= -> -> <-]. eauto. Qed.
Lemma strip_is_open st : is_open (strip st) <-> match st with Open _ _ _ _ => True | _ => False end.
Proof. unfold is_open. destruct st as [| |local l since h|]; cbn; split; try done; try (by intros (? & ? & ? & ?)). intros _. eauto. Qed.
Lemma in_peer_io (y : list kout) (z : io wmsg wev) : z ∈ snd <$> flat_map peer_io y <-> exists k, k ∈ y /\ z ∈ snd <$> peer_io k.
Proof.
  induction y as [|k y IH]; cbn [flat_map].
  - split; [by intros I%elem_of_nil|intros (? & I & _); by apply elem_of_nil in I].
  - rewrite fmap_app, elem_of_app, IH. split.
    + intros [I|(k' & I & J)]; [exists k; split; [by left|done]|exists k'; split; [by right|done]].
    + intros (k' & [->|I]%elem_of_cons & J); [by left|right; eauto].
Qed.
Definition reported (k : kout) : Prop := match k with KoVersion _ _ | KoWtxidRelay _ | KoVerack _ | KoSendHeaders _ | KoTimer _ | KoConnect _ | KoDisconnect _ _ | KoOffset _ _ => False | _ => True end.
Lemma in_event (y : list kout) (k : kout) : reported k -> IoEvent (WvPeer k) ∈ snd <$> flat_map peer_io y <-> k ∈ y.
Proof.
  intros Rk. rewrite in_peer_io. split.
  - intros (k' & I & J). destruct k'; cbn in J; try (by apply elem_of_nil in J); apply elem_of_list_singleton in J; try done; by injection J as ->.
  - intros I. exists k. split; [done|]. destruct k; try done; cbn; by apply elem_of_list_singleton.
Qed.
Lemma in_connect (y : list kout) a : (IoConnect a : io wmsg wev) ∈ snd <$> flat_map peer_io y <-> KoConnect a ∈ y.
Proof.
  rewrite in_peer_io. split.
  - intros (k' & I & J). destruct k'; cbn in J; try (by apply elem_of_nil in J); apply elem_of_list_singleton in J; try done; by injection J as ->.
  - intros I. eexists. split; [done|]. cbn; by apply elem_of_list_singleton.
Qed.
Lemma in_disconnect (y : list kout) a r : (IoDisconnect a r : io wmsg wev) ∈ snd <$> flat_map peer_io y <-> KoDisconnect a r ∈ y.
Proof.
  rewrite in_peer_io. split.
  - intros (k' & I & J). destruct k'; cbn in J; try (by apply elem_of_nil in J); apply elem_of_list_singleton in J; try done; by injection J as -> ->.
  - intros I. eexists. split; [done|]. cbn; by apply elem_of_list_singleton.
Qed.

(** ** Who the peer manager disconnects *)
Lemma step_drops cf acf o e s am s' am' x a r : kstep cf acf (o, e) (s, am) = Val (s', am', x) -> KoDisconnect a r ∈ x ->
  (exists local, o = KConnected a local Inbound /\ r = RLimit) \/
  (exists m c i, o = KMessage a (MVersion m) /\ pm_peers s !! a = Some (Connected c i) /\ refuses cf e a c m s = Some r) \/
  (exists c i t, (o = KMessage a MVerack \/ o = KMessage a MWtxidRelay) /\ r = RMisbehaving /\ pm_peers s !! a = Some (Connected c (Some i)) /\ pi_state i = HVerack t) \/
  (o = KDrop a r /\ connected_at s a = true) \/ o = KTimer.
Proof.
  intros E I. destruct o as [|b local l|b d|b m|b d| |b|o ae]; cbn [kstep] in E.
  - exfalso. unfold PeerModel.initialize in E. destruct (connect_all cf (ke_now e) (kc_persistent cf) s) as [s1 x1] eqn:C.
    destruct (maintain_connections cf acf e s1 am) as [[[s2 am2] z]|] eqn:Mc; cbn [mbind_M] in E; [|done]. injection E as <- <- <-.
    apply elem_of_app in I as [I|[I|I]%elem_of_cons]; [by apply (connect_all_quiet _ _ _ _ _ _ _ C I)|done|by apply (maintain_no_disconnect _ _ _ _ _ _ _ _ _ _ Mc) in I].
  - left. injection E as <- <- <-. unfold peer_connected in I. destruct (match l with Inbound => _ | Outbound => _ end) as [s2 x2] eqn:Q. cbn [snd] in I.
    apply elem_of_app in I as [I|I]; [|by repeat (apply elem_of_cons in I as [I|I]; [done|]); apply elem_of_nil in I].
    destruct l; [destruct (_ <=? _)|]; injection Q as <- <-; try (by apply elem_of_nil in I); apply elem_of_list_singleton in I; [|done]. injection I as -> ->. eauto.
  - exfalso. unfold peer_disconnected in E. set (x0 := if disconnecting_at s b || connected_at s b then _ else _) in E.
    assert (KoDisconnect a r ∉ x0) as N0 by (unfold x0; intros I0; repeat case_match; try (by apply elem_of_nil in I0); by apply elem_of_list_singleton in I0).
    case_bool_decide.
    + unfold persistent_disconnected in E. case_match; [done|]. cbn [mbind_M] in E. injection E as <- <- <-. apply elem_of_app in I as [I|I]; [done|]. by apply elem_of_list_singleton in I.
    + destruct (maintain_connections cf acf e _ am) as [[[s2 am2] z]|] eqn:Mc; cbn [mbind_M] in E; [|done]. injection E as <- <- <-.
      apply elem_of_app in I as [I|I]; [done|by apply (maintain_no_disconnect _ _ _ _ _ _ _ _ _ _ Mc) in I].
  - destruct m as [m| | |]; injection E as <- <- <-; [| | |by apply elem_of_nil in I].
    + unfold received_version in I. destruct (pm_peers s !! b) as [[|c i|]|] eqn:Eb; try (by apply elem_of_nil in I).
      destruct (refuses cf e b c m s) as [r'|] eqn:Rf; cbn [snd do_disconnect] in I.
      * apply elem_of_list_singleton in I. injection I as -> ->. right. left. eauto 8.
      * exfalso. apply elem_of_app in I as [I|I]; [case_match; [by apply elem_of_list_singleton in I|by apply elem_of_nil in I]|].
        by repeat (apply elem_of_cons in I as [I|I]; [done|]); apply elem_of_nil in I.
    + unfold received_verack in I. destruct (pm_peers s !! b) as [[|c [i|]|]|] eqn:Eb; try (by apply elem_of_nil in I). destruct (pi_state i) eqn:Si; cbn [snd do_disconnect] in I.
      * by repeat (apply elem_of_cons in I as [I|I]; [done|]); apply elem_of_nil in I.
      * apply elem_of_list_singleton in I. injection I as -> ->. right. right. left. eauto 10.
    + unfold received_wtxidrelay in I. destruct (pm_peers s !! b) as [[|c [i|]|]|] eqn:Eb; try (by apply elem_of_nil in I). destruct (pi_state i) eqn:Si; cbn [snd] in I; [by apply elem_of_nil in I|].
      unfold disconnect, connected_at in I. rewrite Eb in I. cbn [snd do_disconnect] in I.
      apply elem_of_list_singleton in I. injection I as -> ->. right. right. left. eauto 10.
  - injection E as <- <- <-. unfold disconnect in I. destruct (connected_at s b) eqn:Cb; cbn [snd do_disconnect] in I; [|by apply elem_of_nil in I].
    apply elem_of_list_singleton in I. injection I as -> ->. eauto 6.
  - by do 4 right.
  - exfalso. destruct (connect cf (ke_now e) b _) as [[ok s1] x1] eqn:C. injection E as <- <- <-. by destruct (connect_quiet _ _ _ _ _ _ _ _ C I).
  - exfalso. destruct (addr_step acf (o, ae) am) as [[am1 x1]|]; cbn [mbind_M] in E; [|done]. injection E as <- <- <-. by apply elem_of_nil in I.
Qed.
Lemma verack_out cf acf e s am s' am' x a c i t : kstep cf acf (KMessage a MVerack, e) (s, am) = Val (s', am', x) -> pm_peers s !! a = Some (Connected c (Some i)) -> pi_state i = HVersion t ->
  KoNegotiated a (cn_link c) (pi_services i) (pi_persistent i) (pi_agent i) (pi_receiver i) (pi_height i) (pi_version i) (pi_relay i) (pi_wtxid i) ∈ x.
Proof. intros E Ep Si. cbn [kstep] in E. unfold received_verack in E. rewrite Ep, Si in E. injection E as <- <- <-. by left. Qed.

Lemma filter_sub {A} (f : A -> bool) (l : list A) : sublist (List.filter f l) l.
Proof. induction l as [|x l IH]; cbn [List.filter]; [constructor|]. destruct (f x); by constructor. Qed.
Lemma fmap_sublist {A B} (f : A -> B) (l k : list A) : sublist l k -> sublist (f <$> l) (f <$> k).
Proof. induction 1; cbn; by constructor. Qed.

Lemma sub_NoDup {A} (l k : list A) : sublist l k -> NoDup k -> NoDup l.
Proof.
  induction 1 as [|x l k S IH|x l k S IH]; [done| |]; intros [Nx Nk]%NoDup_cons; [|by apply IH]. apply NoDup_cons. split; [|by apply IH].
  intros I. apply Nx. clear -I S. induction S as [|y l k S IH|y l k S IH]; [done| |].
  - apply elem_of_cons in I as [->|I]; [by left|right; by apply IH].
  - right. by apply IH.
Qed.

Section Linked.
Context (H : header -> N) (scf : SyncModel.sconf) (P : CbfModel.params) (kcf : kconf) (acf : aconf) (ping_timeout : N).
Context (env : nat -> nenv) (wenv_of : nat -> wenv) (magic : N) (hook : sockaddr -> wmsg -> bool).
Notation fullstep := (full_step H scf P kcf acf ping_timeout env wenv_of magic hook).
Notation onev := (FullModel.on_event H scf P kcf acf ping_timeout env wenv_of).
Hypothesis Fw : fair_wenv wenv_of.
Hypothesis Fo : forall n l, we_order (wenv_of n) l ≡ₚ l.
Context (c0 : cache) (f0 : CbfModel.cbf) (white : gset ip) (am : amgr).
Let s0 := full0 c0 f0 white am.
Context (e0 : aenv) (store : gmap ip known).
Hypothesis Fe0 : fair_aenv e0.
Hypothesis New : addr_new e0 store = Val am.
Let HL := history_link H scf P kcf acf ping_timeout env wenv_of magic hook Fw Fo c0 f0 white am e0 store Fe0 New.
Let SC := step_call H scf P kcf acf ping_timeout env wenv_of magic hook Fw Fo c0 f0 white am e0 store Fe0 New.
Let SS := step_says H scf P kcf acf ping_timeout env wenv_of magic hook Fw Fo.
Notation started := (started fullstep s0).

(** *** Messages that get through *)
Lemma connected_open s l a : started l s -> connected_at (w_peer (f_state s)) a = true <-> is_open (link_of a l).
Proof.
  intros ((x0 & l' & ->) & L). destruct (HL _ _ _ L) as (kos & tr & Hh & _ & St & _). rewrite <- St, strip_is_open.
  pose proof (history_seen _ _ _ _ _ _ _ Hh a) as S. cbn beta in S. unfold connected_at. inversion S; done.
Qed.
Theorem passed l s o s' x a m : started l s -> fullstep o s = Val (s', x) ->
  WvMessage a m ∈ announced x <-> o = WReceived a magic m /\ is_open (link_of a l) /\ hook a m = true.
Proof.
  intros S E. rewrite <- (connected_open _ _ a S). destruct S as ((x0 & l' & ->) & L). destruct (HL _ _ _ L) as (kos & tr & Hh & _ & St & PB).
  destruct (SS _ _ _ _ PB E) as [Sy _]. destruct o as [|b mg m'|b local lk|b r|b| |c|]; cbn [says] in Sy.
  1,3,4,5,6,7: rewrite Sy; split; [by intros I%elem_of_nil|by intros (? & _)].
  - destruct Sy as [(-> & -> & C & Hk)|[-> No]].
    + rewrite elem_of_list_singleton. split; [intros [= -> ->]; done|]. by intros ([= -> ->] & _).
    + split; [by intros I%elem_of_nil|]. intros ([= -> -> ->] & A & B). by destruct No.
  - destruct Sy as [->|(e & -> & Pe)]; [split; [by intros I%elem_of_nil|by intros (? & _)]|].
    rewrite elem_of_list_singleton. split; [intros <-; by destruct Pe|by intros (? & _)].
Qed.
(** Nothing else is passed on, except what a manager announced. *)
Theorem passed_only l s o s' x : started l s -> fullstep o s = Val (s', x) ->
  (length (announced x) <= 1)%nat /\ ((forall a m, o <> WReceived a magic m) -> o <> WNext -> announced x = []).
Proof.
  intros ((x0 & l' & ->) & L) E. destruct (HL _ _ _ L) as (kos & tr & Hh & _ & St & PB).
  destruct (SS _ _ _ _ PB E) as [Sy _]. destruct o as [|b mg m'|b local lk|b r|b| |c|]; cbn [says] in Sy.
  1,3,4,5,6,7: rewrite Sy; split; [cbn; lia|done].
  - destruct Sy as [(-> & -> & C & Hk)|[-> No]]; (split; [cbn; lia|]); [|done]. intros Q _. by destruct (Q b m').
  - destruct Sy as [->|(e & -> & Pe)]; (split; [cbn; lia|done]).
Qed.

(** *** Limits *)
Theorem inbound_log l s k : started l s -> NoDup k -> (forall a, a ∈ k -> open_in (link_of a l)) -> lenN k <= kc_maxin kcf - 1.
Proof.
  intros ((x0 & l' & ->) & L) Nk Ik. destruct (HL _ _ _ L) as (kos & tr & Hh & _ & St & PB).
  apply (inbound_limited kcf acf _ _ _ _ _ Hh); [done|]. intros a Ia. destruct (Ik a Ia) as (local & h & Eo). rewrite <- St in Eo.
  apply strip_open in Eo as (since & h' & Eo & _). exists local, since, h'. exact Eo.
Qed.

(** *** Calls of the peer manager *)
Lemma call_message l s o s' x k : started l s -> fullstep o s = Val (s', x) -> k ∈ omap to_peer (calls_of magic o x) ->
  match k with
  | KInit => o = WInitialize
  | KConnected a local lk => o = WConnected a local lk
  | KDisconnected a r => o = WDisconnected a r
  | KMessage a (MVersion m) => heard_in a (WVersion m) (o, x)
  | KMessage a MVerack => heard_in a WVerack (o, x)
  | KMessage a MWtxidRelay => heard_in a WWtxidRelay (o, x)
  | KMessage a MOther => exists m, heard_in a m (o, x)
  | KDrop a r => match r with
      | RMagic => exists mg m, o = WReceived a mg m /\ mg <> magic
      | RDecode => o = WDrop a
      | RCommand => o = WCommand (CmdDisconnect a)
      | RMisbehaving => exists n, unkey n = a /\ (WvNode (EvSync (SyncModel.SoMisbehaved n)) ∈ announced x \/ WvNode (EvCbf (CbfModel.CoMisbehaved n)) ∈ announced x)
      | RTimeout => exists n, unkey n = a /\ WvNode (EvInv (InvModel.IoTimedOut n)) ∈ announced x
      | _ => False
      end
  | KTimer => o = WTimer
  | KConnect a => o = WCommand (CmdConnect a)
  | KAddr _ _ => False
  end.
Proof.
  intros _ _ I. apply elem_of_list_omap in I as (c & I & Ec). destruct c as [k'| |]; try done. injection Ec as ->. unfold calls_of in I. apply elem_of_app in I as [I|I].
  - destruct o as [|b mg m|b local lk|b r|b| |c|]; cbn [input_calls] in I.
    2: { destruct (mg =? magic) eqn:Em; [by apply elem_of_nil in I|]. apply elem_of_list_singleton in I. injection I as ->. apply N.eqb_neq in Em. eauto. }
    6: { destruct c; try (by apply elem_of_nil in I); apply elem_of_list_singleton in I; try done; by injection I as ->. }
    all: repeat (apply elem_of_cons in I as [I|I]; [try done; by injection I as ->|]); by apply elem_of_nil in I.
  - apply elem_of_list_In, in_flat_map in I as (e & Ie & I). apply elem_of_list_In in Ie, I.
    destruct e as [| |b m|y|y|e]; cbn [event_calls] in I; try (by apply elem_of_nil in I).
    + unfold heard_in. cbn [snd]. destruct m; cbn [message_calls] in I; repeat (apply elem_of_cons in I as [I|I]; [try done; injection I as ->; eauto|]); by apply elem_of_nil in I.
    + destruct y; try (by apply elem_of_nil in I); repeat (apply elem_of_cons in I as [I|I]; [done|]); by apply elem_of_nil in I.
    + destruct e as [| | |e|e|e]; try (by apply elem_of_nil in I); destruct e; try (by apply elem_of_nil in I); apply elem_of_list_singleton in I; injection I as ->; eauto.
Qed.
(** The peer manager queues something in a step: the call it was asked for. *)
Lemma step_queued l s o s' x z : started l s -> fullstep o s = Val (s', x) -> z ∈ queued_by CPeer x ->
  exists k kos tr e am1 am2 y, k ∈ omap to_peer (calls_of magic o x) /\ khistory kcf acf white kos tr (w_peer (f_state s)) am1 /\ fair_kop (k, e) /\ shown wenv_of (ke_now e) /\
    kstep kcf acf (k, e) (w_peer (f_state s), am1) = Val (w_peer (f_state s'), am2, y) /\
    queued_by CPeer x = snd <$> flat_map peer_io y /\ forall a, strip (status_of a tr) = link_of a l.
Proof.
  intros ((x0 & l' & ->) & L) E Iz. pose proof (SC _ _ _ _ _ _ L E) as C. destruct (omap to_peer (calls_of magic o x)) as [|k ks].
  - destruct C as [C _]. rewrite C in Iz. by apply elem_of_nil in Iz.
  - destruct C as (kos & tr & e & am1 & am2 & y & Q). exists k, kos, tr, e, am1, am2, y. split; [by left|exact Q].
Qed.

Theorem drop_log l s o s' x a r : started l s -> fullstep o s = Val (s', x) -> IoDisconnect a r ∈ queued_by CPeer x -> drop_cause kcf magic l a r (o, x).
Proof.
  intros S E I. destruct (step_queued _ _ _ _ _ _ S E I) as (k & kos & tr & e & am1 & am2 & y & Ik & Hh & [Fk _] & _ & Sk & Q & St).
  pose proof (call_message _ _ _ _ _ _ S E Ik) as C. rewrite Q in I. apply in_disconnect in I.
  pose proof (history_seen _ _ _ _ _ _ _ Hh) as Sn. pose proof (Sn a) as Sa. cbn beta in Sa. unfold drop_cause. cbn [fst snd].
  destruct (step_drops _ _ _ _ _ _ _ _ _ _ _ Sk I) as [(local & -> & ->)|[(m & c & i & -> & Ep & Rf)|[(c & i & t & Ek & -> & Ep & Si)|[[-> Cn]| -> ]]]].
  - left. eauto.
  - assert (exists h, link_of a l = LOpen (cn_local c) (cn_link c) h) as [h Eh].
    { rewrite <- St. rewrite Ep in Sa. inversion Sa; subst; cbn; eauto. }
    unfold refuses in Rf. cbn beta zeta in Rf. rewrite Eh.
    destruct (vm_version m <? MIN_PROTOCOL_VERSION) eqn:V.
    { injection Rf as <-. apply N.ltb_lt in V. unfold MIN_PROTOCOL_VERSION in V. eauto 10. }
    destruct (_ && negb (has_services (vm_services m) (kc_required kcf)) && _) eqn:Rq.
    { injection Rf as <-. apply andb_true_iff in Rq as [[Lo Ns]%andb_true_iff _]. apply negb_true_iff in Ns. destruct (cn_link c); [done|]. eauto 12. }
    destruct (_ && (MAX_STALE_HEIGHT_DIFFERENCE <? _) && _) eqn:Ht.
    { injection Rf as <-. apply andb_true_iff in Ht as [[Lo Ns]%andb_true_iff _]. destruct (cn_link c); [done|]. eauto 12. }
    destruct (existsb _ _) eqn:Ex.
    { injection Rf as <-. apply existsb_exists in Ex as ([b p] & Ib & Eb). cbn [snd] in Eb. apply elem_of_list_In, elem_of_map_to_list in Ib.
      destruct p as [|cb [ib|]|]; try done. apply andb_true_iff in Eb as [Ob Nb]. apply N.eqb_eq in Nb. pose proof (Sn b) as Sb. cbn beta in Sb. rewrite Ib in Sb.
      inversion Sb as [| | | |c' i' hb Ec If Ei Es]; subst. destruct If as (_ & _ & _ & _ & _ & _ & _ & _ & Nn & _).
      eexists _, _, _, m. split; [done|]. split; [exact C|]. exists (cn_addr cb), (cn_local cb), (he_msg hb), (he_wtxid hb), (he_acked hb).
      split; [|congruence]. rewrite <- St, <- Es. cbn. by destruct (cn_link cb). }
    destruct (_ && negb (has_services (vm_services m) (kc_preferred kcf)) && _) eqn:Pf.
    { injection Rf as <-. apply andb_true_iff in Pf as [[Lo Ns]%andb_true_iff _]. apply negb_true_iff in Ns. destruct (cn_link c); [done|]. right. eauto 12. }
    destruct (negb (ke_hook e a m)); [|done]. injection Rf as <-. eauto 10.
  - rewrite Ep in Sa. inversion Sa as [| | | |c' i' h Ec If Ei Es]; subst. assert (Ak : he_acked h = true). { destruct If as (_ & _ & _ & _ & _ & _ & _ & _ & _ & _ & K). by rewrite Si in K. }
    assert (Lk : link_of (cn_addr c) l = LOpen (cn_local c) (cn_link c) (Some (he_msg h, he_wtxid h, true))) by (rewrite <- St, <- Es; cbn; by rewrite Ak).
    split; [rewrite Lk; unfold is_open; eauto|]. right. split; [|rewrite Lk; eauto 6]. destruct Ek as [->| ->]; [by left|by right].
  - assert (Op : is_open (link_of a l)) by (by apply (connected_open _ _ a S)). destruct r; try done; try (split; [done|by eauto]). by left.
  - apply (timed_out _ _ _ _ _ _ _ _ _ _ _ _ _ Hh Fk Sk) in I as [-> Od]. right. split; [exact C|]. rewrite <- St.
    destruct (status_of a tr) as [|t|local lk since [h|]|]; cbn in Od |- *; try done; [by left| |]; right; [|eauto]. destruct Od as [Ak _]. rewrite Ak. eauto 8.
Qed.
(** These are always given up. *)
Theorem dropped_log l s o s' x a r : started l s -> fullstep o s = Val (s', x) -> KDrop a r ∈ omap to_peer (calls_of magic o x) ->
  (is_open (link_of a l) -> queued_by CPeer x = [IoDisconnect a r]) /\ (~ is_open (link_of a l) -> queued_by CPeer x = []).
Proof.
  intros S E Ik. pose proof (connected_open _ _ a S) as Co. destruct S as ((x0 & l' & ->) & L). pose proof (SC _ _ _ _ _ _ L E) as C.
  destruct (HL _ _ _ L) as (kos & tr & Hh & _ & St & PB). destruct (SS _ _ _ _ PB E) as [Sy _].
  destruct (one_peer H wenv_of magic hook Fo s o x Sy) as [Le _]. destruct (omap to_peer (calls_of magic o x)) as [|k [|? ?]]; [by apply elem_of_nil in Ik| |cbn in Le; lia].
  apply elem_of_list_singleton in Ik as <-. destruct C as (kos' & tr' & e & am1 & am2 & y & _ & _ & _ & Sk & Q & _).
  cbn [kstep] in Sk. unfold disconnect in Sk. rewrite Q. destruct (connected_at (w_peer (f_state s)) a) eqn:Cn.
  - split; [|intros N0; destruct N0; by apply Co]. intros _. by injection Sk as _ _ <-.
  - split; [intros Op; apply Co in Op; congruence|]. intros _. by injection Sk as _ _ <-.
Qed.

(** *** Handshakes *)
Lemma gives_up_call o x a r : gives_up magic a r (o, x) -> KDrop a r ∈ omap to_peer (calls_of magic o x).
Proof.
  assert (Ev : forall e, e ∈ announced x -> ToPeer (KDrop a r) ∈ event_calls e -> ToPeer (KDrop a r) ∈ calls_of magic o x).
  { intros e Ie Ic. apply elem_of_app. right. apply elem_of_list_In, in_flat_map. exists e. by rewrite <- !elem_of_list_In. }
  intros G. apply elem_of_list_omap. exists (ToPeer (KDrop a r)). split; [|reflexivity].
  destruct r; cbn [gives_up fst snd] in G; try done.
  all: try (subst o; apply elem_of_app; left; cbn; by left).
  all: repeat match goal with G : exists _, _ |- _ => destruct G as [? G] | G : _ /\ _ |- _ => destruct G as [? G] | G : _ \/ _ |- _ => destruct G as [G|G] end; subst.
  all: try (eapply Ev; [exact G|]; cbn; by left).
  apply elem_of_app; left. cbn. rewrite (proj2 (N.eqb_neq _ _) G). by left.
Qed.
Theorem gives_up_log l s o s' x a r : started l s -> fullstep o s = Val (s', x) -> gives_up magic a r (o, x) ->
  (is_open (link_of a l) -> queued_by CPeer x = [IoDisconnect a r]) /\ (~ is_open (link_of a l) -> queued_by CPeer x = []).
Proof. intros S E G%gives_up_call. exact (dropped_log l s o s' x a r S E G). Qed.

Lemma only_call l s o s' x k : started l s -> fullstep o s = Val (s', x) -> k ∈ omap to_peer (calls_of magic o x) ->
  exists kos tr e am1 am2 y, khistory kcf acf white kos tr (w_peer (f_state s)) am1 /\ fair_kop (k, e) /\ shown wenv_of (ke_now e) /\
    kstep kcf acf (k, e) (w_peer (f_state s), am1) = Val (w_peer (f_state s'), am2, y) /\
    queued_by CPeer x = snd <$> flat_map peer_io y /\ forall a, strip (status_of a tr) = link_of a l.
Proof.
  intros ((x0 & l' & ->) & L) E Ik. pose proof (SC _ _ _ _ _ _ L E) as C.
  destruct (HL _ _ _ L) as (kos & tr & Hh & _ & St & PB). destruct (SS _ _ _ _ PB E) as [Sy _].
  destruct (one_peer H wenv_of magic hook Fo s o x Sy) as [Le _]. destruct (omap to_peer (calls_of magic o x)) as [|k' [|? ?]]; [by apply elem_of_nil in Ik| |cbn in Le; lia].
  apply elem_of_list_singleton in Ik as <-. exact C.
Qed.
Lemma heard_call a m o (x : list (fitem wmsg wev)) : heard_in a m (o, x) ->
  match m with
  | WVersion v => KMessage a (MVersion v) ∈ omap to_peer (calls_of magic o x)
  | WVerack => KMessage a MVerack ∈ omap to_peer (calls_of magic o x)
  | WWtxidRelay => KMessage a MWtxidRelay ∈ omap to_peer (calls_of magic o x)
  | _ => True
  end.
Proof.
  unfold heard_in. cbn [snd]. intros I. destruct m; try done; apply elem_of_list_omap; (eexists (ToPeer _); split; [|reflexivity]); unfold calls_of; apply elem_of_app; right;
    apply elem_of_list_In, in_flat_map; eexists; (split; [by apply elem_of_list_In|]); cbn; auto.
Qed.
Theorem negotiated_log l s o s' x a lk sv pe ag rc he ve re wt : started l s -> fullstep o s = Val (s', x) ->
  IoEvent (WvPeer (KoNegotiated a lk sv pe ag rc he ve re wt)) ∈ queued_by CPeer x <->
  heard_in a WVerack (o, x) /\ exists local m, link_of a l = LOpen local lk (Some (m, wt, false)) /\ as_told kcf a m sv pe ag rc he ve re.
Proof.
  intros S E. split.
  - intros I. destruct (step_queued _ _ _ _ _ _ S E I) as (k & kos & tr & e & am1 & am2 & y & Ik & Hh & [Fk _] & _ & Sk & Q & St).
    pose proof (call_message _ _ _ _ _ _ S E Ik) as C. rewrite Q in I. apply in_event in I; [|done].
    destruct (negotiated_verack _ _ _ _ _ _ _ _ _ _ _ _ _ _ _ _ _ _ _ Sk I) as (-> & c & i & t & Ea & Si & -> & -> & -> & -> & -> & -> & -> & -> & ->).
    split; [exact C|]. pose proof (history_seen _ _ _ _ _ _ _ Hh a) as Sa. cbn beta in Sa. rewrite Ea in Sa. inversion Sa as [| | | |c' i' h Ec If Ei Es].
    unfold info in If. rewrite Si in If. destruct If as (I1 & I2 & I3 & I4 & I5 & I6 & I7 & I8 & I9 & [I10 _] & Ak & _).
    exists (cn_local c), (he_msg h). split; [|unfold as_told; done]. rewrite <- St, <- Es. cbn. by rewrite I6, Ak.
  - intros (Hd & local & m & Lk & T). destruct (only_call _ _ _ _ _ _ S E (heard_call _ _ _ _ Hd)) as (kos & tr & e & am1 & am2 & y & Hh & _ & _ & Sk & -> & St).
    apply in_event; [done|]. rewrite <- St in Lk. apply strip_open in Lk as (since & h' & Os & Eh). destruct h' as [h|]; [|done]. injection Eh as -> -> Ak. symmetry in Ak.
    pose proof (history_seen _ _ _ _ _ _ _ Hh a) as Sa. cbn beta in Sa. rewrite Os in Sa. inversion Sa as [| | | |c i h1 Ec If Ei Es]; subst.
    unfold info in If. destruct If as (I1 & I2 & I3 & I4 & I5 & I6 & I7 & I8 & I9 & [I10 _] & K). destruct (pi_state i) as [t|t] eqn:Si; [|congruence].
    pose proof (verack_out _ _ _ _ _ _ _ _ _ _ _ _ Sk (eq_sym Ei) Si) as V. destruct T as (_ & -> & -> & -> & -> & -> & -> & ->). by rewrite I1, I2, I3, I4, I5, I6, I7, I8 in V.
Qed.

(** *** Connections that were reported *)
Theorem events_log l s o s' x : started l s -> fullstep o s = Val (s', x) ->
  (forall a local lk, IoEvent (WvPeer (KoConnected a local lk)) ∈ queued_by CPeer x <-> o = WConnected a local lk) /\
  (forall a r, IoEvent (WvPeer (KoDisconnected a r)) ∈ queued_by CPeer x <-> o = WDisconnected a r /\ (is_open (link_of a l) \/ link_of a l = LClosing)) /\
  (forall a, IoEvent (WvPeer (KoFailed a)) ∈ queued_by CPeer x <-> o = WDisconnected a DConnection /\ link_of a l = LDialing).
Proof.
  intros S E.
  assert (Q : forall k : kout, reported k -> IoEvent (WvPeer k) ∈ queued_by CPeer x ->
    exists c kos tr e am1 am2 y, c ∈ omap to_peer (calls_of magic o x) /\ khistory kcf acf white kos tr (w_peer (f_state s)) am1 /\
    kstep kcf acf (c, e) (w_peer (f_state s), am1) = Val (w_peer (f_state s'), am2, y) /\ k ∈ y /\ forall a, strip (status_of a tr) = link_of a l).
  { intros k Rk I. destruct (step_queued _ _ _ _ _ _ S E I) as (c & kos & tr & e & am1 & am2 & y & Ik & Hh & _ & _ & Sk & Q & St). rewrite Q in I. apply in_event in I; [|done]. eauto 15. }
  assert (C0 : forall a local lk, o = WConnected a local lk -> KConnected a local lk ∈ omap to_peer (calls_of magic o x)).
  { intros a local lk ->. apply elem_of_list_omap. eexists (ToPeer _). split; [|reflexivity]. by left. }
  assert (D0 : forall a r, o = WDisconnected a r -> KDisconnected a r ∈ omap to_peer (calls_of magic o x)).
  { intros a r ->. apply elem_of_list_omap. eexists (ToPeer _). split; [|reflexivity]. by left. }
  split; [|split].
  - intros a local lk. split.
    + intros I. apply Q in I as (c & kos & tr & e & am1 & am2 & y & Ik & Hh & Sk & I & St); [|done]. pose proof (call_message _ _ _ _ _ _ S E Ik) as C.
      apply (proj1 (PeerEvents.events _ _ _ _ _ _ _ _ _ _ _ _ Hh Sk)) in I as ->. exact C.
    + intros Eo. destruct (only_call _ _ _ _ _ _ S E (C0 _ _ _ Eo)) as (kos & tr & e & am1 & am2 & y & Hh & _ & _ & Sk & -> & St).
      apply in_event; [done|]. by apply (proj1 (PeerEvents.events _ _ _ _ _ _ _ _ _ _ _ _ Hh Sk)).
  - intros a r. split.
    + intros I. apply Q in I as (c & kos & tr & e & am1 & am2 & y & Ik & Hh & Sk & I & St); [|done]. pose proof (call_message _ _ _ _ _ _ S E Ik) as C.
      apply (proj1 (proj2 (PeerEvents.events _ _ _ _ _ _ _ _ _ _ _ _ Hh Sk))) in I as [-> Os]. split; [exact C|]. rewrite <- St, strip_is_open. destruct (status_of a tr); try done; auto.
    + intros [Eo Os]. destruct (only_call _ _ _ _ _ _ S E (D0 _ _ Eo)) as (kos & tr & e & am1 & am2 & y & Hh & _ & _ & Sk & -> & St).
      apply in_event; [done|]. apply (proj1 (proj2 (PeerEvents.events _ _ _ _ _ _ _ _ _ _ _ _ Hh Sk))). split; [done|]. rewrite <- St, strip_is_open in Os. destruct (status_of a tr); try done; by destruct Os.
  - intros a. split.
    + intros I. apply Q in I as (c & kos & tr & e & am1 & am2 & y & Ik & Hh & Sk & I & St); [|done]. pose proof (call_message _ _ _ _ _ _ S E Ik) as C.
      apply (proj2 (proj2 (PeerEvents.events _ _ _ _ _ _ _ _ _ _ _ _ Hh Sk))) in I as [-> [t Os]]. split; [exact C|]. by rewrite <- St, Os.
    + intros [Eo Os]. destruct (only_call _ _ _ _ _ _ S E (D0 _ _ Eo)) as (kos & tr & e & am1 & am2 & y & Hh & _ & _ & Sk & -> & St).
      apply in_event; [done|]. apply (proj2 (proj2 (PeerEvents.events _ _ _ _ _ _ _ _ _ _ _ _ Hh Sk))). split; [done|]. rewrite <- St in Os. destruct (status_of a tr); try done. eauto.
Qed.

(** *** Where an open connection comes from *)
Definition tidy (p : wop * list (fitem wmsg wev)) : Prop :=
  announced p.2 = [] \/
  (exists e, announced p.2 = [e] /\ p.1 = WNext /\ forall a m, e <> WvMessage a m) \/
  exists a m, announced p.2 = [WvMessage a m] /\ p.1 = WReceived a magic m /\ hook a m = true.
Lemma says_tidy s o x : says magic hook s o x -> tidy (o, x).
Proof.
  unfold tidy. cbn [fst snd]. destruct o as [|b mg m'|b local lk|b r|b| |c|]; cbn [says]; try (by intros ->; left).
  - intros [(-> & -> & C & Hk)|[-> No]]; [right; right; by exists b, m'|by left].
  - intros [->|(e & -> & Pe)]; [by left|]. right. left. exists e. split; [done|]. split; [done|]. intros a m ->. by destruct Pe.
Qed.
Lemma log_tidy l : forall s, started l s -> Forall tidy l.
Proof.
  intros s ((x0 & l' & ->) & L). revert s L. induction l' as [|[o x] l' IH] using rev_ind; intros s L.
  - apply Forall_singleton. apply logged_cons in L as (s1 & E & L). cbn [fst snd] in E. assert (PB : plain_boxes s0) by (intros c; by apply Forall_nil).
    destruct (SS _ _ _ _ PB E) as [Sy _]. by apply says_tidy in Sy.
  - rewrite app_comm_cons in L |- *. apply logged_last in L as (s1 & L & E). apply Forall_app. split; [by eapply IH|]. apply Forall_singleton.
    destruct (HL _ _ _ L) as (kos & tr & Hh & _ & St & PB). destruct (SS _ _ _ _ PB E) as [Sy _]. by apply says_tidy in Sy.
Qed.
Lemma saw_open_out a q : forall st local lk h, fold_left (fun st y => saw_output a y st) q st = LOpen local lk h -> st = LOpen local lk h /\ forall r, IoDisconnect a r ∉ q.
Proof.
  induction q as [|y q IH]; intros st local lk h E; cbn [fold_left] in E; [split; [done|]; intros r I; by apply elem_of_nil in I|].
  apply IH in E as [E Nq]. destruct y; cbn [saw_output] in E.
  1,4,5: split; [done|]; intros r' [?|I]%elem_of_cons; [done|by apply Nq in I].
  - case_bool_decide; [done|]. split; [done|]. intros r' [?|I]%elem_of_cons; [done|by apply Nq in I].
  - case_bool_decide; [done|]. split; [done|]. intros r' [?|I]%elem_of_cons; [congruence|by apply Nq in I].
Qed.
Notation opened := (opened magic hook).
Lemma opened_ext a local lk h l p : opened a local lk h l -> ~ cut a p -> (forall m, ~ heard_in a m p) -> opened a local lk h (l ++ [p]).
Proof.
  intros (l1 & x1 & l2 & -> & N0 & Fc & Hh) Nc No. exists l1, x1, (l2 ++ [p]). split; [by rewrite <- app_assoc|]. split; [done|].
  split; [apply Forall_app; split; [done|by apply Forall_singleton]|]. destruct h as [[[m w] k]|].
  - destruct Hh as (l3 & y & l4 & -> & Hk & A & B & C). exists l3, y, (l4 ++ [p]). split; [by rewrite <- app_assoc|]. split; [done|].
    split; [apply Forall_app; split; [done|]; apply Forall_singleton; intros m0; apply No|]. split.
    + intros Ek. destruct (B Ek) as [B1 B2]. split; [apply Forall_app; split; [done|]; apply Forall_singleton; apply No|].
      rewrite B2, Exists_app, Exists_cons, Exists_nil. split; [by left|]. intros [?|[X|[]]]; [done|]. by apply No in X.
    + intros Ek. apply Exists_app. left. by apply C.
  - apply Forall_app. split; [done|]. apply Forall_singleton. intros m. apply No.
Qed.
Lemma opened_heard a local lk h l x m : opened a local lk h l -> (forall r, IoDisconnect a r ∉ queued_by CPeer x) -> announced x = [WvMessage a m] -> hook a m = true ->
  opened a local lk (hears m h) (l ++ [(WReceived a magic m, x)]).
Proof.
  intros (l1 & x1 & l2 & -> & N0 & Fc & Hh) Nd An Hk. set (p := (WReceived a magic m, x)).
  assert (Hd : forall m', heard_in a m' p <-> m' = m).
  { intros m'. unfold heard_in. cbn [p snd]. rewrite An, elem_of_list_singleton. split; [by intros [= ->]|by intros ->]. }
  exists l1, x1, (l2 ++ [p]). split; [by rewrite <- app_assoc|]. split; [done|]. split.
  { apply Forall_app. split; [done|]. apply Forall_singleton. intros [(? & ? & ?)|[(? & ?)|(r & I)]]; [done|done|by apply Nd in I]. }
  assert (Gen : (forall v, m <> WVersion v) -> m <> WVerack -> match h with
    | None => Forall (fun p => forall m, ~ heard_in a (WVersion m) p) (l2 ++ [p])
    | Some (m0, w, k) => exists l3 y l4, l2 ++ [p] = l3 ++ (WReceived a magic (WVersion m0), y) :: l4 /\ hook a (WVersion m0) = true /\
      Forall (fun p => forall m, ~ heard_in a (WVersion m) p) l4 /\
      (k = false -> Forall (fun p => ~ heard_in a WVerack p) l4 /\ (w || match m with WWtxidRelay => true | _ => false end = true <-> Exists (heard_in a WWtxidRelay) l4)) /\
      (k = true -> Exists (heard_in a WVerack) l4)
    end).
  { intros Nv Na. destruct h as [[[m0 w] k]|].
    - destruct Hh as (l3 & y & l4 & -> & Hk' & A & B & C). exists l3, y, (l4 ++ [p]). split; [by rewrite <- app_assoc|]. split; [done|].
      split; [apply Forall_app; split; [done|]; apply Forall_singleton; intros m1 X%Hd; by destruct (Nv m1)|]. split.
      + intros Ek. destruct (B Ek) as [B1 B2]. split; [apply Forall_app; split; [done|]; apply Forall_singleton; intros X%Hd; congruence|].
        assert (Rm : match m with WWtxidRelay => true | _ => false end = true <-> WWtxidRelay = m) by (by destruct m).
        rewrite orb_true_iff, B2, Exists_app, Exists_cons, Exists_nil, Hd, Rm. tauto.
      + intros Ek. apply Exists_app. left. by apply C.
    - apply Forall_app. split; [done|]. apply Forall_singleton. intros m1 X%Hd. by destruct (Nv m1). }
  destruct m as [v| | | | | | | | | ]; cbn [hears].
  all: try (specialize (Gen ltac:(done) ltac:(done)); destruct h as [[[m0 w] k]|]; [|exact Gen]; 
            first [rewrite orb_false_r in Gen; exact Gen | idtac]).
  - exists l2, x, []. split; [done|]. split; [done|]. split; [by apply Forall_nil|]. split; [|done]. intros _. split; [by apply Forall_nil|]. split; [done|]. by intros X%Exists_nil.
  - destruct h as [[[m0 w] k]|].
    + destruct Hh as (l3 & y & l4 & -> & Hk' & A & B & C). exists l3, y, (l4 ++ [p]). split; [by rewrite <- app_assoc|]. split; [done|].
      split; [apply Forall_app; split; [done|]; apply Forall_singleton; intros m1 X%Hd; done|]. split; [done|]. intros _. apply Exists_app. right. apply Exists_cons_hd. by apply Hd.
    + apply Forall_app. split; [done|]. apply Forall_singleton. intros m1 X%Hd. done.
  - destruct Gen as (l3 & y & l4 & E4 & Hk' & A & B & C). exists l3, y, l4. split; [done|]. split; [done|]. split; [done|]. split; [|done].
    intros ->. destruct (B eq_refl) as [B1 B2]. by split.
Qed.
Theorem open_log l s a local lk h : started l s -> link_of a l = LOpen local lk h -> opened a local lk h l.
Proof.
  intros S%log_tidy. revert local lk h. induction l as [|[o x] l IH] using rev_ind; intros local lk h; [done|]. rewrite link_snoc. unfold saw. cbn [fst snd].
  apply Forall_app in S as [S T]. specialize (IH S). intros [E Nd]%saw_open_out.
  assert (Nw : announced x = [] -> saw_input a o (link_of a l) = LOpen local lk h -> opened a local lk h (l ++ [(o, x)])).
  { intros An Ei.
    assert (Keep : link_of a l = LOpen local lk h -> ~ cut a (o, x) -> opened a local lk h (l ++ [(o, x)])).
    { intros El Nc. apply opened_ext; [by apply IH|done|]. unfold heard_in. cbn [snd]. rewrite An. intros m I. by apply elem_of_nil in I. }
    assert (Nc : (forall local l, o <> WConnected a local l) -> (forall r, o <> WDisconnected a r) -> ~ cut a (o, x)).
    { intros N1 N2 [(? & ? & X)|[(? & X)|(r & I)]]; cbn in *; [by apply N1 in X|by apply N2 in X|by apply Nd in I]. }
    destruct o as [|b mg m'|b local' lk'|b r|b| |c|]; cbn [saw_input] in Ei; try (by apply Keep; [|by apply Nc]).
    - case_bool_decide as D.
      + subst b. injection Ei as -> -> <-. exists l, x, []. split; [done|]. split; [done|]. split; by apply Forall_nil.
      + apply Keep; [done|]. apply Nc; [congruence|done].
    - case_bool_decide as D; [done|]. apply Keep; [done|]. apply Nc; [done|congruence]. }
  rewrite Forall_singleton in T. unfold tidy in T. destruct T as [An|[(e & An & Eo & Nm)|(b & m & An & Eo & Hk)]]; cbn [fst snd] in *; rewrite An in E; cbn [fold_left] in E; [by apply Nw| |]; subst o; cbn [saw_input] in E.
  - assert (link_of a l = LOpen local lk h) as El. { destruct e as [| |b m|y|y|e]; cbn [saw_event] in E; try done. by destruct (Nm b m). }
    apply opened_ext; [by apply IH| |].
    + intros [(? & ? & X)|[(? & X)|(r & I)]]; cbn in *; [done|done|by apply Nd in I].
    + unfold heard_in. cbn [snd]. rewrite An. intros m I. apply elem_of_list_singleton in I. by destruct (Nm a m).
  - cbn [saw_event] in E. case_bool_decide as D.
    + subst b. destruct (link_of a l) as [| |local' lk' h'|]; try done. injection E as -> -> <-. apply opened_heard; [by apply IH|done..].
    + apply opened_ext; [by apply IH| |].
      * intros [(? & ? & X)|[(? & X)|(r & I)]]; cbn in *; [done|done|by apply Nd in I].
      * unfold heard_in. cbn [snd]. rewrite An. intros m' I. apply elem_of_list_singleton in I. congruence.
Qed.

(** *** Replies about peers *)
Definition since_of (s : wstate) (a : sockaddr) : N := match pm_peers (w_peer (f_state s)) !! a with Some (Connected c _) => cn_since c | _ => 0 end.
Lemma since_shown l s a : started l s -> is_open (link_of a l) -> shown wenv_of (since_of s a).
Proof.
  intros ((x0 & l' & ->) & L) Op. destruct (HL _ _ _ L) as (kos & tr & Hh & Sh & St & _). rewrite <- St, strip_is_open in Op. destruct (status_of a tr) as [| |local lk since h|] eqn:Os; try done.
  pose proof (history_seen _ _ _ _ _ _ _ Hh a) as Sa. cbn beta in Sa. rewrite Os in Sa. destruct (open_origin _ _ _ _ _ _ Os) as (tr1 & y & tr2 & -> & _).
  apply Forall_app in Sh as [_ Sh]. apply Forall_cons in Sh as [Sh _]. unfold since_of. destruct (pm_peers (w_peer (f_state s)) !! a) as [[|c i|]|]; try (by inversion Sa). assert (cn_since c = since) as -> by (by inversion Sa). exact Sh.
Qed.
Definition listing (l : wlog) (s : wstate) (v : view) (k : bool) : Prop := exists m w,
  link_of (v_addr v) l = LOpen (v_local v) (v_link v) (Some (m, w, k)) /\
  v_since v = since_of s (v_addr v) /\ v_height v = to_height (vm_height m) /\ v_services v = vm_services m /\ v_agent v = vm_agent m /\ v_relay v = vm_relay m.
Lemma peers_listed l s : started l s ->
  NoDup ((fun p => v_addr (view_of p.1 p.2)) <$> peers_of wenv_of (f_state s)) /\
  forall v k, (exists p, p ∈ peers_of wenv_of (f_state s) /\ v = view_of p.1 p.2 /\ is_negotiated p.2 = k) <-> listing l s v k.
Proof.
  intros ((x0 & l' & ->) & L). destruct (HL _ _ _ L) as (kos & tr & Hh & _ & St & _). pose proof (history_seen _ _ _ _ _ _ _ Hh) as Sn. unfold peers_of.
  set (ord := ke_order _ _). assert (Po : ord ≡ₚ (map_to_list (pm_peers (w_peer (f_state s)))).*1) by apply Fw. clearbody ord.
  assert (Nd : NoDup ord) by (rewrite Po; apply NoDup_fst_map_to_list).
  assert (In : forall a, a ∈ ord <-> is_Some (pm_peers (w_peer (f_state s)) !! a)).
  { intros a. rewrite Po, elem_of_list_fmap. split; [intros ([b p] & -> & I%elem_of_map_to_list); by eexists|]. intros [p Ep]. exists (a, p). split; [done|by apply elem_of_map_to_list]. }
  split; [|intros v k; split].
  - clear In Po. induction Nd as [|a ord Na Nd IH]; [by apply NoDup_nil|]. cbn [omap list_omap].
    pose proof (Sn a) as Sa. cbn beta in Sa. destruct (pm_peers (w_peer (f_state s)) !! a) as [[|c [i|]|]|] eqn:Ea; try exact IH. cbn [fmap list_fmap]. apply NoDup_cons. split; [|exact IH].
    assert (Ca : cn_addr c = a) by (by inversion Sa). cbn [fst snd view_of v_addr]. rewrite Ca. intros I. apply Na. apply elem_of_list_fmap in I as ([c' i'] & Ec & I). cbn [fst snd view_of v_addr] in Ec.
    apply elem_of_list_omap in I as (b & Ib & Eb). pose proof (Sn b) as Sb. cbn beta in Sb. destruct (pm_peers (w_peer (f_state s)) !! b) as [[|c1 [i1|]|]|]; try done. injection Eb as -> ->.
    assert (cn_addr c' = b) by (by inversion Sb). congruence.
  - intros ([c i] & I & -> & <-). cbn [fst snd].
    apply elem_of_list_omap in I as (b & _ & Eb). pose proof (Sn b) as Sb. cbn beta in Sb. destruct (pm_peers (w_peer (f_state s)) !! b) as [[|c1 [i1|]|]|] eqn:Ep; try done. injection Eb as -> ->.
    inversion Sb as [| | | |c' i' h Ec If Ei Es]; subst. destruct If as (I1 & I2 & I3 & I4 & I5 & I6 & I7 & I8 & I9 & _ & K).
    exists (he_msg h), (he_wtxid h). cbn [view_of v_addr v_local v_link v_since v_height v_services v_agent v_relay]. unfold since_of. rewrite Ep. split; [|done]. rewrite <- St, <- Es. cbn [strip fmap option_fmap option_map]. unfold is_negotiated. destruct (pi_state i); [by destruct K as [-> _]|by rewrite K].
  - intros (m & w & Lk & E1 & E2 & E3 & E4 & E5). rewrite <- St in Lk. apply strip_open in Lk as (since & h' & Os & Eh). destruct h' as [h|]; [|done]. injection Eh as -> -> ->.
    pose proof (Sn (v_addr v)) as Sa. cbn beta in Sa. rewrite Os in Sa. inversion Sa as [| | | |c i h1 Ec If Ei Es]; subst.
    exists (c, i). split; [apply elem_of_list_omap; exists (v_addr v); split; [apply In; by rewrite <- Ei|by rewrite <- Ei]|].
    destruct If as (I1 & I2 & I3 & I4 & I5 & I6 & I7 & I8 & I9 & _ & K). cbn [fst snd]. split.
    + unfold since_of in E1. rewrite <- Ei in E1. destruct v; unfold view_of; cbn in *. congruence.
    + unfold is_negotiated. destruct (pi_state i); [by destruct K as [-> _]|done].
Qed.
Theorem asked_log l s sv s' q r : started l s -> exec H scf P kcf acf env wenv_of (CmdGetPeers sv) (f_state s) = Val (s', q, r) ->
  s' = f_state s /\ q = [] /\ exists vs, r = RpPeers vs /\ lists wenv_of l (fun v k => k = true /\ has_services (v_services v) sv = true) vs.
Proof.
  intros S [= <- <- <-]. split; [done|]. split; [done|]. eexists. split; [done|]. destruct (peers_listed _ _ S) as [Nd Pl]. split.
  { rewrite <- list_fmap_compose. eapply sub_NoDup; [|exact Nd]. apply fmap_sublist. apply filter_sub. }
  exists (since_of s). split; [intros a; by apply since_shown|]. intros v. rewrite elem_of_list_fmap. split.
  - intros (p & Ev & I). apply elem_of_list_In, filter_In in I as [I B]. apply elem_of_list_In in I. apply andb_true_iff in B as [B1 B2].
    destruct (proj1 (Pl v true) (ex_intro _ p (conj I (conj Ev B1)))) as (m & w & Q1 & Q2 & Q3 & Q4 & Q5 & Q6). exists m, w, true. do 6 (split; [done|]). split; [done|]. by rewrite Ev.
  - intros (m & w & k & Q1 & Q2 & Q3 & Q4 & Q5 & Q6 & -> & Sv).
    destruct (proj2 (Pl v true)) as (p & I & Ev & Ng); [exists m, w; done|]. exists p. split; [done|]. apply elem_of_list_In, filter_In. split; [by apply elem_of_list_In|]. rewrite Ng. subst v. exact Sv.
Qed.
Theorem broadcast_log l s m pred s' q r : started l s -> exec H scf P kcf acf env wenv_of (CmdBroadcast m pred) (f_state s) = Val (s', q, r) ->
  exists vs, lists wenv_of l (fun v _ => pred v = true) vs /\ s' = f_state s /\ q = (fun v => (CMain, IoWrite (v_addr v) m)) <$> vs /\ r = RpSent (v_addr <$> vs).
Proof.
  intros S [= <- <- <-]. eexists. split; [|done]. destruct (peers_listed _ _ S) as [Nd Pl]. split.
  { change (fun p => v_addr (view_of p.1 p.2)) with (v_addr ∘ (fun p => view_of p.1 p.2)) in Nd. rewrite list_fmap_compose in Nd. eapply sub_NoDup; [|exact Nd]. apply fmap_sublist. apply filter_sub. }
  exists (since_of s). split; [intros a; by apply since_shown|]. intros v. rewrite elem_of_list_In, filter_In, <- elem_of_list_In, elem_of_list_fmap. split.
  - intros [(p & Ev & I) B]. destruct (proj1 (Pl v _) (ex_intro _ p (conj I (conj Ev eq_refl)))) as (m0 & w & Q1 & Q2 & Q3 & Q4 & Q5 & Q6). by exists m0, w, (is_negotiated p.2).
  - intros (m0 & w & k & Q1 & Q2 & Q3 & Q4 & Q5 & Q6 & B). split; [|done]. destruct (proj2 (Pl v k)) as (p & I & Ev & Ng); [by exists m0, w|]. by exists p.
Qed.

(** *** Who is dialled *)
Theorem dial_log l s o s' x a : sane kcf -> started l s -> fullstep o s = Val (s', x) -> IoConnect a ∈ queued_by CPeer x ->
  domain_ok kcf a /\
  (link_of a l = LIdle \/ link_of a l = LClosing \/ (exists r, o = WDisconnected a r) \/ (o = WTimer /\ IoDisconnect a RTimeout ∈ queued_by CPeer x)) /\
  (o = WCommand (CmdConnect a) \/ (a ∈ kc_persistent kcf /\ (o = WInitialize \/ o = WTimer)) \/
   (kc_persistent kcf = [] /\ (o = WInitialize \/ o = WTimer \/ exists b r, o = WDisconnected b r) /\ exists src sv, IoEvent (WvPeer (KoConnecting a src sv)) ∈ queued_by CPeer x)).
Proof.
  intros Sa S E I. destruct (step_queued _ _ _ _ _ _ S E I) as (k & kos & tr & e & am1 & am2 & y & Ik & Hh & Fk & _ & Sk & Q & St).
  pose proof (call_message _ _ _ _ _ _ S E Ik) as C. rewrite Q in I |- *. apply in_connect in I.
  pose proof (step_dials _ _ _ _ _ _ _ _ _ _ _ _ _ Hh Sa Fk Sk I) as (Dm & Nb & _ & Wy). split; [exact Dm|]. split.
  - destruct Nb as [Nb|[-> Od]].
    + rewrite <- St. unfold status_of in Nb. rewrite fold_left_app in Nb. fold (status_of a tr) in Nb. cbn [fold_left] in Nb. unfold observe in Nb. cbn [fst snd fold_left] in Nb.
      destruct k as [|b local lk|b r|b m|b r| |b|o' ae]; cbn [observe_op] in Nb; try (by destruct (status_of a tr); cbn in *; auto; destruct Nb).
      * case_bool_decide; [by destruct Nb|]. by destruct (status_of a tr); cbn in *; auto; destruct Nb.
      * case_bool_decide; [subst b; right; right; left; eauto|]. by destruct (status_of a tr); cbn in *; auto; destruct Nb.
      * case_bool_decide; by destruct (status_of a tr); cbn in *; auto; destruct Nb.
    + right. right. right. split; [exact C|]. apply in_disconnect. by apply (timed_out _ _ _ _ _ _ _ _ _ _ _ _ _ Hh (proj1 Fk) Sk).
  - destruct Wy as [-> |[[Pa [-> | ->]]|(src & sv & J)]]; [by left|right; left; auto..|]. right. right.
    destruct (step_dials _ _ _ _ _ _ _ _ _ _ _ _ _ Hh Sa Fk Sk J) as (Np & Rf & _). split; [done|]. split.
    + destruct k as [|b local lk|b r|b m|b r| |b|o' ae]; try done; [by left|right; right; eauto|by right; left].
    + exists src, sv. by apply in_event.
Qed.
Theorem dial_asked_log l s s' x a : started l s -> fullstep (WCommand (CmdConnect a)) s = Val (s', x) ->
  (domain_ok kcf a /\ (link_of a l = LIdle \/ link_of a l = LClosing) -> queued_by CPeer x = [IoConnect a; IoTimer 6000]) /\
  (~ domain_ok kcf a \/ link_of a l = LDialing \/ is_open (link_of a l) -> queued_by CPeer x = []).
Proof.
  intros S E. destruct (only_call _ _ _ _ _ (KConnect a) S E) as (kos & tr & e & am1 & am2 & y & Hh & _ & _ & Sk & -> & St).
  { apply elem_of_list_omap. eexists (ToPeer _). split; [|reflexivity]. by left. }
  pose proof (dialled_asked _ _ _ _ _ _ _ _ _ _ _ _ Hh Sk) as [A B]. rewrite <- St. split.
  - intros [Dm Lk]. rewrite A; [done|]. split; [done|]. clear A B Hh St. destruct (status_of a tr); cbn in *; intros Bz; destruct Lk; done.
  - intros Lk. rewrite B; [done|]. destruct Lk as [?|Lk]; [by left|right]. rewrite strip_is_open in Lk. clear A B Hh St. destruct (status_of a tr); cbn in *; destruct Lk; done.
Qed.

(** *** What we say of ourselves *)
Lemma call_version (k : kop) (st : full) (a : sockaddr) (m : vmsg) : forall st2 q, call_peer kcf acf wenv_of k st = Val (st2, q) -> IoWrite a (WVersion m) ∈ snd <$> q ->
  (exists local, k = KConnected a local Outbound /\ greets kcf a local (ke_nonce (we_peer (wenv_of (w_calls st)))) (c_height (n_cache (w_node st))) (ke_now (we_peer (wenv_of (w_calls st)))) m) \/
  (exists v c i, k = KMessage a (MVersion v) /\ pm_peers (w_peer st) !! a = Some (Connected c i) /\ (cn_addr c = a -> cn_link c = Inbound /\
     greets kcf a (cn_local c) (vm_nonce v) (c_height (n_cache (w_node st))) (ke_now (we_peer (wenv_of (w_calls st)))) m)) \/
  (exists v c i b, k = KMessage b (MVersion v) /\ pm_peers (w_peer st) !! b = Some (Connected c i) /\ cn_addr c <> b) \/
  ((forall b local, k <> KConnected b local Outbound) /\ forall b v, k <> KMessage b (MVersion v)).
Proof.
  intros st2 q E I. unfold call_peer in E. destruct (kstep kcf acf (k, kenv_at wenv_of st) (w_peer st, w_addr st)) as [[[p1 am1] y]|] eqn:Ek; cbn [mbind_M] in E; [|done]. injection E as <- <-.
  apply in_peer_io in I as (z & Iz & Jz). assert (z = KoVersion a m) as ->. { destruct z; cbn in Jz; try (by apply elem_of_nil in Jz); apply elem_of_list_singleton in Jz; try done. by injection Jz as -> ->. }
  destruct k as [|b local l|b r|b v|b r| |b|o ae]; cbn [kstep] in Ek; try (by do 3 right).
  - destruct l; [by do 3 right|]. left. cbn in Ek. injection Ek as _ _ <-. apply elem_of_cons in Iz as [Iz|Iz]; [|exfalso; repeat (apply elem_of_cons in Iz as [Iz|Iz]; [done|]); by apply elem_of_nil in Iz].
    injection Iz as -> ->. exists local. split; [done|]. apply mk_greets.
  - destruct v as [v| | |]; try (by do 3 right). injection Ek as _ _ <-. unfold received_version in Iz.
    destruct (pm_peers (w_peer st) !! b) as [[|c i|]|] eqn:Eb; try (by apply elem_of_nil in Iz). destruct (decide (cn_addr c = b)) as [Ec|Nc]; [|right; right; left; eauto 8].
    destruct (refuses kcf _ b c v _); cbn [snd do_disconnect] in Iz; [by apply elem_of_list_singleton in Iz|]. rewrite Ec in Iz.
    destruct (cn_link c) eqn:El; cbn [is_inbound app] in Iz; [|exfalso; repeat (apply elem_of_cons in Iz as [Iz|Iz]; [done|]); by apply elem_of_nil in Iz].
    apply elem_of_cons in Iz as [Iz|Iz]; [|exfalso; repeat (apply elem_of_cons in Iz as [Iz|Iz]; [done|]); by apply elem_of_nil in Iz].
    injection Iz as -> ->. right. left. exists v, c, i. split; [done|]. split; [done|]. intros _. split; [done|]. apply mk_greets.
Qed.
Lemma queued_comp c (x : list (comp * io wmsg wev)) z : z ∈ queued_by c (fqueued x) -> z ∈ snd <$> x.
Proof.
  unfold queued_by, fqueued. intros I. induction x as [|[c' y] x IH]; [done|]. cbn [map flat_map fst snd fmap list_fmap] in *.
  apply elem_of_app in I as [I|I]; [|right; by apply IH]. destruct (decide (c' = c)); [apply elem_of_list_singleton in I as ->; by left|by apply elem_of_nil in I].
Qed.
Theorem greet_log l s o s' x a m : started l s -> fullstep o s = Val (s', x) -> IoWrite a (WVersion m) ∈ queued_by CPeer x ->
  exists local nonce t, greets kcf a local nonce (c_height (n_cache (w_node (f_state s)))) t m /\ shown wenv_of t /\
    (o = WConnected a local Outbound \/ exists v h, heard_in a (WVersion v) (o, x) /\ nonce = vm_nonce v /\ link_of a l = LOpen local Inbound h).
Proof.
  intros S E I. destruct (step_queued _ _ _ _ _ _ S E I) as (k & kos & tr & e & am1 & am2 & y & Ik & Hh & Fk & _ & Sk & Q & St).
  pose proof (call_message _ _ _ _ _ _ S E Ik) as C. pose proof (history_seen _ _ _ _ _ _ _ Hh) as Sn.
  pose proof I as I'. rewrite Q in I'. apply in_peer_io in I' as (z & Iz & Jz).
  assert (z = KoVersion a m) as ->. { destruct z; cbn in Jz; try (by apply elem_of_nil in Jz); apply elem_of_list_singleton in Jz; try done. by injection Jz as -> ->. }
  clear Q. destruct (said _ _ _ _ _ _ _ _ _ _ _ _ _ _ Hh Sk Iz) as (local & nonce & _ & [[-> _]|(v & since & h & -> & _ & Os)]); cbn beta iota in C.
  - subst o. unfold full_step in E. cbn [wop_fop fstep] in E. destruct (call_peer kcf acf wenv_of (KConnected a local Outbound) (f_state s)) as [[st2 q]|] eqn:Ec; cbn [mbind_M] in E; [|done].
    injection E as <- <-. apply queued_comp in I. destruct (call_version _ _ _ _ _ _ Ec I) as [(lo & Ek & G)|[(v & c & i & Ek & _)|[(v & c & i & b & Ek & _)|[N1 _]]]]; try done; [|by destruct (N1 a local)].
    injection Ek as <-. eexists _, _, _. split; [exact G|]. split; [by eexists|by left].
  - pose proof C as C'. apply (passed _ _ _ _ _ _ _ S E) in C' as (-> & Op & Hk). unfold full_step in E. cbn [wop_fop] in E. unfold received_fop in E. rewrite N.eqb_refl in E. cbn [negb] in E.
    rewrite (proj2 (connected_open _ _ a S) Op), Hk in E. cbn [negb fstep event receivers deliver FullModel.on_event node_view ping_event addr_event peer_event_of skip mbind_M f_state] in E.
    unfold event, receivers in E. cbn [deliver FullModel.on_event node_view ping_event addr_event peer_event_of skip mbind_M f_state] in E. unfold skip in E. cbn [mbind_M f_state] in E.
    destruct (call_addr acf wenv_of (AMessage a) (f_state s)) as [[st1 q1]|] eqn:Ea; cbn [mbind_M f_state] in E; [|done].
    destruct (call_peer kcf acf wenv_of (KMessage a (MVersion v)) st1) as [[st2 q2]|] eqn:Ec; cbn [mbind_M f_state] in E; [|done].
    injection E as <- <-. cbn [app] in I. rewrite app_nil_r in I. rewrite queued_by_app in I. apply elem_of_app in I as [I|I]; [|by apply elem_of_nil in I].
    assert (Q1 : w_node st1 = w_node (f_state s) /\ w_peer st1 = w_peer (f_state s) /\ exists z, q1 = flat_map addr_io z).
    { unfold call_addr in Ea. destruct (addr_step _ _ _) as [[am3 z]|]; cbn [mbind_M] in Ea; [|done]. injection Ea as <- <-. eauto. }
    destruct Q1 as (W1 & W2 & z & ->). unfold fqueued in I. rewrite map_app in I. change (IoWrite a (WVersion m) ∈ queued_by CPeer (fqueued (flat_map addr_io z) ++ fqueued q2)) in I.
    rewrite queued_by_app in I. apply elem_of_app in I as [I|I].
    { exfalso. apply queued_comp in I. apply elem_of_list_fmap in I as ([c0' y0] & E0 & I). cbn [snd] in E0. subst y0. apply elem_of_list_In, in_flat_map in I as (z0 & _ & I). apply elem_of_list_In in I.
      destruct z0; cbn in I; repeat (apply elem_of_cons in I as [I|I]; [done|]); by apply elem_of_nil in I. }
    apply queued_comp in I. destruct (call_version _ _ _ _ _ _ Ec I) as [(lo & Ek & G)|[(v' & c & i & Ek & Ep & G)|[(v' & c & i & b & Ek & Ep & Nc)|[_ N1]]]]; [done| | |by destruct (N1 a v)].
    + injection Ek as <-. rewrite W2 in Ep. pose proof (Sn a) as Sa. cbn beta in Sa. rewrite Ep in Sa. destruct G as [Li G]; [by inversion Sa|]. rewrite W1 in G.
      exists local, (vm_nonce v), (ke_now (we_peer (wenv_of (w_calls st1)))). rewrite Os in Sa. assert (cn_local c = local) as <- by (by inversion Sa). split; [exact G|]. split; [by eexists|]. right.
      exists v, ((fun h => (he_msg h, he_wtxid h, he_acked h)) <$> h). split; [exact C|]. split; [done|]. rewrite <- St, Os. done.
    + exfalso. injection Ek as <- <-. rewrite W2 in Ep. pose proof (Sn a) as Sa. cbn beta in Sa. rewrite Ep in Sa. by inversion Sa.
Qed.
End Linked.
