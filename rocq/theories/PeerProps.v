(** Properties of the peer manager. *)
From Verif Require Import Base AddrModel AddrSpec AddrProps PeerModel PeerSpec PeerProofs PeerMain PeerFacts PeerMore PeerRetry PeerEvents PeerDial.
Open Scope N_scope.

(** Concrete cases: run, then look at one more step. *)
Lemma ex_peer cf acf white e0 e1 aos os oe (P : ktrace -> list kout -> Prop) : fair_aenv e0 -> fair_aenvs aos -> Forall fair_kop os ->
  match addr_new e0 ∅ with
  | Val s0 =>
      match addr_step acf (AInitialize, e1) s0 with
      | Val (s1, _) =>
          match addr_run acf aos s1 with
          | Val (am0, _) =>
              match krun cf acf os (pm_new white, am0) with
              | Val (s, am, tr) => match kstep cf acf oe (s, am) with Val (_, _, x) => P tr x | _ => False end
              | _ => False
              end
          | _ => False
          end
      | _ => False
      end
  | _ => False
  end ->
  exists tr s am s' am' x, khistory cf acf white os tr s am /\ kstep cf acf oe (s, am) = Val (s', am', x) /\ P tr x.
Proof.
  intros F0 Fa Fs H. destruct (addr_new e0 ∅) as [s0|] eqn:E0; [|done]. destruct (addr_step acf (AInitialize, e1) s0) as [[s1 x1]|] eqn:E1; [|done].
  destruct (addr_run acf aos s1) as [[am0 xs]|] eqn:E2; [|done]. destruct (krun cf acf os (pm_new white, am0)) as [[[s am] tr]|] eqn:E3; [|done].
  destruct (kstep cf acf oe (s, am)) as [[[s' am'] x]|] eqn:E4; [|done]. exists tr, s, am, s', am', x. split; [|split; [exact E4|exact H]]. split; [|exact Fs].
  exists ∅, (ae_now e1), aos, am0. split; [|exact E3]. exists e0, e1, s0, s1, x1, xs. split; [exact F0|]. split; [exact Fa|]. split; [exact E0|]. split; [done|]. split; [exact E1|exact E2].
Qed.
Definition ex_kenv (now nonce : N) : kenv := KEnv now 100 nonce (fun _ _ => true) (fun l => l) (fun _ => ex_aenv now).
Lemma fair_kex o now nonce : match o with KAddr _ _ => False | _ => True end -> fair_kop (o, ex_kenv now nonce).
Proof. intros H. split; [split; [done|]; intros n; apply fair_ex|by destruct o]. Qed.
Ltac fair_kall := repeat (apply Forall_cons; split; [by apply fair_kex|]); apply Forall_nil; exact I.
(** Target three connections, at most two inbound, delays of one second to a
    minute; services 1 are required, 9 preferred. *)
Definition ex_kcf (persistent : list sockaddr) : kconf := KConf 70016 ∅ 9 persistent 1 9 3 2 60000 1000 7 true false.
Definition me : sockaddr := ((true, v4 22 22 22 22), 8333).
Definition hi (nonce services : N) : vmsg := VMsg 70015 services 1000000 (mk_address me 0) (mk_address alice services) nonce 3 100 true.
Lemma ex_sane l : sane (ex_kcf l).
Proof. by split. Qed.

(** ** C44 *)
(** A peer is reported negotiated only when its [verack] comes, on a
    connection on which it had sent [version] with a high enough version, with
    neither [version] nor [verack] in between; what is reported is what that
    message said. *)
Theorem C44_order cf acf white os tr s am o e s' am' x a l sv pe ag rc he ve re wt : khistory cf acf white os tr s am -> fair_kop (o, e) ->
  kstep cf acf (o, e) (s, am) = Val (s', am', x) -> KoNegotiated a l sv pe ag rc he ve re wt ∈ x ->
  o = KMessage a MVerack /\
  exists tr1 local since x1 tr2 m t2 x2 tr3,
    tr = tr1 ++ (KConnected a local l, since, x1) :: tr2 ++ (KMessage a (MVersion m), t2, x2) :: tr3 /\
    (forall r, KoDisconnect a r ∉ x1) /\ Forall (fun t => ~ cuts a t) (tr2 ++ (KMessage a (MVersion m), t2, x2) :: tr3) /\
    Forall (fun t => t.1.1 <> KMessage a MVerack /\ forall m, t.1.1 <> KMessage a (MVersion m)) tr3 /\
    70012 <= vm_version m /\
    sv = vm_services m /\ ag = vm_agent m /\ rc = vm_receiver m /\ he = to_height (vm_height m) /\ ve = N.min (kc_version cf) (vm_version m) /\ re = vm_relay m /\
    (wt = true <-> Exists (fun t => t.1.1 = KMessage a MWtxidRelay) tr3) /\ (pe = true <-> a ∈ kc_persistent cf).
Proof. exact (handshake_order cf acf white os tr s am o e s' am' x a l sv pe ag rc he ve re wt). Qed.
Print Assumptions C44_order.

Example C44_case : exists tr s am s' am' x,
  khistory (ex_kcf []) ex_acf ∅
    [(KConnected alice me Outbound, ex_kenv (T + 1) 11); (KMessage alice (MVersion (hi 12 9)), ex_kenv (T + 2) 0); (KMessage alice MWtxidRelay, ex_kenv (T + 3) 0)] tr s am /\
  kstep (ex_kcf []) ex_acf (KMessage alice MVerack, ex_kenv (T + 4) 0) (s, am) = Val (s', am', x) /\
  x = [KoNegotiated alice Outbound 9 false 3 (mk_address me 0) 100 70015 true true; KoOffset alice 0].
Proof.
  apply (ex_peer (ex_kcf []) ex_acf ∅ (ex_aenv 0) (ex_aenv T) [] _ _ (fun _ x => _)); [apply fair_ex|by apply Forall_nil|fair_kall|]. vm_compute. reflexivity.
Qed.

(** A [version] message is sent when we connected to a peer, and in reply to
    that of a peer that connected to us; it says what it should. *)
Theorem C44_content cf acf white os tr s am o e s' am' x a m : khistory cf acf white os tr s am -> kstep cf acf (o, e) (s, am) = Val (s', am', x) -> KoVersion a m ∈ x ->
  exists local nonce, greets cf a local nonce (ke_height e) (ke_now e) m /\
    ((o = KConnected a local Outbound /\ nonce = ke_nonce e) \/
     (exists v since h, o = KMessage a (MVersion v) /\ nonce = vm_nonce v /\ status_of a tr = Open local Inbound since h)).
Proof. exact (said cf acf white os tr s am o e s' am' x a m). Qed.
Print Assumptions C44_content.
Theorem C44_greeted cf acf white os tr s am e s' am' x a local : khistory cf acf white os tr s am -> kstep cf acf (KConnected a local Outbound, e) (s, am) = Val (s', am', x) ->
  exists m, x = [KoVersion a m; KoTimer 12000; KoConnected a local Outbound] /\ greets cf a local (ke_nonce e) (ke_height e) (ke_now e) m.
Proof. exact (greeted cf acf white os tr s am e s' am' x a local). Qed.
Print Assumptions C44_greeted.
(** With the end of the handshake the clock is told how far the peer's clock
    was off when its [version] came. *)
Theorem C44_offset cf acf white os tr s am e s' am' x a local l since h : khistory cf acf white os tr s am -> status_of a tr = Open local l since (Some h) -> he_acked h = false ->
  (-2 ^ 62 <= vm_timestamp (he_msg h) < 2 ^ 62)%Z -> he_time h / 1000 < 2 ^ 32 ->
  kstep cf acf (KMessage a MVerack, e) (s, am) = Val (s', am', x) ->
  exists y, x = [y; KoOffset a (vm_timestamp (he_msg h) - Z.of_N (he_time h / 1000))] /\ exists sv pe ag rc he ve re wt, y = KoNegotiated a l sv pe ag rc he ve re wt.
Proof. exact (offsets cf acf white os tr s am e s' am' x a local l since h). Qed.
Print Assumptions C44_offset.
Example C44_offset_case : exists tr s am s' am' x,
  khistory (ex_kcf []) ex_acf ∅
    [(KConnected alice me Outbound, ex_kenv 5000 11); (KMessage alice (MVersion (hi 12 9)), ex_kenv 1007000 0); (KMessage alice MWtxidRelay, ex_kenv 1008000 0)] tr s am /\
  kstep (ex_kcf []) ex_acf (KMessage alice MVerack, ex_kenv 1009000 0) (s, am) = Val (s', am', x) /\
  (status_of alice tr = Open me Outbound 5000 (Some (Hello (hi 12 9) 1007000 true false)) /\ last x = Some (KoOffset alice 998993%Z)).
Proof.
  apply (ex_peer (ex_kcf []) ex_acf ∅ (ex_aenv 0) (ex_aenv T) [] _ _ (fun _ x => _)); [apply fair_ex|by apply Forall_nil|fair_kall|]. vm_compute. split; reflexivity.
Qed.

(** A peer can be reported negotiated twice on one connection: a second
    [version] starts over. *)
Theorem C44_again_refuted : exists os tr s am s' am' x t1 t2 t3,
  khistory (ex_kcf []) ex_acf ∅ os tr s am /\
  kstep (ex_kcf []) ex_acf (KMessage alice MVerack, ex_kenv (T + 5) 0) (s, am) = Val (s', am', x) /\
  (tr = [t1; t2; (KMessage alice MVerack, T + 3, [KoNegotiated alice Outbound 9 false 3 (mk_address me 0) 100 70015 true false; KoOffset alice 0]); t3] /\
   (forall o, o ∈ t3.2 -> match o with KoDisconnect _ _ => False | _ => True end) /\
   t3.1.1 = KMessage alice (MVersion (hi 13 9)) /\
   x = [KoNegotiated alice Outbound 9 false 3 (mk_address me 0) 100 70015 true false; KoOffset alice 0]).
Proof.
  set (t1 := (KConnected alice me Outbound, T + 1, [KoVersion alice (mk_version (ex_kcf []) alice me 11 100 (T + 1)); KoTimer HANDSHAKE_TIMEOUT; KoConnected alice me Outbound])).
  set (y := [KoWtxidRelay alice; KoVerack alice; KoSendHeaders alice; KoTimer HANDSHAKE_TIMEOUT]).
  destruct (ex_peer (ex_kcf []) ex_acf ∅ (ex_aenv 0) (ex_aenv T) []
    [(KConnected alice me Outbound, ex_kenv (T + 1) 11); (KMessage alice (MVersion (hi 12 9)), ex_kenv (T + 2) 0); (KMessage alice MVerack, ex_kenv (T + 3) 0);
     (KMessage alice (MVersion (hi 13 9)), ex_kenv (T + 4) 0)] (KMessage alice MVerack, ex_kenv (T + 5) 0)
    (fun tr x => tr = [t1; (KMessage alice (MVersion (hi 12 9)), T + 2, y); (KMessage alice MVerack, T + 3, [KoNegotiated alice Outbound 9 false 3 (mk_address me 0) 100 70015 true false; KoOffset alice 0]);
                       (KMessage alice (MVersion (hi 13 9)), T + 4, y)] /\
                 x = [KoNegotiated alice Outbound 9 false 3 (mk_address me 0) 100 70015 true false; KoOffset alice 0])) as (tr & s & am & s' & am' & x & A & B & C & D).
  - apply fair_ex.
  - by apply Forall_nil.
  - fair_kall.
  - vm_compute. by split.
  - eexists _, tr, s, am, s', am', x, t1, (KMessage alice (MVersion (hi 12 9)), T + 2, y), (KMessage alice (MVersion (hi 13 9)), T + 4, y).
    split; [exact A|]. split; [exact B|]. split; [exact C|]. split; [|split; [done|exact D]].
    intros o I. cbn in I. unfold y in I. repeat (apply elem_of_cons in I as [->|I]; [done|]). by apply elem_of_nil in I.
Qed.
Print Assumptions C44_again_refuted.

(** ** C45 *)
(** A peer with too low a version, an outbound peer without the required
    services that is not trusted, or one with the nonce of an outbound peer, is
    disconnected, *)
Theorem C45_refused cf acf white os tr s am a local l since h m e s' am' x : khistory cf acf white os tr s am -> status_of a tr = Open local l since h ->
  kstep cf acf (KMessage a (MVersion m), e) (s, am) = Val (s', am', x) ->
  vm_version m < 70012 \/
  (l = Outbound /\ has_services (vm_services m) (kc_required cf) = false /\ ~ trusted cf white tr a (vm_agent m)) \/
  (exists b lb sb hb, status_of b tr = Open lb Outbound sb (Some hb) /\ vm_nonce (he_msg hb) = vm_nonce m) ->
  exists r, x = [KoDisconnect a r].
Proof. exact (version_refused cf acf white os tr s am a local l since h m e s' am' x). Qed.
Print Assumptions C45_refused.
(** in fact exactly the peers with a reason to be turned away are; the others
    are greeted. *)
Theorem C45_exact cf acf white os tr s am a local l since h m e s' am' x : khistory cf acf white os tr s am -> status_of a tr = Open local l since h ->
  (-2 ^ 31 <= vm_height m < 2 ^ 31)%Z -> ke_height e < 2 ^ 63 -> kstep cf acf (KMessage a (MVersion m), e) (s, am) = Val (s', am', x) ->
  (unwelcome cf white tr a l m (ke_height e) (ke_hook e a m) /\ exists r, x = [KoDisconnect a r]) \/
  (~ unwelcome cf white tr a l m (ke_height e) (ke_hook e a m) /\
   exists v, x = match l with Inbound => [KoVersion a v] | Outbound => [] end ++ [KoWtxidRelay a; KoVerack a; KoSendHeaders a; KoTimer 12000]).
Proof. exact (version_exact cf acf white os tr s am a local l since h m e s' am' x). Qed.
Print Assumptions C45_exact.
(** and a peer that was disconnected is not negotiated before it connects
    again. *)
Theorem C45_final cf acf white os tr1 t tr2 s am o e s' am' x a r l sv pe ag rc he ve re wt : khistory cf acf white os (tr1 ++ t :: tr2) s am -> fair_kop (o, e) ->
  KoDisconnect a r ∈ t.2 -> kstep cf acf (o, e) (s, am) = Val (s', am', x) -> KoNegotiated a l sv pe ag rc he ve re wt ∈ x ->
  exists local since y, (KConnected a local l, since, y) ∈ tr2.
Proof. exact (refused_for_good cf acf white os tr1 t tr2 s am o e s' am' x a r l sv pe ag rc he ve re wt). Qed.
Print Assumptions C45_final.

Example C45_case : exists tr s am s' am' x,
  khistory (ex_kcf []) ex_acf ∅ [(KConnected alice me Outbound, ex_kenv (T + 1) 11)] tr s am /\
  kstep (ex_kcf []) ex_acf (KMessage alice (MVersion (hi 12 8)), ex_kenv (T + 2) 0) (s, am) = Val (s', am', x) /\
  (status_of alice tr = Open me Outbound (T + 1) None /\ has_services 8 1 = false /\ is_local alice.1 = false /\ x = [KoDisconnect alice RServices]).
Proof.
  apply (ex_peer (ex_kcf []) ex_acf ∅ (ex_aenv 0) (ex_aenv T) [] _ _ (fun tr x => _)); [apply fair_ex|by apply Forall_nil|fair_kall|]. vm_compute. repeat split.
Qed.

(** A peer 2017 blocks behind is turned away, one 2016 blocks behind is not. *)
Definition late_kenv (now : N) : kenv := KEnv now 2117 0 (fun _ _ => true) (fun l => l) (fun _ => ex_aenv now).
Definition late_hi (height : Z) : vmsg := VMsg 70015 9 1000000 (mk_address me 0) (mk_address alice 9) 12 3 height true.
Example C45_stale_case : exists tr s am s' am' x,
  khistory (ex_kcf []) ex_acf ∅ [(KConnected alice me Outbound, ex_kenv (T + 1) 11); (KConnected bob me Outbound, ex_kenv (T + 1) 11);
    (KMessage bob (MVersion (late_hi 101)), late_kenv (T + 2))] tr s am /\
  kstep (ex_kcf []) ex_acf (KMessage alice (MVersion (late_hi 100)), late_kenv (T + 2)) (s, am) = Val (s', am', x) /\
  (x = [KoDisconnect alice RHeight] /\ match last tr with Some t => t.2 = [KoWtxidRelay bob; KoVerack bob; KoSendHeaders bob; KoTimer 12000] | None => False end).
Proof.
  apply (ex_peer (ex_kcf []) ex_acf ∅ (ex_aenv 0) (ex_aenv T) [] _ _ (fun tr x => _)); [apply fair_ex|by apply Forall_nil| |vm_compute; repeat split].
  do 2 (apply Forall_cons; split; [by apply fair_kex|]). apply Forall_cons. split; [|by apply Forall_nil]. split; [|done]. split; [done|]. intros n. apply fair_ex.
Qed.

(** A connection to ourselves is not noticed: the version message sent to
    [alice] comes back from [bob], its answer comes back from [alice], and both
    complete the handshake. *)
Theorem C45_self_refuted : exists os tr s am s' am' x m m' t1 t2 t3,
  khistory (ex_kcf []) ex_acf ∅ os tr s am /\
  kstep (ex_kcf []) ex_acf (KMessage alice MVerack, ex_kenv (T + 6) 0) (s, am) = Val (s', am', x) /\
  (exists y1 y3, tr = [(KConnected alice bob Outbound, T + 1, KoVersion alice m :: y1); t1;
         (KMessage bob (MVersion m), T + 3, KoVersion bob m' :: y3); (KMessage alice (MVersion m'), T + 4, t2); (KMessage bob MVerack, T + 5, t3)] /\
   t1.1.1 = KConnected bob alice Inbound /\
   (exists sv pe ag rc he ve re wt z, t3 = KoNegotiated bob Inbound sv pe ag rc he ve re wt :: z) /\
   (exists sv pe ag rc he ve re wt z, x = KoNegotiated alice Outbound sv pe ag rc he ve re wt :: z)).
Proof.
  set (m := mk_version (ex_kcf []) alice bob 11 100 (T + 1)). set (m' := mk_version (ex_kcf []) bob alice 11 100 (T + 3)).
  set (y := fun a => [KoWtxidRelay a; KoVerack a; KoSendHeaders a; KoTimer HANDSHAKE_TIMEOUT]).
  destruct (ex_peer (ex_kcf []) ex_acf ∅ (ex_aenv 0) (ex_aenv T) []
    [(KConnected alice bob Outbound, ex_kenv (T + 1) 11); (KConnected bob alice Inbound, ex_kenv (T + 2) 0); (KMessage bob (MVersion m), ex_kenv (T + 3) 0);
     (KMessage alice (MVersion m'), ex_kenv (T + 4) 0); (KMessage bob MVerack, ex_kenv (T + 5) 0)] (KMessage alice MVerack, ex_kenv (T + 6) 0)
    (fun tr x => tr = [(KConnected alice bob Outbound, T + 1, KoVersion alice m :: [KoTimer HANDSHAKE_TIMEOUT; KoConnected alice bob Outbound]);
                       (KConnected bob alice Inbound, T + 2, [KoTimer HANDSHAKE_TIMEOUT; KoConnected bob alice Inbound]);
                       (KMessage bob (MVersion m), T + 3, KoVersion bob m' :: y bob); (KMessage alice (MVersion m'), T + 4, y alice);
                       (KMessage bob MVerack, T + 5, [KoNegotiated bob Inbound 9 false 7 (mk_address alice 0) 100 70016 false false; KoOffset bob 0])] /\
                 x = [KoNegotiated alice Outbound 9 false 7 (mk_address bob 0) 100 70016 false false; KoOffset alice 0])) as (tr & s & am & s' & am' & x & A & B & C & D).
  - apply fair_ex.
  - by apply Forall_nil.
  - fair_kall.
  - vm_compute. by split.
  - eexists _, tr, s, am, s', am', x, m, m', _, _, _. split; [exact A|]. split; [exact B|]. eexists _, _. split; [exact C|]. split; [done|]. split; [by eexists _, _, _, _, _, _, _, _, _|].
    rewrite D. by eexists _, _, _, _, _, _, _, _, _.
Qed.
Print Assumptions C45_self_refuted.

(** ** C46 *)
(** At any time fewer inbound peers than the maximum are connected (none if it
    is zero). *)
Theorem C46_limited cf acf white os tr s am : khistory cf acf white os tr s am -> at_most (kc_maxin cf - 1) open_inbound tr.
Proof. exact (inbound_limited cf acf white os tr s am). Qed.
Print Assumptions C46_limited.

(** With room for two, the second is turned away. *)
Example C46_case : exists tr s am s' am' x,
  khistory (ex_kcf []) ex_acf ∅ [(KConnected alice me Inbound, ex_kenv (T + 1) 0)] tr s am /\
  kstep (ex_kcf []) ex_acf (KConnected bob me Inbound, ex_kenv (T + 2) 0) (s, am) = Val (s', am', x) /\
  (kc_maxin (ex_kcf []) = 2 /\ status_of alice tr = Open me Inbound (T + 1) None /\ x = [KoDisconnect bob RLimit; KoTimer 12000; KoConnected bob me Inbound]).
Proof.
  apply (ex_peer (ex_kcf []) ex_acf ∅ (ex_aenv 0) (ex_aenv T) [] _ _ (fun tr x => _)); [apply fair_ex|by apply Forall_nil|fair_kall|]. vm_compute. repeat split.
Qed.

(** ** C47 *)
(** When a persistent peer is disconnected, a timer is set for the delay of
    the number of failures so far, *)
Theorem C47_timer cf acf white os tr s am a r e s' am' x : khistory cf acf white os tr s am -> a ∈ kc_persistent cf -> failures a tr < 2 ^ 32 ->
  kstep cf acf (KDisconnected a r, e) (s, am) = Val (s', am', x) ->
  exists y, x = y ++ [KoTimer (retry_delay cf (failures a tr))] /\ forall d, KoTimer d ∉ y.
Proof. exact (drop_timer cf acf white os tr s am a r e s' am' x). Qed.
Print Assumptions C47_timer.
(** which is within the limits and does not decrease; *)
Theorem C47_delay cf n m : kc_retry_min cf <= kc_retry_max cf -> n <= m ->
  kc_retry_min cf <= retry_delay cf n <= kc_retry_max cf /\ retry_delay cf n <= retry_delay cf m.
Proof. intros L1 L2. split; [exact (retry_bounds cf n L1)|exact (retry_mono cf n m L2)]. Qed.
Print Assumptions C47_delay.
(** the peer is dialled at the first timer after that delay, not before. *)
Theorem C47_redialled cf acf white os tr s am a t n e s' am' x : khistory cf acf white os tr s am -> fair_kenv e -> a ∈ kc_persistent cf -> domain_ok cf a ->
  status_of a tr = Idle -> last_drop a tr = Some (t, n) -> n < 2 ^ 32 ->
  kstep cf acf (KTimer, e) (s, am) = Val (s', am', x) -> KoConnect a ∈ x <-> t + retry_delay cf n <= ke_now e.
Proof. exact (redialled cf acf white os tr s am a t n e s' am' x). Qed.
Print Assumptions C47_redialled.

Example C47_case : exists tr s am s' am' x,
  khistory (ex_kcf [alice]) ex_acf ∅
    [(KInit, ex_kenv T 0); (KDisconnected alice DConnection, ex_kenv (T + 100) 0); (KTimer, ex_kenv (T + 1100) 0); (KDisconnected alice DConnection, ex_kenv (T + 1500) 0);
     (KTimer, ex_kenv (T + 3499) 0)] tr s am /\
  kstep (ex_kcf [alice]) ex_acf (KTimer, ex_kenv (T + 3500) 0) (s, am) = Val (s', am', x) /\
  (failures alice tr = 2 /\ last_drop alice tr = Some (T + 1500, 1) /\ status_of alice tr = Idle /\ x = [KoConnect alice; KoTimer 6000]).
Proof.
  apply (ex_peer (ex_kcf [alice]) ex_acf ∅ (ex_aenv 0) (ex_aenv T) [] _ _ (fun tr x => _)); [apply fair_ex|by apply Forall_nil|fair_kall|]. vm_compute. repeat split.
Qed.

(** After 2^32 failures the delay starts over. *)
Theorem C47_wrap_refuted : exists os tr s am s' am' x d,
  khistory (ex_kcf [alice]) ex_acf ∅ os tr s am /\ failures alice tr = 2 ^ 32 /\
  kstep (ex_kcf [alice]) ex_acf (KDisconnected alice DConnection, ex_kenv T 0) (s, am) = Val (s', am', x) /\
  KoTimer d ∈ x /\ d = 1000 /\ retry_delay (ex_kcf [alice]) (failures alice tr) = 60000.
Proof.
  destruct (ex_peer (ex_kcf [alice]) ex_acf ∅ (ex_aenv 0) (ex_aenv T) [] [] (KTimer, ex_kenv T 0) (fun _ _ => True)) as (tr0 & s0 & am0 & _ & _ & _ & H0 & _ & _);
    [apply fair_ex|by apply Forall_nil|by apply Forall_nil|vm_compute; done|].
  assert (exists k : nat, N.of_nat k = 2 ^ 32) as [k Ek] by (exists (N.to_nat (2 ^ 32)); apply N2Nat.id).
  destruct (repeated (ex_kcf [alice]) ex_acf ∅ alice DConnection (ex_kenv T 0) [] tr0 s0 am0 (ex_sane _) (proj1 (fair_kex KTimer T 0 I)) H0 k) as (os & tr & s & am & Hh & Fl).
  assert (failures alice tr = 2 ^ 32) as Ef.
  { rewrite Fl, Ek. destruct H0 as [(? & ? & ? & ? & _ & R) _]. cbn in R. injection R as _ _ <-. reflexivity. }
  destruct (wrapped (ex_kcf [alice]) ex_acf ∅ os tr s am alice DConnection (ex_kenv T 0) (ex_sane _) (proj1 (fair_kex KTimer T 0 I)) Hh) as (s' & am' & x & E & It); [by left|].
  rewrite Ef in It. change (backoff (ex_kcf [alice]) (2 ^ 32)) with 1000 in It. exists os, tr, s, am, s', am', x, 1000. split; [exact Hh|]. split; [exact Ef|]. split; [exact E|]. split; [exact It|]. split; [done|]. rewrite Ef. by apply long_delay.
Qed.
Print Assumptions C47_wrap_refuted.

(** ** C48 *)
(** Without persistent peers, whenever the manager dials, afterwards at most
    one and a half times the target are dialled or connected, and at most the
    target of those that count; *)
Theorem C48_dial cf acf white os tr s am o e s' am' x a : khistory cf acf white os tr s am -> sane cf -> fair_kop (o, e) -> kc_persistent cf = [] -> (forall b, o <> KConnect b) ->
  kstep cf acf (o, e) (s, am) = Val (s', am', x) -> KoConnect a ∈ x ->
  at_most (kc_target cf + kc_target cf / 2) busy (tr ++ [(o, ke_now e, x)]) /\ at_most (kc_target cf) (counted cf) (tr ++ [(o, ke_now e, x)]).
Proof. exact (dial_limited cf acf white os tr s am o e s' am' x a). Qed.
Print Assumptions C48_dial.
(** and at any time at most one and a half times the target are dialled or
    connected by us. *)
Theorem C48_outbound cf acf white os tr s am : khistory cf acf white os tr s am -> sane cf -> kc_persistent cf = [] -> lawful tr -> at_most (kc_target cf + kc_target cf / 2) busy_outbound tr.
Proof. exact (outbound_limited cf acf white os tr s am). Qed.
Print Assumptions C48_outbound.

(** Four addresses are known; three are dialled. *)
Example C48_case : exists tr s am s' am' x,
  khistory (ex_kcf []) ex_acf ∅ [] tr s am /\
  kstep (ex_kcf []) ex_acf (KInit, ex_kenv (T + 2) 0) (s, am) = Val (s', am', x) /\
  length (List.filter (fun y => match y with KoConnect _ => true | _ => false end) x) = 3%nat.
Proof.
  apply (ex_peer (ex_kcf []) ex_acf ∅ (ex_aenv 0) (ex_aenv T)
    [(AAddr bob [(sec, ad (v4 33 33 33 33) 9); (sec, ad (v4 34 33 33 34) 9); (sec, ad (v4 55 5 5 5) 1); (sec, ad (v4 56 5 5 5) 1)], ex_aenv (T + 1))] _ _ (fun _ x => _)); [apply fair_ex|fair_all|fair_kall|].
  vm_compute. reflexivity.
Qed.

(** Inbound connections use up the target: with three of them nothing is
    dialled at all, though addresses are known. *)
Definition wide_kcf : kconf := KConf 70016 ∅ 9 [] 1 9 3 8 60000 1000 7 true false.
Theorem C48_reached_refuted : exists os tr s am s' am' x,
  khistory wide_kcf ex_acf ∅ os tr s am /\
  kstep wide_kcf ex_acf (KInit, ex_kenv (T + 5) 0) (s, am) = Val (s', am', x) /\
  (x = [KoTimer 60000] /\ status_of alice tr = Open me Inbound (T + 2) None /\ size (am_peers am) = 1%nat).
Proof.
  assert (forall (P : ktrace -> amgr -> list kout -> Prop) aos os oe, fair_aenvs aos -> Forall fair_kop os -> match addr_new (ex_aenv 0) ∅ with
    | Val s0 => match addr_step ex_acf (AInitialize, ex_aenv T) s0 with
      | Val (s1, _) => match addr_run ex_acf aos s1 with
        | Val (am0, _) => match krun wide_kcf ex_acf os (pm_new ∅, am0) with
          | Val (s, am, tr) => match kstep wide_kcf ex_acf oe (s, am) with Val (_, _, x) => P tr am x | _ => False end
          | _ => False end | _ => False end | _ => False end | _ => False end ->
    exists tr s am s' am' x, khistory wide_kcf ex_acf ∅ os tr s am /\ kstep wide_kcf ex_acf oe (s, am) = Val (s', am', x) /\ P tr am x) as Ex.
  { intros P aos os oe Fa Fs H. destruct (addr_new (ex_aenv 0) ∅) as [s0|] eqn:E0; [|done]. destruct (addr_step ex_acf (AInitialize, ex_aenv T) s0) as [[s1 x1]|] eqn:E1; [|done].
    destruct (addr_run ex_acf aos s1) as [[am0 xs]|] eqn:E2; [|done]. destruct (krun wide_kcf ex_acf os (pm_new ∅, am0)) as [[[s am] tr]|] eqn:E3; [|done].
    destruct (kstep wide_kcf ex_acf oe (s, am)) as [[[s' am'] x]|] eqn:E4; [|done]. exists tr, s, am, s', am', x. split; [|split; [exact E4|exact H]]. split; [|exact Fs].
    exists ∅, T, aos, am0. split; [|exact E3]. exists (ex_aenv 0), (ex_aenv T), s0, s1, x1, xs. split; [apply fair_ex|]. split; [exact Fa|]. split; [exact E0|]. split; [done|]. split; [exact E1|exact E2]. }
  eexists. apply (Ex (fun tr am x => _) [(AAddr bob [(sec, ad (v4 55 5 5 5) 9)], ex_aenv (T + 1))]
    [(KConnected alice me Inbound, ex_kenv (T + 2) 0); (KConnected bob me Inbound, ex_kenv (T + 3) 0); (KConnected (alice.1, 5) me Inbound, ex_kenv (T + 4) 0)]); [fair_all|fair_kall|].
  vm_compute. repeat split.
Qed.
Print Assumptions C48_reached_refuted.

(** ** C73 *)
(** With a sane configuration, the peer manager and the address manager never
    panic, and the dialling loop ends. *)
Theorem C73_no_panic cf acf white store t0 aos am os : sane cf -> addr_history acf store t0 aos am -> Forall fair_kop os ->
  exists s' am' tr, krun cf acf os (pm_new white, am) = Val (s', am', tr).
Proof. exact (no_panic cf acf white store t0 aos am os). Qed.
Print Assumptions C73_no_panic.

(** With the limits of the delay the wrong way round it does. *)
Example C73_case : match addr_new (ex_aenv 0) ∅ with
  | Val am => kstep (KConf 70016 ∅ 9 [alice] 1 9 3 2 1000 60000 7 true false) ex_acf (KDisconnected alice DConnection, ex_kenv T 0) (pm_new ∅, am) = Panic (PAssert 262)
  | _ => False end.
Proof. vm_compute. reflexivity. Qed.

(** ** C74 *)
(** A timer disconnects exactly the peers that are late. *)
Theorem C74_timeouts cf acf white os tr s am e s' am' x a r : khistory cf acf white os tr s am -> fair_kenv e -> kstep cf acf (KTimer, e) (s, am) = Val (s', am', x) ->
  KoDisconnect a r ∈ x <-> r = RTimeout /\ overdue (ke_now e) (status_of a tr).
Proof. exact (timed_out cf acf white os tr s am e s' am' x a r). Qed.
Print Assumptions C74_timeouts.

Example C74_case : exists tr s am s' am' x,
  khistory (ex_kcf []) ex_acf ∅
    [(KConnect alice, ex_kenv T 0); (KConnected bob me Inbound, ex_kenv (T + 1) 0); (KConnected me bob Outbound, ex_kenv (T + 2) 0); (KMessage me (MVersion (hi 12 9)), ex_kenv (T + 20) 0)] tr s am /\
  kstep (ex_kcf []) ex_acf (KTimer, ex_kenv (T + 12001) 0) (s, am) = Val (s', am', x) /\
  List.filter (fun y => match y with KoTimer _ => false | _ => true end) x = [KoDisconnect alice RTimeout; KoDisconnect bob RTimeout].
Proof.
  apply (ex_peer (ex_kcf []) ex_acf ∅ (ex_aenv 0) (ex_aenv T) [] _ _ (fun _ x => _)); [apply fair_ex|by apply Forall_nil|fair_kall|]. vm_compute. reflexivity.
Qed.

(** ** C75 *)
(** Connections and disconnections are reported exactly: every connection, the
    end of every connection, and failed attempts to connect. *)
Theorem C75_events cf acf white os tr s am o e s' am' x : khistory cf acf white os tr s am -> kstep cf acf (o, e) (s, am) = Val (s', am', x) ->
  (forall a local l, KoConnected a local l ∈ x <-> o = KConnected a local l) /\
  (forall a r, KoDisconnected a r ∈ x <-> o = KDisconnected a r /\ match status_of a tr with Open _ _ _ _ | Closing => True | _ => False end) /\
  (forall a, KoFailed a ∈ x <-> o = KDisconnected a DConnection /\ exists t, status_of a tr = Dialing t).
Proof. exact (events cf acf white os tr s am o e s' am' x). Qed.
Print Assumptions C75_events.

Example C75_case : exists tr s am s' am' x,
  khistory (ex_kcf [alice]) ex_acf ∅ [(KInit, ex_kenv T 0)] tr s am /\
  kstep (ex_kcf [alice]) ex_acf (KDisconnected alice DConnection, ex_kenv (T + 1) 0) (s, am) = Val (s', am', x) /\
  (status_of alice tr = Dialing T /\ x = [KoFailed alice; KoTimer 1000]).
Proof.
  apply (ex_peer (ex_kcf [alice]) ex_acf ∅ (ex_aenv 0) (ex_aenv T) [] _ _ (fun _ x => _)); [apply fair_ex|by apply Forall_nil|fair_kall|]. vm_compute. repeat split.
Qed.
(** A peer that cannot be dialled (rather than connected to) is not reported. *)
Theorem C75_dial_refuted : exists os tr s am s' am' x,
  khistory (ex_kcf [alice]) ex_acf ∅ os tr s am /\
  kstep (ex_kcf [alice]) ex_acf (KDisconnected alice DDial, ex_kenv (T + 1) 0) (s, am) = Val (s', am', x) /\
  (status_of alice tr = Dialing T /\ x = [KoTimer 1000]).
Proof.
  eexists. apply (ex_peer (ex_kcf [alice]) ex_acf ∅ (ex_aenv 0) (ex_aenv T) [] [(KInit, ex_kenv T 0)] _ (fun _ x => _)); [apply fair_ex|by apply Forall_nil|fair_kall|]. vm_compute. repeat split.
Qed.
Print Assumptions C75_dial_refuted.
(** The node drops a peer exactly if it is connected. *)
Theorem C75_dropped cf acf white os tr s am e s' am' x a r : khistory cf acf white os tr s am -> kstep cf acf (KDrop a r, e) (s, am) = Val (s', am', x) ->
  x = match status_of a tr with Open _ _ _ _ => [KoDisconnect a r] | _ => [] end.
Proof. exact (dropped cf acf white os tr s am e s' am' x a r). Qed.
Print Assumptions C75_dropped.

(** ** C101 *)
(** Who is dialled: addresses of the configured families that are neither being
    dialled nor connected (or are given up in the same step), because the user
    asked, or because they are persistent peers, or because the address manager
    gave them out.  A timer is set. *)
Theorem C101_who cf acf white os tr s am o e s' am' x a : khistory cf acf white os tr s am -> sane cf -> fair_kop (o, e) -> kstep cf acf (o, e) (s, am) = Val (s', am', x) -> KoConnect a ∈ x ->
  domain_ok cf a /\ (~ busy (status_of a (tr ++ [(o, ke_now e, [])])) \/ (o = KTimer /\ overdue (ke_now e) (status_of a tr))) /\ KoTimer 6000 ∈ x /\
  (o = KConnect a \/ (a ∈ kc_persistent cf /\ (o = KInit \/ o = KTimer)) \/ exists src sv, KoConnecting a src sv ∈ x).
Proof. intros Hh Sa Fo E I. exact (step_dials cf acf white os tr s am o e s' am' x (KoConnect a) Hh Sa Fo E I). Qed.
Print Assumptions C101_who.
(** An address the address manager gives out is asked for only without
    persistent peers, at the start, when a connection is lost and once a
    minute; it has the preferred services unless too few peers are connected. *)
Theorem C101_drawn cf acf white os tr s am o e s' am' x a src sv : khistory cf acf white os tr s am -> sane cf -> fair_kop (o, e) -> kstep cf acf (o, e) (s, am) = Val (s', am', x) ->
  KoConnecting a src sv ∈ x ->
  kc_persistent cf = [] /\ refills tr o (ke_now e) /\ drawable acf am a src sv /\ (has_services sv (kc_preferred cf) = true \/ ~ full cf (tr ++ [(o, ke_now e, [])])).
Proof. intros Hh Sa Fo E I. exact (step_dials cf acf white os tr s am o e s' am' x (KoConnecting a src sv) Hh Sa Fo E I). Qed.
Print Assumptions C101_drawn.
(** At the start the persistent peers are dialled, or an error is reported. *)
Theorem C101_first cf acf white os tr s am e s' am' x a : khistory cf acf white os tr s am -> kstep cf acf (KInit, e) (s, am) = Val (s', am', x) -> a ∈ kc_persistent cf -> ~ busy (status_of a tr) ->
  (domain_ok cf a -> KoConnect a ∈ x) /\ (~ domain_ok cf a -> KoError a ∈ x).
Proof. exact (dialled_first cf acf white os tr s am e s' am' x a). Qed.
Print Assumptions C101_first.
(** The address the user asks for is dialled. *)
Theorem C101_asked cf acf white os tr s am e s' am' x a : khistory cf acf white os tr s am -> kstep cf acf (KConnect a, e) (s, am) = Val (s', am', x) ->
  (domain_ok cf a /\ ~ busy (status_of a tr) -> x = [KoConnect a; KoTimer 6000]) /\ (~ domain_ok cf a \/ busy (status_of a tr) -> x = []).
Proof. exact (dialled_asked cf acf white os tr s am e s' am' x a). Qed.
Print Assumptions C101_asked.
(** If there are fewer connections than wanted and the address manager has a
    suitable address, some address is drawn at these times. *)
Theorem C101_replaced cf acf white os tr s am o e s' am' x a src sv : khistory cf acf white os tr s am -> sane cf -> fair_kop (o, e) -> kstep cf acf (o, e) (s, am) = Val (s', am', x) ->
  ac_ipv4 acf = kc_ipv4 cf -> ac_ipv6 acf = kc_ipv6 cf -> kc_persistent cf = [] -> 0 < kc_target cf -> refills tr o (ke_now e) ->
  at_most (kc_target cf + kc_target cf / 2 - 1) busy (tr ++ [(o, ke_now e, [])]) -> at_most (kc_target cf - 1) (counted cf) (tr ++ [(o, ke_now e, [])]) ->
  drawable acf am a src sv -> has_services sv (kc_preferred cf) = true \/ ~ full cf (tr ++ [(o, ke_now e, [])]) ->
  exists b src' sv', KoConnecting b src' sv' ∈ x.
Proof. exact (refilled cf acf white os tr s am o e s' am' x a src sv). Qed.
Print Assumptions C101_replaced.
(** The timer for that is set again each time. *)
Theorem C101_timer cf acf white os tr s am o e s' am' x : khistory cf acf white os tr s am -> kstep cf acf (o, e) (s, am) = Val (s', am', x) ->
  o = KInit \/ (o = KTimer /\ 60000 <= ke_now e - rested tr) -> KoTimer 60000 ∈ x.
Proof. exact (idle_timer cf acf white os tr s am o e s' am' x). Qed.
Print Assumptions C101_timer.

(** A peer dialled by us is lost; another is drawn in its place, though it has
    only the required services. *)
Example C101_case : exists tr s am s' am' x,
  khistory (ex_kcf []) ex_acf ∅ [(KConnected alice me Outbound, ex_kenv (T + 2) 0)] tr s am /\
  kstep (ex_kcf []) ex_acf (KDisconnected alice DConnection, ex_kenv (T + 3) 0) (s, am) = Val (s', am', x) /\
  x = [KoDisconnected alice DConnection; KoConnect ((true, v4 55 5 5 5), 8333); KoTimer 6000; KoConnecting ((true, v4 55 5 5 5), 8333) (FromPeer bob) 1].
Proof.
  apply (ex_peer (ex_kcf []) ex_acf ∅ (ex_aenv 0) (ex_aenv T) [(AAddr bob [(sec, ad (v4 55 5 5 5) 1)], ex_aenv (T + 1))] _ _ (fun _ x => _)); [apply fair_ex|fair_all|fair_kall|].
  vm_compute. reflexivity.
Qed.
Example C101_first_case : exists tr s am s' am' x,
  khistory (ex_kcf [alice; ((false, 5), 8333)]) ex_acf ∅ [] tr s am /\
  kstep (ex_kcf [alice; ((false, 5), 8333)]) ex_acf (KInit, ex_kenv T 0) (s, am) = Val (s', am', x) /\
  x = [KoConnect alice; KoTimer 6000; KoError ((false, 5), 8333); KoTimer 60000].
Proof.
  apply (ex_peer (ex_kcf [alice; ((false, 5), 8333)]) ex_acf ∅ (ex_aenv 0) (ex_aenv T) [(AAddr bob [(sec, ad (v4 55 5 5 5) 1)], ex_aenv (T + 1))] _ _ (fun _ x => _)); [apply fair_ex|fair_all|fair_kall|].
  vm_compute. reflexivity.
Qed.
