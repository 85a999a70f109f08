(** Property theorems about the peer, address and ping managers inside the
    whole state machine (C112), followed by a concrete case. *)
From Verif Require Import Base RunEx PowModel BlockModel BlockSpec BlockExample BlockProps UtilModel FeeModel AddrModel AddrSpec AddrProps PeerModel PeerSpec PeerMain PeerProps
  PingModel DispModel DispSpec LoadModel NodeModel NodeSpec NodeProps FullModel FullSpec FullProps FullMgrSpec FullMgr FullLinkSpec.
From Verif Require SyncModel SyncSpec SyncProps CbfModel CbfSpec CbfProps InvModel PingSpec.
Open Scope N_scope.

(** ** C112 *)

(** In every run of the whole client from its start, the peer manager has a
    history in the sense of C44-C48, C73-C75 and C101: its calls are those that
    the inputs and events of each step ask for, in order, made at times the
    clock showed, and what it put out is what was queued for it in that step. *)
Theorem C112_peer H scf P kcf acf ping_timeout env wenv_of magic hook c0 f0 white am x0 l s : wfair wenv_of am ->
  logged (full_step H scf P kcf acf ping_timeout env wenv_of magic hook) (full0 c0 f0 white am) ((WInitialize, x0) :: l) s ->
  exists kos tr0 trs, khistory kcf acf white kos (tr0 ++ concat trs) (w_peer (f_state s)) (w_addr (f_state s)) /\
    Forall (fun t => shown wenv_of t.1.2) (tr0 ++ concat trs) /\
    ToAddr AInitialize :: called tr0 = omap not_ping (calls_of magic WInitialize x0) /\ queued_by CPeer x0 = put_peer tr0 /\ Forall2 (peer_part magic) l trs.
Proof. intros (Fw & Fo & e & store & Fe & New). exact (whole_peer H scf P kcf acf ping_timeout env wenv_of magic hook Fw Fo c0 f0 white am e store Fe New x0 l s). Qed.
Print Assumptions C112_peer.

(** So has the address manager (C70-C72, C96), whose draws are those of the
    peer manager, *)
Theorem C112_addr H scf P kcf acf ping_timeout env wenv_of magic hook c0 f0 white am e store x0 l s :
  fair_wenv wenv_of -> (forall n l, we_order (wenv_of n) l ≡ₚ l) -> fair_aenv e -> addr_new e store = Val am ->
  logged (full_step H scf P kcf acf ping_timeout env wenv_of magic hook) (full0 c0 f0 white am) ((WInitialize, x0) :: l) s ->
  exists x1 h0 hs s1 s2, addr_new e store = Val s1 /\ addr_step acf (AInitialize, we_addr (wenv_of 0%nat)) s1 = Val (s2, x1) /\
    addr_run acf (h0.1 ++ concat (map fst hs)) s2 = Val (w_addr (f_state s), h0.2 ++ concat (map snd hs)) /\
    addr_history acf store (ae_now (we_addr (wenv_of 0%nat))) (h0.1 ++ concat (map fst hs)) (w_addr (f_state s)) /\
    omap (fun oe => of_addr oe.1) h0.1 = [] /\ omap only_addr (calls_of magic WInitialize x0) = [ToAddr AInitialize] /\
    queued_by CAddr x0 = put_addr (x1 :: h0.2) /\ Forall2 (addr_part magic) l hs.
Proof. intros Fw Fo Fe New. exact (whole_addr H scf P kcf acf ping_timeout env wenv_of magic hook Fw Fo c0 f0 white am e store Fe New x0 l s). Qed.
Print Assumptions C112_addr.

(** and the ping manager (C49). *)
Theorem C112_ping H scf P kcf acf ping_timeout env wenv_of magic hook c0 f0 white am x0 l s : wfair wenv_of am ->
  logged (full_step H scf P kcf acf ping_timeout env wenv_of magic hook) (full0 c0 f0 white am) ((WInitialize, x0) :: l) s ->
  exists hs, PingSpec.ping_run ping_timeout (concat (map fst hs)) ∅ = (w_ping (f_state s), concat (map snd hs)) /\ Forall PingSpec.fair_order (concat (map fst hs)) /\
    Forall (fun o => match o with PingModel.PNegotiated t _ _ | PPong t _ _ | PTimer t _ _ => shown wenv_of t | _ => True end) (concat (map fst hs)) /\
    Forall2 (ping_part magic) ((WInitialize, x0) :: l) hs.
Proof. intros (Fw & Fo & _). apply (whole_ping H scf P kcf acf ping_timeout env wenv_of magic hook Fw Fo). Qed.
Print Assumptions C112_ping.

(** ** Concrete runs *)
Fixpoint wx_log (os : list wop) (s : wstate) : M (wlog * wstate) :=
  match os with
  | [] => Val ([], s)
  | o :: os' => '(s1, x) <-- wx_step o s ;; '(l, s2) <-- wx_log os' s1 ;; Val ((o, x) :: l, s2)
  end.
Lemma wx_logged os : forall s l s', wx_log os s = Val (l, s') -> logged wx_step s l s'.
Proof.
  induction os as [|o os IH]; intros s l s'; cbn [wx_log]; [intros [= <- <-]; constructor|].
  destruct (wx_step o s) as [[s1 x]|] eqn:E; cbn [mbind_M]; [|done]. destruct (wx_log os s1) as [[l1 s2]|] eqn:L; cbn [mbind_M]; [|done]. intros [= <- <-].
  apply IH in L. clear IH. change ((o, x) :: l1) with ([(o, x)] ++ l1). induction L as [s1|s1 l1 s2 o1 x1 s3 L IHL E1].
  - apply (logged_snoc _ _ [] s); [constructor|done].
  - rewrite app_assoc. eapply logged_snoc; [by apply IHL|done].
Qed.
Lemma wx_wfair am : addr_new (ex_aenv T) ∅ = Val am -> wfair wx_wenv am.
Proof.
  intros E. split; [|split; [done|]].
  - intros n. split; [split; [done|intros m; apply fair_ex]|apply fair_ex].
  - exists (ex_aenv T), ∅. split; [apply fair_ex|exact E].
Qed.
Lemma wx_started os (Q : wlog -> wstate -> Prop) :
  match from_store exH ex_ng cp_store cp_params [], addr_new (ex_aenv T) ∅ with
  | Val (Ok c), Val am => match wx_log (WInitialize :: os) (wx_0 c am) with Val (l, s) => Q l s | Panic _ => False end
  | _, _ => False
  end ->
  exists c am l s, wfair wx_wenv am /\ started wx_step (wx_0 c am) l s /\ map fst l = WInitialize :: os /\ Q l s.
Proof.
  destruct (from_store exH ex_ng cp_store cp_params []) as [[c|]|]; [|intros []..].
  destruct (addr_new (ex_aenv T) ∅) as [am|] eqn:Ea; [|intros []]. destruct (wx_log (WInitialize :: os) (wx_0 c am)) as [[l s]|] eqn:El; [|intros []]. intros R.
  exists c, am, l, s. split; [by apply wx_wfair|]. split; [|split; [|exact R]].
  - split; [|by apply (wx_logged _ _ _ _ El)]. cbn [wx_log] in El. destruct (wx_step WInitialize (wx_0 c am)) as [[s1 x]|]; cbn [mbind_M] in El; [|done].
    destruct (wx_log os s1) as [[l1 s2]|]; cbn [mbind_M] in El; [|done]. injection El as <- <-. eauto.
  - revert El. generalize (wx_0 c am). generalize (WInitialize :: os). clear. intros os. revert l s. induction os as [|o os IH]; intros l s s0; cbn [wx_log]; [by intros [= <- <-]|].
    destruct (wx_step o s0) as [[s1 x]|]; cbn [mbind_M]; [|done]. destruct (wx_log os s1) as [[l1 s2]|] eqn:L; cbn [mbind_M]; [|done]. intros [= <- <-]. cbn [map fst]. by rewrite (IH _ _ _ L).
Qed.
(** We connect to a peer and shake hands; the ping manager and the address
    manager ask it something, and it pings us. *)
Definition wx_talk : list wop := [WConnected alice me Outbound; from_alice (WVersion (hi 12 73)); from_alice WVerack] ++ wdrain ++ [from_alice (WPing 3); WTimer].
Example C112_case : exists c am l s, wfair wx_wenv am /\ started wx_step (wx_0 c am) l s /\ map fst l = WInitialize :: wx_talk /\
  (log_queued CPing l = [IoWrite alice (WPing (key alice)); IoWrite alice (WPong 3)] /\
   omap (fun y => match y with IoWrite a m => Some (a, m) | _ => None end) (log_queued CAddr l) = [(alice, WGetAddr)] /\
   omap only_ping (log_calls 7 l) = [ToPing (PcNegotiated alice); ToPing (PcPing alice 3); ToPing PcTimer] /\
   List.filter (fun c => match c with ToPeer _ => true | _ => false end) (log_calls 7 l) =
     [ToPeer KInit; ToPeer (KConnected alice me Outbound); ToPeer (KMessage alice (MVersion (hi 12 73))); ToPeer (KMessage alice MVerack); ToPeer (KMessage alice MOther); ToPeer KTimer]).
Proof. apply wx_started. vm_compute. repeat split. Qed.
