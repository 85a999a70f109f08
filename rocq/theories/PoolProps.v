(** Property theorems about the transactions that the whole client holds for
    its user (C123), each followed by a concrete case. *)
From Verif Require Import Base RunEx PowModel BlockModel BlockSpec BlockExample BlockProps UtilModel FeeModel AddrModel AddrSpec AddrProps PeerModel PeerSpec PeerMain PeerProps
  DispModel DispSpec LoadModel NodeModel NodeSpec NodeProps NodeLogSpec NodeLogProps FullModel FullSpec FullProofs FullProps FullMgrSpec FullMgrProps FullLinkSpec FullNodeSpec FullNode FullNodeProps PoolSpec PoolFull.
From Verif Require SyncModel SyncSpec SyncProps CbfModel CbfSpec CbfProps InvModel InvSpec InvProps.
Open Scope N_scope.

(** ** C123 *)

(** The question for a submitted transaction is answered with one that has this
    id and was submitted or reverted, and has not been in a block since; if
    there is none it is answered so. *)
Theorem C123_submitted H scf P kcf acf ping_timeout env wenv_of magic hook cap c0 st white am os s L id s' q r :
  sane kcf -> wfair wenv_of am ->
  let step := full_step H scf P kcf acf ping_timeout env wenv_of magic hook in
  whole_log H step env (WInitialize :: os) (full0 c0 (CbfModel.cbf0 cap st) white am) = Val (s, L) ->
  exec H scf P kcf acf env wenv_of (CmdGetSubmitted id) (f_state s) = Val (s', q, r) ->
  s' = f_state s /\ q = [] /\ exists o, r = RpTx o /\
    match o with
    | Some t => pool (entry_of <$> L) !! t_wid t = Some t /\ t_id t = id
    | None => forall w t, pool (entry_of <$> L) !! w = Some t -> t_id t <> id
    end.
Proof.
  intros Sn (Fw & Fo & e0 & store & Fe0 & New) step.
  exact (whole_submitted H scf P kcf acf ping_timeout env wenv_of magic hook Sn Fw Fo cap st c0 white am e0 store Fe0 New os s L id s' q r).
Qed.
Print Assumptions C123_submitted.

(** A submission is answered with the peers that are connected, want to hear of
    transactions and have not been given up, each once, or with an error if
    there is none. *)
Theorem C123_submit H scf P kcf acf ping_timeout env wenv_of magic hook cap c0 st white am os s L t s' q r :
  sane kcf -> wfair wenv_of am ->
  let step := full_step H scf P kcf acf ping_timeout env wenv_of magic hook in
  whole_log H step env (WInitialize :: os) (full0 c0 (CbfModel.cbf0 cap st) white am) = Val (s, L) ->
  exec H scf P kcf acf env wenv_of (CmdSubmit t) (f_state s) = Val (s', q, r) ->
  exists o, r = RpSubmit o /\ match o with
    | Some l => l <> [] /\ NoDup l /\ forall a, a ∈ l <-> relays (key a) (entry_of <$> L) = Some true
    | None => forall a, relays (key a) (entry_of <$> L) <> Some true
    end.
Proof.
  intros Sn (Fw & Fo & e0 & store & Fe0 & New) step.
  exact (whole_submit H scf P kcf acf ping_timeout env wenv_of magic hook Sn Fw Fo cap st c0 white am e0 store Fe0 New os s L t s' q r).
Qed.
Print Assumptions C123_submit.

(** A peer that asks for transactions is sent, of those it names, exactly what
    the client holds at that time, and nobody else is sent any. *)
Theorem C123_served H scf P kcf acf ping_timeout env wenv_of magic hook cap c0 st white am os s L o s' x a is :
  sane kcf -> wfair wenv_of am ->
  let step := full_step H scf P kcf acf ping_timeout env wenv_of magic hook in
  whole_log H step env (WInitialize :: os) (full0 c0 (CbfModel.cbf0 cap st) white am) = Val (s, L) ->
  step o s = Val (s', x) -> WvMessage a (WNode (MGetData is)) ∈ announced x ->
  (forall w t, writes x w (MTx t) -> w = a /\ pool (entry_of <$> L) !! t_wid t = Some t /\ exists i, i ∈ is /\ InvSpec.names i t) /\
  (forall i w t, i ∈ is -> pool (entry_of <$> L) !! w = Some t -> InvSpec.names i t -> exists t', writes x a (MTx t') /\ InvSpec.names i t').
Proof.
  intros Sn (Fw & Fo & e0 & store & Fe0 & New) step.
  exact (whole_served H scf P kcf acf ping_timeout env wenv_of magic hook Sn Fw Fo cap st c0 white am e0 store Fe0 New os s L o s' x a is).
Qed.
Print Assumptions C123_served.

(** The tools of the cases: a run, its log, and a command. *)
Notation wx_exec := (exec exH SyncProps.ex_cf CbfProps.ex_P wx_kcf ex_acf nx_env wx_wenv).
Lemma wc_ex os cm (Q : list wentry -> reply -> Prop) :
  match from_store exH ex_ng cp_store cp_params [], addr_new (ex_aenv T) ∅ with
  | Val (Ok c), Val am => match wx_whole (WInitialize :: os) (wx_0 c am) with
      | Val (s, L) => match wx_exec cm (f_state s) with Val (_, _, r) => Q L r | Panic _ => False end
      | Panic _ => False
      end
  | _, _ => False
  end ->
  exists c am s L s' q r, sane wx_kcf /\ wfair wx_wenv am /\ wx_whole (WInitialize :: os) (wx_0 c am) = Val (s, L) /\ wx_exec cm (f_state s) = Val (s', q, r) /\ Q L r.
Proof.
  destruct (from_store exH ex_ng cp_store cp_params []) as [[c|]|]; [|intros []..].
  destruct (addr_new (ex_aenv T) ∅) as [am|] eqn:Ea; [|intros []]. destruct (wx_whole (WInitialize :: os) (wx_0 c am)) as [[s L]|] eqn:Er; [|intros []]. destruct (wx_exec cm (f_state s)) as [[[s' q] r]|] eqn:E; [|intros []].
  intros R. exists c, am, s, L, s', q, r. split; [done|]. split; [by apply wx_wfair|]. done.
Qed.
(** A submitted transaction is held until its block has come, and held again
    when that block is reverted. *)
Notation asked os := (fun t => exists c am s L s' q r, sane wx_kcf /\ wfair wx_wenv am /\ wx_whole (WInitialize :: os) (wx_0 c am) = Val (s, L) /\ wx_exec (CmdGetSubmitted 1) (f_state s) = Val (s', q, r) /\ r = RpTx t).
Example C123_submitted_case : asked wx_up None /\ asked wl_os (Some InvProps.ex_t1) /\ asked wl_block None /\ asked wl_reorg (Some InvProps.ex_t1).
Proof.
  split; [|split; [|split]].
  - refine (wc_ex wx_up (CmdGetSubmitted 1) (fun _ r => r = RpTx None) _). vm_compute. reflexivity.
  - refine (wc_ex wl_os (CmdGetSubmitted 1) (fun _ r => r = RpTx (Some InvProps.ex_t1)) _). vm_compute. reflexivity.
  - refine (wc_ex wl_block (CmdGetSubmitted 1) (fun _ r => r = RpTx None) _). vm_compute. reflexivity.
  - refine (wc_ex wl_reorg (CmdGetSubmitted 1) (fun _ r => r = RpTx (Some InvProps.ex_t1)) _). vm_compute. reflexivity.
Qed.
(** Before the first peer a submission is refused, then it goes to that peer. *)
Notation sent os := (fun l => exists c am s L s' q r, sane wx_kcf /\ wfair wx_wenv am /\ wx_whole (WInitialize :: os) (wx_0 c am) = Val (s, L) /\ wx_exec (CmdSubmit InvProps.ex_t1) (f_state s) = Val (s', q, r) /\ r = RpSubmit l).
Example C123_submit_case : sent [] None /\ sent wx_up (Some [alice]).
Proof.
  split.
  - refine (wc_ex [] (CmdSubmit InvProps.ex_t1) (fun _ r => r = RpSubmit None) _). vm_compute. reflexivity.
  - refine (wc_ex wx_up (CmdSubmit InvProps.ex_t1) (fun _ r => r = RpSubmit (Some [alice])) _). vm_compute. reflexivity.
Qed.
(** The peer fetches it. *)
Definition txs_sent (x : list (fitem wmsg wev)) : list (sockaddr * tx) := omap (fun i => match i with FQueued _ (IoWrite a (WNode (MTx t))) => Some (a, t) | _ => None end) x.
Lemma txs_writes a t x : (a, t) ∈ txs_sent x -> writes x a (MTx t).
Proof. intros I. apply elem_of_list_omap in I as (i & I & J). destruct i as [c [b m| | | |]| |]; try done. destruct m as [m| | | | | | | | |]; try done. destruct m; try done. injection J as -> ->. by exists c. Qed.
Example C123_served_case : exists c am s L s' x, sane wx_kcf /\ wfair wx_wenv am /\ wx_whole (WInitialize :: take 136 wl_os) (wx_0 c am) = Val (s, L) /\
  wx_step (from_alice (WNode (MGetData [InvModel.InvTx 1]))) s = Val (s', x) /\ WvMessage alice (WNode (MGetData [InvModel.InvTx 1])) ∈ announced x /\ writes x alice (MTx InvProps.ex_t1).
Proof.
  destruct (wl_ex (take 136 wl_os) (from_alice (WNode (MGetData [InvModel.InvTx 1]))) (fun _ _ x => announced x = [WvMessage alice (WNode (MGetData [InvModel.InvTx 1]))] /\
     txs_sent x = [(alice, InvProps.ex_t1)])) as (c & am & s & L & s' & x & Sn & Fa & R & E & A & B); [vm_compute; repeat split|].
  exists c, am, s, L, s', x. split; [exact Sn|]. split; [exact Fa|]. split; [exact R|]. split; [exact E|]. rewrite A. split; [by left|]. apply txs_writes. rewrite B. by left.
Qed.
