(** Property theorems about the chain that a running node has (C110), each
    followed by a concrete case. *)
From Verif Require Import Base RunEx PowModel BlockModel BlockSpec BlockExample BlockProps UtilModel FeeModel AddrModel AddrSpec AddrProps PeerModel PeerSpec PeerMain PeerProps
  PingModel DispModel LoadModel NodeModel NodeSpec NodeProps FullModel FullSpec FullProofs FullProps FullChainSpec FullChain ClientModel.
From Verif Require SyncModel SyncSpec SyncProps CbfModel CbfSpec CbfProps InvModel.
Open Scope N_scope.

(** ** C110 *)

(** Whatever the node was sent, by whom and in which order: it has a chain from
    genesis of headers that it had stored or was sent; all queries for headers
    are answered from this one chain and the headers set aside, and change
    nothing. *)
Theorem C110_queries H ng scf P kcf acf ping_timeout cap env wenv_of magic hook st ps cps fst0 c0 white am os s t :
  let s0 := full0 c0 (CbfModel.cbf0 cap fst0) white am in
  let step := full_step H scf P kcf acf ping_timeout env wenv_of magic hook in
  wsetup H ng P kcf env wenv_of st ps cps fst0 c0 am (wheaders os) ->
  full_run H scf P kcf acf ping_timeout env wenv_of magic hook (WInitialize :: os) s0 = Val (s, t) ->
  a_chain H st (wheaders os) (chain_of s) /\
  exists aside : header -> Prop, (forall x, aside x -> x ∈ s_genesis st :: s_tail st ++ wheaders os) /\
  forall c, match c with CmdGetTip | CmdGetByHeight _ | CmdGetBlock _ | CmdFindBranch _ => True | _ => False end ->
    step (WCommand c) s = Val (s, []) /\ exists r, node_reply H scf P kcf acf env wenv_of c s = Val r /\ tells H (chain_of s) aside c r.
Proof. intros s0 step. exact (queries H ng scf P kcf acf ping_timeout cap env wenv_of magic hook st ps cps fst0 c0 white am os s t). Qed.
Print Assumptions C110_queries.

(** An input that makes the node report a new tip moves its chain as reported:
    the tip and its height are those of the chain after, the blocks reverted were
    on the chain before and are not any more, those connected are on it at their
    heights, and no block that is new on it is missing. *)
Theorem C110_reports H ng scf P kcf acf ping_timeout cap env wenv_of magic hook st ps cps fst0 c0 white am os o s t s' x c b k h rv cn :
  let s0 := full0 c0 (CbfModel.cbf0 cap fst0) white am in
  wsetup H ng P kcf env wenv_of st ps cps fst0 c0 am (wheaders (os ++ [o])) ->
  full_run H scf P kcf acf ping_timeout env wenv_of magic hook (WInitialize :: os) s0 = Val (s, t) ->
  full_step H scf P kcf acf ping_timeout env wenv_of magic hook o s = Val (s', x) ->
  FQueued c (IoEvent (WvNode (EvSync (SyncModel.SoImported b k h rv cn)))) ∈ x -> true_report H (chain_of s) (chain_of s') k h rv cn.
Proof. intros s0. exact (whole_report H ng scf P kcf acf ping_timeout cap env wenv_of magic hook st ps cps fst0 c0 white am os o s t s' x c b k h rv cn). Qed.
Print Assumptions C110_reports.

(** A node with two headers gets a block with more work, that replaces both. *)
Notation wx_reply := (node_reply exH SyncProps.ex_cf CbfProps.ex_P wx_kcf ex_acf nx_env wx_wenv).
Definition reports (x : list (fitem wmsg wev)) : list (N * N * list N * list N) :=
  omap (fun i => match i with FQueued _ (IoEvent (WvNode (EvSync (SyncModel.SoImported _ k h rv cn)))) => Some (k, h, rv.*1, cn.*1) | _ => None end) x.
Example C110_case : exists c am s t s' x, wx_setup c am (wheaders (wx_up ++ [from_alice (WNode (MHeaders [hard]))])) /\
  wx_run (WInitialize :: wx_up) (wx_0 c am) = Val (s, t) /\ wx_step (from_alice (WNode (MHeaders [hard]))) s = Val (s', x) /\
  (tail (chain_of s) = [la1; la2] /\ tail (chain_of s') = [hard]) /\ reports x = [(exH hard, 1, [2; 1], [1])] /\
  match wx_reply (CmdFindBranch (exH la2)) s' with Val (RpBranch (Some (0, [_; a; b]))) => a = la1 /\ b = la2 | _ => False end.
Proof.
  destruct (wx_ex (wheaders (wx_up ++ [from_alice (WNode (MHeaders [hard]))])) (WInitialize :: wx_up) (fun c am s =>
    match wx_step (from_alice (WNode (MHeaders [hard]))) s with
    | Val (s', x) => (tail (chain_of s) = [la1; la2] /\ tail (chain_of s') = [hard]) /\ reports x = [(exH hard, 1, [2; 1], [1])] /\
        match wx_reply (CmdFindBranch (exH la2)) s' with Val (RpBranch (Some (0, [_; a; b]))) => a = la1 /\ b = la2 | _ => False end
    | Panic _ => False
    end)) as (c & am & s & t & S & R & Q); [vm_compute; reflexivity|vm_compute; reflexivity|vm_compute; repeat split|].
  destruct (wx_step (from_alice (WNode (MHeaders [hard]))) s) as [[s' x]|] eqn:E; [|destruct Q]. exists c, am, s, t, s', x. done.
Qed.
