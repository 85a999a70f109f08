(** Property theorems about what the calls of a user say of the chain (C111),
    each followed by a concrete case. *)
From Verif Require Import Base RunEx PowModel BlockModel BlockSpec BlockExample BlockProps UtilModel FeeModel AddrModel AddrSpec AddrProps PeerModel PeerSpec PeerMain PeerProps
  PingModel DispModel LoadModel NodeModel NodeSpec NodeProps FullModel FullSpec FullProofs FullProps FullChainSpec FullChain ClientModel ClientSpec ClientProofs ClientChain ClientProps.
From Verif Require SyncModel SyncSpec SyncProps CbfModel CbfSpec CbfProps InvModel.
Open Scope N_scope.

(** ** C111 *)

(** However the threads and the node take turns: what a query returns is true of
    the chain that the node had when it answered, between the call and its
    return, after the inputs until then. *)
Theorem C111_queries H ng scf P kcf acf ping_timeout cap env wenv_of magic hook st ps cps fst0 c0 white am os s a b t c r :
  let s0 := full0 c0 (CbfModel.cbf0 cap fst0) white am in
  let step := full_step H scf P kcf acf ping_timeout env wenv_of magic hook in
  let tr := a ++ KReturned t (HOk (VReply r)) :: b in
  wsetup H ng P kcf env wenv_of st ps cps fst0 c0 am (wheaders (inputs tr)) ->
  krun H step (node_reply H scf P kcf acf env wenv_of) os (client0 s0) = (s, tr) -> called t (HAsk c) tr ->
  match c with CmdGetTip | CmdGetByHeight _ | CmdGetBlock _ | CmdFindBranch _ => True | _ => False end ->
  exists a1 a2 n ns x (aside : header -> Prop), a = a1 ++ KExecuted t c n n r :: a2 /\ called t (HAsk c) a1 /\ inputs a1 = WInitialize :: ns ++ [WCommand c] /\
    full_run H scf P kcf acf ping_timeout env wenv_of magic hook (WInitialize :: ns) s0 = Val (n, x) /\
    a_chain H st (wheaders ns) (chain_of n) /\ (forall x, aside x -> x ∈ s_genesis st :: s_tail st ++ wheaders ns) /\ tells H (chain_of n) aside c r.
Proof.
  intros s0 step tr Su R C Q. destruct (C106_reply _ _ _ _ _ _ _ _ _ _ _ R C) as (a1 & a2 & n & n' & -> & C1 & _).
  subst tr. rewrite <- app_assoc in R, Su. cbn [app] in R, Su. destruct (executed_state _ _ _ _ _ _ _ _ _ _ _ _ _ _ _ _ _ _ _ _ _ _ _ _ _ _ _ _ Su R) as (Er & l & x & Sl & Rl & Ei).
  destruct (queries H ng scf P kcf acf ping_timeout cap env wenv_of magic hook st ps cps fst0 c0 white am l n x Sl Rl) as (A & aside & As & T). destruct (T c Q) as (Es & r' & E1 & E2).
  rewrite Er in E1. injection E1 as <-. pose proof (run_ginv _ _ _ _ _ _ _ R) as G. destruct (g_exec _ _ _ _ _ _ G t c n n' r) as (_ & y & _ & Ey); [apply elem_of_app; right; by left|].
  unfold step in Ey. rewrite Es in Ey. injection Ey as <- <-. exists a1, a2, n, l, x, aside. done.
Qed.
Print Assumptions C111_queries.

(** [wait_for_height] returns a hash that was on the chain of the node at this
    height, in some state before the return. *)
Theorem C111_height H ng scf P kcf acf ping_timeout cap env wenv_of magic hook st ps cps fst0 c0 white am os s a b t v h :
  let s0 := full0 c0 (CbfModel.cbf0 cap fst0) white am in
  let step := full_step H scf P kcf acf ping_timeout env wenv_of magic hook in
  let tr := a ++ KReturned t (HOk v) :: b in
  wsetup H ng P kcf env wenv_of st ps cps fst0 c0 am (wheaders (inputs tr)) ->
  krun H step (node_reply H scf P kcf acf env wenv_of) os (client0 s0) = (s, tr) -> called t (HWaitHeight h) tr ->
  exists n ns ns' x hd, inputs a = WInitialize :: ns ++ ns' /\ full_run H scf P kcf acf ping_timeout env wenv_of magic hook (WInitialize :: ns) s0 = Val (n, x) /\
    a_chain H st (wheaders ns) (chain_of n) /\ chain_of n !! N.to_nat h = Some hd /\ v = VHash (H hd).
Proof.
  intros s0 step tr Su R C. destruct (call_height _ _ _ _ _ _ _ _ _ _ _ _ _ _ _ _ _ _ _ _ _ _ _ _ _ _ Su R C) as (n & hs & hd & (ns & ns' & x & E & Rn & ->) & A & B & D).
  by exists n, ns, ns', x, hd.
Qed.
Print Assumptions C111_height.

(** While two headers arrive from Alice, a thread waits for height 1, and another
    asks for the branch to a header. *)
Lemma kx_setup os hs (Q : client -> list kitem -> Prop) : forallb (fun h => h_prev h <? exH h) hs = true -> lenN hs < 2 ^ 64 ->
  match from_store exH ex_ng cp_store cp_params [], addr_new (ex_aenv T) ∅ with
  | Val (Ok c), Val am => c_height c = 0 /\ let '(s, tr) := kx_run os (client0 (wx_0 c am)) in wheaders (inputs tr) = hs /\ Q s tr
  | _, _ => False
  end -> exists c am s tr, wx_setup c am (wheaders (inputs tr)) /\ kx_run os (client0 (wx_0 c am)) = (s, tr) /\ Q s tr.
Proof.
  intros A L W. destruct (wx_ex hs [] (fun c am _ => let '(s, tr) := kx_run os (client0 (wx_0 c am)) in wheaders (inputs tr) = hs /\ Q s tr) A L) as (c & am & s & t & Su & _ & K).
  - destruct (from_store exH ex_ng cp_store cp_params []) as [[c|]|]; try done.
  - destruct (kx_run os (client0 (wx_0 c am))) as [s' tr] eqn:E. destruct K as [<- K]. by exists c, am, s', tr.
Qed.
Definition asked : list kop :=
  kboot ++ meets alice (hi 12 73) ++ kcall 3 (HWaitHeight 1) 3 ++ kserve ++ kdrain ++ kinput (WReceived alice 7 (WNode (MHeaders [la1]))) ++
  repeat (OThread 3) 40 ++ kcall 1 (HAsk (CmdFindBranch (exH la1))) 2 ++ kserve ++ [OThread 1].
Definition told_user (l : list (N * hresult)) : list (N * N * list N) :=
  (fun p => match p.2 with HOk (VHash h) => (p.1, h, []) | HOk (VReply (RpBranch (Some (h, l)))) => (p.1, h, exH <$> l) | _ => (p.1, 0, []) end) <$> l.
Example C111_case : exists c am s tr, wx_setup c am (wheaders (inputs tr)) /\ kx_run asked (client0 (wx_0 c am)) = (s, tr) /\
  told_user (returned tr) = [(3, exH la1, []); (1, 1, [exH la1])] /\ called 3 (HWaitHeight 1) tr /\ called 1 (HAsk (CmdFindBranch (exH la1))) tr.
Proof.
  destruct (kx_setup asked [la1] (fun s tr => told_user (returned tr) = [(3, exH la1, []); (1, 1, [exH la1])] /\
    existsb (fun i => match i with KCalled 3 (HWaitHeight 1) => true | _ => false end) tr = true /\
    existsb (fun i => match i with KCalled 1 (HAsk (CmdFindBranch k)) => k =? exH la1 | _ => false end) tr = true)) as (c & am & s & tr & Su & R & Q1 & Q2 & Q3); [vm_compute; reflexivity|vm_compute; reflexivity|vm_compute; repeat split|].
  exists c, am, s, tr. split; [exact Su|]. split; [exact R|]. split; [exact Q1|]. apply existsb_exists in Q2 as (i & I2 & Q2), Q3 as (j & I3 & Q3). split; apply elem_of_list_In.
  - by destruct i as [[|[[]|[]|]] [| | | | | |[|[]]| |]| | | | | | | |].
  - destruct j as [[|[]] [[]| | | | | | | |]| | | | | | | |]; try done. apply N.eqb_eq in Q3 as ->. exact I3.
Qed.
