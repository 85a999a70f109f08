(** Property theorems about the filters, blocks and transactions that the whole
    client reports and fetches (C116) and why it writes messages about them
    (C117), each followed by a concrete case. *)
From Verif Require Import Base RunEx PowModel BlockModel BlockSpec BlockExample BlockProps UtilModel FeeModel AddrModel AddrSpec AddrProps PeerModel PeerSpec PeerMain PeerProps
  DispModel DispSpec LoadModel NodeModel NodeSpec NodeProps NodeLogSpec NodeLogProps FullModel FullSpec FullProofs FullProps FullMgrSpec FullMgrProps FullLinkSpec FullNodeSpec FullNode FullWrites.
From Verif Require SyncModel SyncSpec SyncProps CbfModel CbfSpec CbfProps InvModel InvSpec InvProps.
Open Scope N_scope.

(** The tools of the cases: a run, its log, and one step more. *)
Notation wx_whole := (whole_log exH wx_step nx_env).
Lemma wl_ex os o (Q : wstate -> list wentry -> list (fitem wmsg wev) -> Prop) :
  match from_store exH ex_ng cp_store cp_params [], addr_new (ex_aenv T) ∅ with
  | Val (Ok c), Val am => match wx_whole (WInitialize :: os) (wx_0 c am) with
      | Val (s, L) => match wx_step o s with Val (_, x) => Q s L x | Panic _ => False end
      | Panic _ => False
      end
  | _, _ => False
  end ->
  exists c am s L s' x, sane wx_kcf /\ wfair wx_wenv am /\ wx_whole (WInitialize :: os) (wx_0 c am) = Val (s, L) /\ wx_step o s = Val (s', x) /\ Q s L x.
Proof.
  destruct (from_store exH ex_ng cp_store cp_params []) as [[c|]|]; [|intros []..].
  destruct (addr_new (ex_aenv T) ∅) as [am|] eqn:Ea; [|intros []]. destruct (wx_whole (WInitialize :: os) (wx_0 c am)) as [[s L]|] eqn:Er; [|intros []]. destruct (wx_step o s) as [[s' x]|] eqn:E; [|intros []].
  intros R. exists c, am, s, L, s', x. split; [done|]. split; [by apply wx_wfair|]. done.
Qed.
Definition wl_os : list wop :=
  wx_up ++ [WCommand (CmdSubmit InvProps.ex_t1); WCommand (CmdRescan (CbfModel.Included 1) CbfModel.Unbounded [52])] ++ wdrain ++
  [WTimer; from_alice (WNode (MGetData [InvModel.InvTx 1])); from_alice (WNode (MCFilter 0 (exH la1) [11; 52]))] ++ wdrain ++ wdrain ++ [WTimer].
Definition wl_block : list wop := wl_os ++ from_alice (WNode (MBlock (InvProps.ex_b (exH la1) [InvProps.ex_t1]))) :: wdrain.

Definition wl_reorg : list wop := wl_block ++ WTimer :: from_alice (WNode (MHeaders [hard])) :: wdrain.

(** ** C116 *)

(** A filter is reported as a match exactly if it matches what the user looks
    for at that time, and it was authentic for that block at that height of
    the active chain. *)
Theorem C116_matched H scf P kcf acf ping_timeout env wenv_of magic hook cap c0 st white am os s L o s' x block h v m c :
  sane kcf -> wfair wenv_of am -> CbfSpec.chained P ((CbfModel.p_genesis P, CbfModel.p_header P (CbfModel.p_genesis P) 0) :: st) ->
  let step := full_step H scf P kcf acf ping_timeout env wenv_of magic hook in
  let s0 := full0 c0 (CbfModel.cbf0 cap st) white am in
  whole_log H step env (WInitialize :: os) s0 = Val (s, L) -> step o s = Val (s', x) ->
  says x (EvCbf (CbfModel.CoFilterProcessed block h v m c)) ->
  exists f, wsome_step step (wvouches H P h block f) ((WInitialize :: os) ++ [o]) s0 /\
    (m = true <-> looked_for P (entry_of <$> L ++ [wlog_step H env o s x]) f block).
Proof.
  intros Sn (Fw & Fo & e0 & store & Fe0 & New) Ch step s0.
  exact (whole_matched H scf P kcf acf ping_timeout env wenv_of magic hook Sn Fw Fo cap st c0 white am e0 store Fe0 New Ch os s L o s' x block h v m c).
Qed.
Print Assumptions C116_matched.

(** A block is reported as a match exactly if it has just been processed and
    its filter matched. *)
Theorem C116_reported H scf P kcf acf ping_timeout env wenv_of magic hook cap c0 st white am os s L o s' x block h :
  sane kcf -> wfair wenv_of am -> CbfSpec.chained P ((CbfModel.p_genesis P, CbfModel.p_header P (CbfModel.p_genesis P) 0) :: st) ->
  let step := full_step H scf P kcf acf ping_timeout env wenv_of magic hook in
  whole_log H step env (WInitialize :: os) (full0 c0 (CbfModel.cbf0 cap st) white am) = Val (s, L) -> step o s = Val (s', x) ->
  says x (EvCbf (CbfModel.CoBlockMatched block h)) <->
  (exists b f, WvNode (EvInv (InvModel.IoBlock b h f)) ∈ announced x /\ InvModel.b_hash b = block) /\ awaited h (entry_of <$> L) = true.
Proof.
  intros Sn (Fw & Fo & e0 & store & Fe0 & New) Ch step.
  exact (whole_reported H scf P kcf acf ping_timeout env wenv_of magic hook Sn Fw Fo cap st c0 white am e0 store Fe0 New Ch os s L o s' x block h).
Qed.
Print Assumptions C116_reported.

(** A block that the user asked for, or whose filter matched, and that has not
    come, is asked for when a timer fires fifteen seconds after it was last
    asked for, if a peer is there that serves blocks. *)
Theorem C116_fetched H scf P kcf acf ping_timeout env wenv_of magic hook cap c0 st white am os s L1 e L2 s' x h a :
  sane kcf -> wfair wenv_of am -> CbfSpec.chained P ((CbfModel.p_genesis P, CbfModel.p_header P (CbfModel.p_genesis P) 0) :: st) ->
  let step := full_step H scf P kcf acf ping_timeout env wenv_of magic hook in
  let l := entry_of (wlog_step H env WTimer s x) in
  whole_log H step env (WInitialize :: os) (full0 c0 (CbfModel.cbf0 cap st) white am) = Val (s, L1 ++ e :: L2) -> step WTimer s = Val (s', x) ->
  makes_wanted h (entry_of <$> L1) (entry_of e) -> Forall (fun e => existsb (block_message h) (announced (e_items (entry_of e))) = false) L2 ->
  default 0 (last_asked h (entry_of <$> L1 ++ e :: L2)) + 15000 <= e_time l -> serves a ((entry_of <$> L1 ++ e :: L2) ++ [l]) = Some true ->
  exists b, writes x b (MGetData [InvModel.InvBlock h]).
Proof.
  intros Sn (Fw & Fo & e0 & store & Fe0 & New) Ch step l R E W F.
  exact (whole_fetched H scf P kcf acf ping_timeout env wenv_of magic hook Sn Fw Fo cap st c0 white am e0 store Fe0 New Ch os s L1 e L2 s' x h a R E W F).
Qed.
Print Assumptions C116_fetched.

(** A transaction that was reported as confirmed in a block at some height is
    reported as reverted, with the transaction, when that height is. *)
Theorem C116_reverted H scf P kcf acf ping_timeout env wenv_of magic hook cap c0 st white am os s L1 e L2 o s' x id hash h b k th rv cn :
  sane kcf -> wfair wenv_of am ->
  let step := full_step H scf P kcf acf ping_timeout env wenv_of magic hook in
  whole_log H step env (WInitialize :: os) (full0 c0 (CbfModel.cbf0 cap st) white am) = Val (s, L1 ++ e :: L2) -> step o s = Val (s', x) ->
  says (wl_items e) (EvInv (InvModel.IoStatus id (InvModel.StConfirmed hash h))) -> Forall (fun e => keeps h (entry_of e)) L2 ->
  WvNode (EvSync (SyncModel.SoImported b k th rv cn)) ∈ announced x -> h ∈ rv.*1 ->
  exists t, t_id t = id /\ says x (EvInv (InvModel.IoStatus id (InvModel.StReverted t))).
Proof.
  intros Sn (Fw & Fo & e0 & store & Fe0 & New) step.
  exact (whole_reverted H scf P kcf acf ping_timeout env wenv_of magic hook Sn Fw Fo cap st c0 white am e0 store Fe0 New os s L1 e L2 o s' x id hash h b k th rv cn).
Qed.
Print Assumptions C116_reverted.

(** A submission and a rescan; the filter of the first block matches, the block
    is asked for, comes, and is replaced. *)
Definition told_events (x : list (fitem wmsg wev)) : list nev := omap (fun i => match i with FQueued _ (IoEvent (WvNode e)) => Some e | _ => None end) x.
Lemma told_says x e : e ∈ told_events x -> says x e.
Proof. intros I. apply elem_of_list_omap in I as (i & I & J). destruct i as [c [| | | |[]]| |]; try done. injection J as ->. by exists c. Qed.
Example C116_matched_case : exists c am s L s' x, sane wx_kcf /\ wfair wx_wenv am /\ wx_whole (WInitialize :: take 137 wl_os) (wx_0 c am) = Val (s, L) /\
  wx_step (from_alice (WNode (MCFilter 0 (exH la1) [11; 52]))) s = Val (s', x) /\
  (exists v c, says x (EvCbf (CbfModel.CoFilterProcessed (exH la1) 1 v true c))) /\ scripts_watched (entry_of <$> L) = [52] /\ elements (dom (txs_watched (entry_of <$> L))) = [1].
Proof.
  destruct (wl_ex (take 137 wl_os) (from_alice (WNode (MCFilter 0 (exH la1) [11; 52]))) (fun s L x => processed (told_events x) = [(exH la1, 1, true)] /\
    scripts_watched (entry_of <$> L) = [52] /\ elements (dom (txs_watched (entry_of <$> L))) = [1])) as (c & am & s & L & s' & x & Sn & Fw & R & E & Q1 & Q2); [vm_compute; repeat split|].
  exists c, am, s, L, s', x. split; [exact Sn|]. split; [exact Fw|]. split; [exact R|]. split; [exact E|]. split; [|exact Q2].
  destruct (processed_in _ _ _ _ Q1) as (v & k & I). exists v, k. by apply told_says.
Qed.
Example C116_fetched_case : exists c am s L1 e L2 s' x, sane wx_kcf /\ wfair wx_wenv am /\ wx_whole (WInitialize :: take 166 wl_os) (wx_0 c am) = Val (s, L1 ++ e :: L2) /\ wx_step WTimer s = Val (s', x) /\
  makes_wanted (exH la1) (entry_of <$> L1) (entry_of e) /\ Forall (fun e => existsb (block_message (exH la1)) (announced (e_items (entry_of e))) = false) L2 /\
  default 0 (last_asked (exH la1) (entry_of <$> L1 ++ e :: L2)) + 15000 <= e_time (entry_of (wlog_step exH nx_env WTimer s x)) /\
  serves (key alice) ((entry_of <$> L1 ++ e :: L2) ++ [entry_of (wlog_step exH nx_env WTimer s x)]) = Some true /\ length L2 = 28%nat.
Proof.
  destruct (wl_ex (take 166 wl_os) WTimer (fun s L x =>
    match L !! 138%nat with
    | Some e => processed (queued_events (e_items (entry_of e))) = [(exH la1, 1, true)]
    | None => False
    end /\ awaited 1 (entry_of <$> take 138 L) = false /\ forallb (fun e => negb (existsb (block_message (exH la1)) (announced (e_items (entry_of e))))) (drop 139 L) = true /\
    (default 0 (last_asked (exH la1) (entry_of <$> L)) + 15000 <=? e_time (entry_of (wlog_step exH nx_env WTimer s x))) = true /\
    serves (key alice) ((entry_of <$> L) ++ [entry_of (wlog_step exH nx_env WTimer s x)]) = Some true /\ length (drop 139 L) = 28%nat))
    as (c & am & s & L & s' & x & Sn & Fw & R & E & Q1 & Q2 & Q3 & Q4 & Q5 & Q6); [vm_compute; repeat split|].
  destruct (L !! 138%nat) as [e|] eqn:El; [|done]. exists c, am, s, (take 138 L), e, (drop 139 L), s', x. rewrite (take_drop_middle L 138 e El).
  split; [exact Sn|]. split; [exact Fw|]. split; [exact R|]. split; [exact E|]. split; [|split; [|split; [by apply N.leb_le|by split]]].
  - right. destruct (processed_in _ _ _ _ Q1) as (v & c1 & I). exists 1, v, c1. split; [exact I|exact Q2].
  - apply Forall_forall. intros y Hy. rewrite forallb_forall in Q3. apply elem_of_list_In in Hy. by apply negb_true_iff, Q3.
Qed.
Example C116_reported_case : exists c am s L s' x, sane wx_kcf /\ wfair wx_wenv am /\ wx_whole (WInitialize :: take 172 wl_block) (wx_0 c am) = Val (s, L) /\ wx_step WNext s = Val (s', x) /\
  says x (EvCbf (CbfModel.CoBlockMatched (exH la1) 1)).
Proof.
  destruct (wl_ex (take 172 wl_block) WNext (fun s L x => head (told_events x) = Some (EvCbf (CbfModel.CoBlockMatched (exH la1) 1))))
    as (c & am & s & L & s' & x & Sn & Fw & R & E & Q); [vm_compute; reflexivity|]. exists c, am, s, L, s', x. split; [exact Sn|]. split; [exact Fw|]. split; [exact R|]. split; [exact E|].
  apply told_says. destruct (told_events x); [done|]. injection Q as ->. by left.
Qed.
Example C116_reverted_case : exists c am s L1 e L2 s' x b k th rv cn, sane wx_kcf /\ wfair wx_wenv am /\ wx_whole (WInitialize :: take 187 wl_reorg) (wx_0 c am) = Val (s, L1 ++ e :: L2) /\ wx_step WNext s = Val (s', x) /\
  says (wl_items e) (EvInv (InvModel.IoStatus 1 (InvModel.StConfirmed (exH la1) 1))) /\ Forall (fun e => keeps 1 (entry_of e)) L2 /\
  WvNode (EvSync (SyncModel.SoImported b k th rv cn)) ∈ announced x /\ 1 ∈ rv.*1.
Proof.
  destruct (wl_ex (take 187 wl_reorg) WNext (fun s L x =>
    match L !! 168%nat with
    | Some e => match told_events (wl_items e) with EvInv (InvModel.IoStatus i (InvModel.StConfirmed b h)) :: _ => i = 1 /\ b = exH la1 /\ h = 1 | _ => False end
    | None => False
    end /\ forallb (fun e => keeps_b 1 (entry_of e)) (drop 169 L) = true /\
    match announced x with [WvNode (EvSync (SyncModel.SoImported _ _ _ rv _))] => rv.*1 = [2; 1] | _ => False end))
    as (c & am & s & L & s' & x & Sn & Fw & R & E & Q1 & Q2 & Q3); [vm_compute; repeat split|].
  destruct (L !! 168%nat) as [e|] eqn:El; [|done]. destruct (announced x) as [|[| | | | |[| | |[]| |]] [|]] eqn:Ea; try done.
  eexists c, am, s, (take 168 L), e, (drop 169 L), s', x, _, _, _, _, _. rewrite (take_drop_middle L 168 e El).
  split; [exact Sn|]. split; [exact Fw|]. split; [exact R|]. split; [exact E|]. split; [|split; [|split; [rewrite Ea; by left|rewrite Q3; right; by left]]].
  - apply told_says. destruct (told_events (wl_items e)) as [|[| | | | |[]] es] eqn:Eq; try done. destruct s0; try done. destruct Q1 as (-> & -> & ->). by left.
  - apply Forall_forall. intros y Hy. rewrite forallb_forall in Q2. apply elem_of_list_In in Hy. by apply keeps_ok, Q2.
Qed.

(** ** C117 *)

(** Whatever is written about headers, filters, blocks and transactions was
    broadcast by the user, or there is a reason for it in the events announced
    and the inputs handled. *)
Theorem C117_reason H scf P kcf acf ping_timeout env wenv_of magic hook cap c0 st white am os s L o s' x w m :
  sane kcf -> wfair wenv_of am -> fair_node env -> fair_filters env ->
  let step := full_step H scf P kcf acf ping_timeout env wenv_of magic hook in
  whole_log H step env (WInitialize :: os) (full0 c0 (CbfModel.cbf0 cap st) white am) = Val (s, L) -> step o s = Val (s', x) -> writes x w m ->
  let l := entry_of <$> L ++ [wlog_step H env o s x] in
  (exists pred, o = WCommand (CmdBroadcast (WNode m) pred)) \/ reason_to_write (ops l) (events l) (key w) m.
Proof.
  intros Sn (Fw & Fo & e0 & store & Fe0 & New) Fe Ff step R E W l.
  exact (whole_writes H scf P kcf acf ping_timeout env wenv_of magic hook Sn Fw Fo cap st c0 white am e0 store Fe0 New os s L o s' x w m Fe Ff R E W).
Qed.
Print Assumptions C117_reason.

(** Such a handshake was made on the wire: the peer's [verack] got through on a
    connection of that direction, after a [version] that told these services,
    and after [wtxidrelay] or not. *)
Theorem C117_handshake H scf P kcf acf ping_timeout env wenv_of magic hook cap c0 st white am os s L w h :
  wfair wenv_of am ->
  let step := full_step H scf P kcf acf ping_timeout env wenv_of magic hook in
  whole_log H step env (WInitialize :: os) (full0 c0 (CbfModel.cbf0 cap st) white am) = Val (s, L) -> h ∈ handshakes (key w) (events (entry_of <$> L)) ->
  exists L1 e L2 local lk v, L = L1 ++ e :: L2 /\ heard_in w WVerack (wl_op e, wl_items e) /\
    link_of w (pairs L1) = LOpen local lk (Some (v, sh_wtx h, false)) /\ 70012 <= vm_version v /\
    sh_outbound h = (match lk with Outbound => true | Inbound => false end) /\ sh_network h = N.testbit (vm_services v) 0 /\ sh_filters h = N.testbit (vm_services v) 6.
Proof.
  intros (Fw & Fo & e0 & store & Fe0 & New) step.
  exact (whole_handshake H scf P kcf acf ping_timeout env wenv_of magic hook Fw Fo cap st c0 white am e0 store Fe0 New os s L w h).
Qed.
Print Assumptions C117_handshake.

(** Filter headers, filters, a transaction and a block, all with one peer, whom
    we connected to and who serves blocks and filters; the transaction was
    submitted and asked for. *)
Example C117_case : exists c am s L s' x, sane wx_kcf /\ wfair wx_wenv am /\ fair_node nx_env /\ fair_filters nx_env /\
  wx_whole (WInitialize :: take 136 wl_os) (wx_0 c am) = Val (s, L) /\ wx_step (from_alice (WNode (MGetData [InvModel.InvTx 1]))) s = Val (s', x) /\ writes x alice (MTx InvProps.ex_t1) /\
  (fun wm => (wm.1, write_kind wm.2)) <$> written (concat (e_items <$> (entry_of <$> L))) = (fun k => (alice, k)) <$> [3; 3; 4; 7; 4] /\
  handshakes (key alice) (events (entry_of <$> L)) = [Shake true true true false].
Proof.
  destruct (wl_ex (take 136 wl_os) (from_alice (WNode (MGetData [InvModel.InvTx 1]))) (fun s L x =>
    match x with FQueued _ (IoWrite a (WNode (MTx t))) :: _ => a = alice /\ t = InvProps.ex_t1 | _ => False end /\
    (fun wm => (wm.1, write_kind wm.2)) <$> written (concat (e_items <$> (entry_of <$> L))) = (fun k => (alice, k)) <$> [3; 3; 4; 7; 4] /\
    handshakes (key alice) (events (entry_of <$> L)) = [Shake true true true false])) as (c & am & s & L & s' & x & Sn & Fw & R & E & Q1 & Q2); [vm_compute; repeat split|].
  exists c, am, s, L, s', x. split; [exact Sn|]. split; [exact Fw|]. split; [exact nx_fair|]. split; [exact nx_filters|]. split; [exact R|]. split; [exact E|]. split; [|exact Q2].
  destruct x as [|[k [a m| | | |]| |] x]; try done. destruct m as [[]| | | | | | | | |]; try done. destruct Q1 as [-> ->]. exists k. by left.
Qed.
