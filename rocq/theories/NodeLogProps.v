(** Property theorems about what the node says and why (C102), and about the
    filters, blocks and transactions that it reports and fetches, told by its log
    (C103-C105), each followed by a concrete case. *)
From Verif Require Import Base RunEx PowModel BlockModel BlockSpec BlockExample BlockProps UtilModel FeeModel AddrModel PeerModel
  DispModel DispSpec LoadModel NodeModel NodeSpec NodeProps NodeLogSpec NodeLog NodeSeen NodeFetch.
From Verif Require SyncModel SyncSpec SyncProps CbfModel CbfSpec CbfProps InvModel InvSpec InvProps.
Open Scope N_scope.

(** ** C102 *)

(** Whatever the node writes, and whoever to, there is a reason for it in the
    events that it has announced and the inputs it has handled. *)
Theorem C102_reason H scf P cap sock env magic c0 st os s t o s' x c w m :
  fair_node env -> fair_filters env ->
  node_run H scf P sock env magic os (node0 c0 (CbfModel.cbf0 cap st)) = Val (s, t) ->
  node_step H scf P sock env magic o s = Val (s', x) -> FQueued c (IoWrite w m) ∈ x ->
  exists a, w = sock a /\ reason_to_write (os ++ [o]) (announced (t ++ x)) a m.
Proof. exact (node_writes H scf P sock env magic c0 cap st os s t o s' x c w m). Qed.
Print Assumptions C102_reason.

(** A submission, a rescan, a filter that matches: headers, filter headers,
    filters, the transaction and the block are asked for, announced or sent,
    all with one peer. *)
Definition nl_os : list nop :=
  nx_up ++ [NSubmit InvProps.ex_t1; NRescan (CbfModel.Included 1) CbfModel.Unbounded [52]] ++ drain ++
  [NTimer; NMessage 1 (MGetData [InvModel.InvTx 1]); NMessage 1 (MCFilter 0 (exH la1) [11; 52])] ++ drain ++ drain ++ [NTimer].
Definition write_kind (m : nmsg) : N :=
  match m with MGetHeaders _ => 1 | MHeaders _ => 2 | MGetCFHeaders _ _ _ => 3 | MGetCFilters _ _ => 4 | MCFHeaders _ _ _ _ => 5 | MGetData _ => 6 | MInv _ => 7 | MTx _ => 8 | _ => 9 end.
Lemma nx_filters : fair_filters nx_env.
Proof. intros n m l. reflexivity. Qed.
Lemma nx_ex_t os (Q : cache -> state -> list (fitem nmsg nev) -> Prop) :
  match from_store exH ex_ng cp_store cp_params [] with
  | Val (Ok c) => match nx_run os (nx_0 c) with Val (s, t) => Q c s t | Panic _ => False end
  | _ => False
  end ->
  exists c s t, nx_run os (nx_0 c) = Val (s, t) /\ Q c s t.
Proof.
  destruct (from_store exH ex_ng cp_store cp_params []) as [[c|]|]; [|intros []..]. intros R.
  destruct (nx_run os (nx_0 c)) as [[s t]|] eqn:Er; [|destruct R]. exists c, s, t. split; [exact Er|exact R].
Qed.
Example C102_case : exists c s t, fair_node nx_env /\ fair_filters nx_env /\ nx_run nl_os (nx_0 c) = Val (s, t) /\
  (fun wm => (wm.1, write_kind wm.2)) <$> written t = (fun k => (nx_sock 1, k)) <$> [3; 3; 4; 7; 1; 4; 8; 6] /\
  handshakes 1 (announced t) = [Shake true true true false].
Proof.
  destruct (nx_ex_t nl_os (fun _ _ t => (fun wm => (wm.1, write_kind wm.2)) <$> written t = (fun k => (nx_sock 1, k)) <$> [3; 3; 4; 7; 1; 4; 8; 6] /\
    handshakes 1 (announced t) = [Shake true true true false])) as (c & s & t & R & Q); [vm_compute; split; reflexivity|].
  exists c, s, t. split; [exact nx_fair|]. split; [exact nx_filters|]. split; [exact R|exact Q].
Qed.

Lemma nx_chained : CbfSpec.chained CbfProps.ex_P [(CbfModel.p_genesis CbfProps.ex_P, CbfModel.p_header CbfProps.ex_P (CbfModel.p_genesis CbfProps.ex_P) 0)].
Proof. split; [reflexivity|]. intros i a b Ha Hb. destruct i; discriminate Hb. Qed.
Notation nx_log := (node_log exH nx_step nx_env).
Lemma nl_ex os o (Q : state -> list entry -> list (fitem nmsg nev) -> Prop) :
  match from_store exH ex_ng cp_store cp_params [] with
  | Val (Ok c) => match nx_log os (nx_0 c) with
      | Val (s, L) => match nx_step o s with Val (_, x) => Q s L x | Panic _ => False end
      | Panic _ => False
      end
  | _ => False
  end ->
  exists c s L s' x, nx_log os (nx_0 c) = Val (s, L) /\ nx_step o s = Val (s', x) /\ Q s L x.
Proof.
  destruct (from_store exH ex_ng cp_store cp_params []) as [[c|]|]; [|intros []..]. intros R.
  destruct (nx_log os (nx_0 c)) as [[s L]|] eqn:Er; [|destruct R]. destruct (nx_step o s) as [[s' x]|] eqn:E; [|destruct R].
  exists c, s, L, s', x. split; [exact Er|]. split; [exact E|exact R].
Qed.

(** ** C103 *)

(** A filter is reported as a match exactly if it matches what the user looks
    for at that time, and it was authentic for that block at that height of
    the active chain. *)
Theorem C103_matched H scf P cap sock env magic c0 st os s L o s' x block h v m c :
  CbfSpec.chained P ((CbfModel.p_genesis P, CbfModel.p_header P (CbfModel.p_genesis P) 0) :: st) ->
  let step := node_step H scf P sock env magic in
  node_log H step env os (node0 c0 (CbfModel.cbf0 cap st)) = Val (s, L) -> step o s = Val (s', x) ->
  EvCbf (CbfModel.CoFilterProcessed block h v m c) ∈ queued_events x ->
  exists f, some_step step (vouches H P h block f) (os ++ [o]) (node0 c0 (CbfModel.cbf0 cap st)) /\
    (m = true <-> looked_for P (L ++ [log_step H env o s x]) f block).
Proof. intros Ch step. exact (node_matched H scf P sock env magic c0 cap st Ch os s L o s' x block h v m c). Qed.
Print Assumptions C103_matched.

Definition processed (es : list nev) : list (N * N * bool) :=
  omap (fun e => match e with EvCbf (CbfModel.CoFilterProcessed b h _ m _) => Some (b, h, m) | _ => None end) es.
Lemma processed_in es b h m : processed es = [(b, h, m)] -> exists v c, EvCbf (CbfModel.CoFilterProcessed b h v m c) ∈ es.
Proof.
  intros E. assert (I : (b, h, m) ∈ processed es) by (rewrite E; by left). apply elem_of_list_omap in I as (e & I & Q).
  destruct e as [| | | |[]|]; try done. injection Q as -> -> ->. by eexists _, _.
Qed.
(** The filter of the first block, which has the script 52. *)
Example C103_case : exists c s L s' x, nx_log (take 81 nl_os) (nx_0 c) = Val (s, L) /\ nx_step (NMessage 1 (MCFilter 0 (exH la1) [11; 52])) s = Val (s', x) /\
  (exists v c, EvCbf (CbfModel.CoFilterProcessed (exH la1) 1 v true c) ∈ queued_events x) /\ scripts_watched L = [52] /\ elements (dom (txs_watched L)) = [1].
Proof.
  destruct (nl_ex (take 81 nl_os) (NMessage 1 (MCFilter 0 (exH la1) [11; 52])) (fun s L x =>
    processed (queued_events x) = [(exH la1, 1, true)] /\
    scripts_watched L = [52] /\ elements (dom (txs_watched L)) = [1])) as (c & s & L & s' & x & R & E & Q1 & Q2); [vm_compute; repeat split|].
  exists c, s, L, s', x. split; [exact R|]. split; [exact E|]. split; [|exact Q2].
  exact (processed_in _ _ _ _ Q1).
Qed.

(** ** C104 *)

(** A block is reported as a match exactly if it has just been processed and
    its filter matched. *)
Theorem C104_reported H scf P cap sock env magic c0 st os s L o s' x block h :
  CbfSpec.chained P ((CbfModel.p_genesis P, CbfModel.p_header P (CbfModel.p_genesis P) 0) :: st) ->
  let step := node_step H scf P sock env magic in
  node_log H step env os (node0 c0 (CbfModel.cbf0 cap st)) = Val (s, L) -> step o s = Val (s', x) ->
  EvCbf (CbfModel.CoBlockMatched block h) ∈ queued_events x <->
  (exists b f, announced x = [EvInv (InvModel.IoBlock b h f)] /\ InvModel.b_hash b = block) /\ awaited h L = true.
Proof. intros Ch step. exact (node_reported H scf P sock env magic c0 cap st Ch os s L o s' x block h). Qed.
Print Assumptions C104_reported.

(** A block that the user asked for, or whose filter matched, and that has not
    come, is asked for when a timer fires fifteen seconds after it was last
    asked for, if a peer is there that serves blocks. *)
Theorem C104_fetched H scf P cap sock env magic c0 st os s L1 e L2 s' x h a :
  CbfSpec.chained P ((CbfModel.p_genesis P, CbfModel.p_header P (CbfModel.p_genesis P) 0) :: st) ->
  let step := node_step H scf P sock env magic in
  let l := log_step H env NTimer s x in
  node_log H step env os (node0 c0 (CbfModel.cbf0 cap st)) = Val (s, L1 ++ e :: L2) -> step NTimer s = Val (s', x) ->
  makes_wanted h L1 e -> Forall (fun e => existsb (block_message h) (announced (e_items e)) = false) L2 ->
  default 0 (last_asked h (L1 ++ e :: L2)) + 15000 <= e_time l -> serves a ((L1 ++ e :: L2) ++ [l]) = Some true ->
  exists b, (sock b, MGetData [InvModel.InvBlock h]) ∈ written x.
Proof. intros Ch step l R E W F. exact (node_fetched H scf P sock env magic c0 cap st Ch os s L1 e L2 s' x h a R E W F). Qed.
Print Assumptions C104_fetched.

(** The block whose filter matched, with nothing of it until the timer. *)
Example C104_fetched_case : exists c s L1 e L2 s' x, nx_log (take 106 nl_os) (nx_0 c) = Val (s, L1 ++ e :: L2) /\ nx_step NTimer s = Val (s', x) /\
  makes_wanted (exH la1) L1 e /\ Forall (fun e => existsb (block_message (exH la1)) (announced (e_items e)) = false) L2 /\
  default 0 (last_asked (exH la1) (L1 ++ e :: L2)) + 15000 <= e_time (log_step exH nx_env NTimer s x) /\
  serves 1 ((L1 ++ e :: L2) ++ [log_step exH nx_env NTimer s x]) = Some true /\ length L2 = 24%nat.
Proof.
  destruct (nl_ex (take 106 nl_os) NTimer (fun s L x =>
    match L !! 81%nat with
    | Some e => processed (queued_events (e_items e)) = [(exH la1, 1, true)]
    | None => False
    end /\ awaited 1 (take 81 L) = false /\ forallb (fun e => negb (existsb (block_message (exH la1)) (announced (e_items e)))) (drop 82 L) = true /\
    (default 0 (last_asked (exH la1) L) + 15000 <=? e_time (log_step exH nx_env NTimer s x)) = true /\
    serves 1 (L ++ [log_step exH nx_env NTimer s x]) = Some true /\ length (drop 82 L) = 24%nat))
    as (c & s & L & s' & x & R & E & Q1 & Q2 & Q3 & Q4 & Q5 & Q6); [vm_compute; repeat split|].
  destruct (L !! 81%nat) as [e|] eqn:El; [|done]. exists c, s, (take 81 L), e, (drop 82 L), s', x. rewrite (take_drop_middle L 81 e El).
  split; [exact R|]. split; [exact E|]. split; [|split; [|split; [by apply N.leb_le|by split]]].
  - right. destruct (processed_in _ _ _ _ Q1) as (v & c1 & I). exists 1, v, c1. split; [exact I|exact Q2].
  - apply Forall_forall. intros y Hy. rewrite forallb_forall in Q3. apply elem_of_list_In in Hy. by apply negb_true_iff, Q3.
Qed.

(** The block comes, holds the submitted transaction, and is replaced. *)
Definition nl_block : list nop := nl_os ++ NMessage 1 (MBlock (InvProps.ex_b (exH la1) [InvProps.ex_t1])) :: drain.
Example C104_reported_case : exists c s L s' x, nx_log (take 112 nl_block) (nx_0 c) = Val (s, L) /\ nx_step NNext s = Val (s', x) /\
  EvCbf (CbfModel.CoBlockMatched (exH la1) 1) ∈ queued_events x.
Proof.
  destruct (nl_ex (take 112 nl_block) NNext (fun s L x => head (queued_events x) = Some (EvCbf (CbfModel.CoBlockMatched (exH la1) 1))))
    as (c & s & L & s' & x & R & E & Q); [vm_compute; reflexivity|]. exists c, s, L, s', x. split; [exact R|]. split; [exact E|]. destruct (queued_events x); [done|]. injection Q as ->. by left.
Qed.

(** ** C105 *)

(** A transaction that was reported as confirmed in a block at some height is
    reported as reverted, with the transaction, when that height is. *)
Theorem C105_reverted H scf P cap sock env magic c0 st os s L1 e L2 o s' x id hash h b k th rv cn :
  let step := node_step H scf P sock env magic in
  node_log H step env os (node0 c0 (CbfModel.cbf0 cap st)) = Val (s, L1 ++ e :: L2) -> step o s = Val (s', x) ->
  EvInv (InvModel.IoStatus id (InvModel.StConfirmed hash h)) ∈ queued_events (e_items e) -> Forall (keeps h) L2 ->
  EvSync (SyncModel.SoImported b k th rv cn) ∈ announced x -> h ∈ rv.*1 ->
  exists t, t_id t = id /\ EvInv (InvModel.IoStatus id (InvModel.StReverted t)) ∈ queued_events x.
Proof. exact (node_reverted H scf P sock env magic c0 cap st os s L1 e L2 o s' x id hash h b k th rv cn). Qed.
Print Assumptions C105_reverted.

Definition keeps_b (h : N) (e : entry) : bool :=
  forallb (fun v => match v with EvSync (SyncModel.SoImported _ _ _ rv _) => negb (bool_decide (h ∈ rv.*1)) | _ => true end) (announced (e_items e)) &&
  match e_op e with NTimer => (h <=? e_height e) && (e_height e <=? h + 12) && (e_height e <? 2 ^ 64) | _ => true end.
Lemma keeps_ok h e : keeps_b h e = true -> keeps h e.
Proof.
  unfold keeps_b. rewrite andb_true_iff, forallb_forall. intros [A B]. split.
  - intros b k th rv cn I. apply elem_of_list_In, A in I. by apply negb_true_iff, bool_decide_eq_false in I.
  - intros Et. rewrite Et in B. rewrite !andb_true_iff in B. lia.
Qed.
Definition nl_reorg : list nop := nl_block ++ NTimer :: NMessage 1 (MHeaders [hard]) :: drain.
Example C105_case : exists c s L1 e L2 s' x b k th rv cn, nx_log (take 125 nl_reorg) (nx_0 c) = Val (s, L1 ++ e :: L2) /\ nx_step NNext s = Val (s', x) /\
  EvInv (InvModel.IoStatus 1 (InvModel.StConfirmed (exH la1) 1)) ∈ queued_events (e_items e) /\ Forall (keeps 1) L2 /\
  EvSync (SyncModel.SoImported b k th rv cn) ∈ announced x /\ 1 ∈ rv.*1.
Proof.
  destruct (nl_ex (take 125 nl_reorg) NNext (fun s L x =>
    match L !! 107%nat with
    | Some e => match queued_events (e_items e) with EvInv (InvModel.IoStatus i (InvModel.StConfirmed b h)) :: _ => i = 1 /\ b = exH la1 /\ h = 1 | _ => False end
    | None => False
    end /\ forallb (keeps_b 1) (drop 108 L) = true /\
    match announced x with [EvSync (SyncModel.SoImported _ _ _ rv _)] => rv.*1 = [2; 1] | _ => False end))
    as (c & s & L & s' & x & R & E & Q1 & Q2 & Q3); [vm_compute; repeat split|].
  destruct (L !! 107%nat) as [e|] eqn:El; [|done]. destruct (announced x) as [|[| | |[]| |] [|]] eqn:Ea; try done.
  eexists c, s, (take 107 L), e, (drop 108 L), s', x, _, _, _, _, _. rewrite (take_drop_middle L 107 e El).
  split; [exact R|]. split; [exact E|]. split; [|split; [|split; [rewrite Ea; by left|rewrite Q3; right; by left]]].
  - destruct (queued_events (e_items e)) as [|[| | | | |[]] es] eqn:Eq; try done. destruct s0; try done. destruct Q1 as (-> & -> & ->). by left.
  - apply Forall_forall. intros y Hy. rewrite forallb_forall in Q2. apply elem_of_list_In in Hy. by apply keeps_ok, Q2.
Qed.
