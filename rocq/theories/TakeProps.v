(** Property theorems about the headers that a running client takes, and what
    it says of them (C124), each followed by a concrete case. *)
From Verif Require Import Base RunEx PowModel BlockModel BlockSpec BlockExample BlockProps UtilModel FeeModel AddrModel AddrSpec AddrProps PeerModel PeerSpec PeerMain PeerProps
  DispModel DispSpec LoadModel NodeModel NodeSpec NodeProps NodeLogSpec NodeLogProps FullModel FullSpec FullProofs FullProps FullChainSpec FullMgrSpec FullMgrProps FullLinkSpec FullNodeSpec FullNode FullWrites
  FullNodeProps ClientModel TakeSpec TakeProofs TakeFull.
From Verif Require SyncModel SyncSpec SyncProps CbfModel CbfSpec CbfProps InvModel InvSpec InvProps.
Open Scope N_scope.

(** ** C124 *)

(** Headers of a connected peer, not more than a message may hold, that were
    asked for with no timer or other answer since or are few, the last of them
    not on the chain: all of them are given to the chain in their order, which
    becomes as this makes it; what the client then reports is exactly what the
    result says, and that is true of the chain before and after. *)
Theorem C124_taken H ng scf P kcf acf ping_timeout cap env wenv_of magic hook st ps cps fst0 c0 white am os s L o s' x a hds :
  let step := full_step H scf P kcf acf ping_timeout env wenv_of magic hook in
  wfair wenv_of am -> wsetup H ng P kcf env wenv_of st ps cps fst0 c0 am (wheaders (os ++ [o])) ->
  whole_log H step env (WInitialize :: os) (full0 c0 (CbfModel.cbf0 cap fst0) white am) = Val (s, L) -> step o s = Val (s', x) ->
  WvMessage a (WNode (MHeaders hds)) ∈ announced x -> takes H true (key a) a (entry_of <$> L) hds (chain_of s) ->
  exists hds' now r, hds'.*1 = hds /\ import_blocks H (n_cache (w_node (f_state s))) hds' now = Val (n_cache (w_node (f_state s')), r) /\
    wreported x = SyncSpec.events_of r /\ outcome H (chain_of s) (chain_of s') r.
Proof.
  intros step Fa Su R E A. exact (proj1 (whole_taken H ng scf P kcf acf ping_timeout cap env wenv_of magic hook st ps cps fst0 c0 white am Fa os s L o s' x a hds Su R E A)).
Qed.
Print Assumptions C124_taken.

(** Only such headers (here a timer may have fired since they were asked for)
    and those that the user imports change anything of the chain or of the
    headers set aside, or make the client report about the chain. *)
Theorem C124_only H ng scf P kcf acf ping_timeout cap env wenv_of magic hook st ps cps fst0 c0 white am os s L o s' x :
  let step := full_step H scf P kcf acf ping_timeout env wenv_of magic hook in
  wfair wenv_of am -> wsetup H ng P kcf env wenv_of st ps cps fst0 c0 am (wheaders (os ++ [o])) ->
  whole_log H step env (WInitialize :: os) (full0 c0 (CbfModel.cbf0 cap fst0) white am) = Val (s, L) -> step o s = Val (s', x) ->
  n_cache (w_node (f_state s')) <> n_cache (w_node (f_state s)) \/ wreported x <> [] ->
  (exists a hds, WvMessage a (WNode (MHeaders hds)) ∈ announced x /\ takes H false (key a) a (entry_of <$> L) hds (chain_of s)) \/ exists hds, o = WCommand (CmdImportHeaders hds).
Proof. intros step Fa. exact (whole_only H ng scf P kcf acf ping_timeout cap env wenv_of magic hook st ps cps fst0 c0 white am Fa os s L o s' x). Qed.
Print Assumptions C124_only.

(** Headers that the user imports are given to the chain in their order; the
    user gets the result, which is true of the chain before and after, and the
    client reports what it says. *)
Theorem C124_imported H ng scf P kcf acf ping_timeout cap env wenv_of magic hook st ps cps fst0 c0 white am os s L hds s' x :
  let step := full_step H scf P kcf acf ping_timeout env wenv_of magic hook in let o := WCommand (CmdImportHeaders hds) in
  wfair wenv_of am -> wsetup H ng P kcf env wenv_of st ps cps fst0 c0 am (wheaders (os ++ [o])) ->
  whole_log H step env (WInitialize :: os) (full0 c0 (CbfModel.cbf0 cap fst0) white am) = Val (s, L) -> step o s = Val (s', x) ->
  exists hds' now r, node_reply H scf P kcf acf env wenv_of (CmdImportHeaders hds) s = Val (RpImport r) /\ hds'.*1 = hds /\
    import_blocks H (n_cache (w_node (f_state s))) hds' now = Val (n_cache (w_node (f_state s')), r) /\
    wreported x = SyncSpec.events_of r /\ outcome H (chain_of s) (chain_of s') r.
Proof. intros step o Fa. exact (whole_import H ng scf P kcf acf ping_timeout cap env wenv_of magic hook st ps cps fst0 c0 white am Fa os s L hds s' x). Qed.
Print Assumptions C124_imported.

(** *** Cases *)
Lemma tx_ex os o (Q : wstate -> list wentry -> wstate -> list (fitem wmsg wev) -> Prop) :
  let hs := wheaders (os ++ [o]) in forallb (fun h => h_prev h <? exH h) hs = true -> lenN hs < 2 ^ 64 ->
  match from_store exH ex_ng cp_store cp_params [], addr_new (ex_aenv T) ∅ with
  | Val (Ok c), Val am => c_height c = 0 /\ match wx_whole (WInitialize :: os) (wx_0 c am) with
      | Val (s, L) => match wx_step o s with Val (s', x) => Q s L s' x | Panic _ => False end
      | Panic _ => False
      end
  | _, _ => False
  end ->
  exists c am s L s' x, wfair wx_wenv am /\ wx_setup c am hs /\ wx_whole (WInitialize :: os) (wx_0 c am) = Val (s, L) /\ wx_step o s = Val (s', x) /\ Q s L s' x.
Proof.
  intros hs A B R. destruct (wx_ex hs [] (fun c am _ => from_store exH ex_ng cp_store cp_params [] = Val (Ok c) /\ addr_new (ex_aenv T) ∅ = Val am) A B) as (c & am & _ & _ & S & _ & E1 & E2).
  { destruct (from_store exH ex_ng cp_store cp_params []) as [[c|]|]; [|destruct R..]. destruct (addr_new (ex_aenv T) ∅) as [am|]; [|destruct R]. split; [exact (proj1 R)|]. cbn. split; reflexivity. }
  rewrite E1, E2 in R. destruct R as [_ R]. destruct (wx_whole (WInitialize :: os) (wx_0 c am)) as [[s L]|] eqn:Er; [|destruct R]. destruct (wx_step o s) as [[s' x]|] eqn:E; [|destruct R].
  exists c, am, s, L, s', x. split; [by apply wx_wfair|]. split; [exact S|]. split; [exact Er|]. split; [exact E|exact R].
Qed.
Definition tells_of (x : list SyncModel.sout) : list (N * N) :=
  map (fun o => match o with SyncModel.SoDisconnected h hd => (0, h) | SyncModel.SoConnected h hd => (1, h) | SyncModel.SoImported _ _ h _ _ => (2, h) | _ => (3, 0) end) x.

(** A peer tells of a block, is asked for headers, and answers. *)
Definition tx_asks : list wop := wx_meet ++ [from_alice (WNode (MInv [InvModel.InvBlock (exH la2)]))].
Example C124_asked : exists c am s L s' x, wfair wx_wenv am /\ wx_setup c am (wheaders (tx_asks ++ [from_alice (WNode (MHeaders [la1; la2]))])) /\
  wx_whole (WInitialize :: tx_asks) (wx_0 c am) = Val (s, L) /\ wx_step (from_alice (WNode (MHeaders [la1; la2]))) s = Val (s', x) /\
  announced x = [WvMessage alice (WNode (MHeaders [la1; la2]))] /\ joined (key alice) (entry_of <$> L) = true /\ asking true (key alice) alice (entry_of <$> L) = true /\
  existsb (N.eqb (exH la2)) (exH <$> chain_of s) = false /\ tail (chain_of s') = [la1; la2] /\ tells_of (wreported x) = [(1, 1); (1, 2); (2, 2)].
Proof.
  refine (tx_ex tx_asks (from_alice (WNode (MHeaders [la1; la2]))) (fun s L s' x => announced x = [WvMessage alice (WNode (MHeaders [la1; la2]))] /\ joined (key alice) (entry_of <$> L) = true /\ asking true (key alice) alice (entry_of <$> L) = true /\
  existsb (N.eqb (exH la2)) (exH <$> chain_of s) = false /\ tail (chain_of s') = [la1; la2] /\ tells_of (wreported x) = [(1, 1); (1, 2); (2, 2)]) _ _ _); [vm_compute; reflexivity|vm_compute; reflexivity|vm_compute; repeat split].
Qed.
(** A client with two headers gets one with more work, that replaces both; it
    was not asked for. *)
Example C124_case : exists c am s L s' x, wfair wx_wenv am /\ wx_setup c am (wheaders (wx_up ++ [from_alice (WNode (MHeaders [hard]))])) /\
  wx_whole (WInitialize :: wx_up) (wx_0 c am) = Val (s, L) /\ wx_step (from_alice (WNode (MHeaders [hard]))) s = Val (s', x) /\
  announced x = [WvMessage alice (WNode (MHeaders [hard]))] /\ joined (key alice) (entry_of <$> L) = true /\
  existsb (N.eqb (exH hard)) (exH <$> chain_of s) = false /\ tail (chain_of s') = [hard] /\ tells_of (wreported x) = [(0, 2); (0, 1); (1, 1); (2, 1)].
Proof.
  refine (tx_ex wx_up (from_alice (WNode (MHeaders [hard]))) (fun s L s' x => announced x = [WvMessage alice (WNode (MHeaders [hard]))] /\ joined (key alice) (entry_of <$> L) = true /\
  existsb (N.eqb (exH hard)) (exH <$> chain_of s) = false /\ tail (chain_of s') = [hard] /\ tells_of (wreported x) = [(0, 2); (0, 1); (1, 1); (2, 1)]) _ _ _); [vm_compute; reflexivity|vm_compute; reflexivity|vm_compute; repeat split].
Qed.
(** The user imports it instead. *)
Example C124_import_case : exists c am s L s' x, wfair wx_wenv am /\ wx_setup c am (wheaders (wx_up ++ [WCommand (CmdImportHeaders [hard])])) /\
  wx_whole (WInitialize :: wx_up) (wx_0 c am) = Val (s, L) /\ wx_step (WCommand (CmdImportHeaders [hard])) s = Val (s', x) /\
  tail (chain_of s') = [hard] /\ tells_of (wreported x) = [(0, 2); (0, 1); (1, 1); (2, 1)].
Proof.
  refine (tx_ex wx_up (WCommand (CmdImportHeaders [hard])) (fun s L s' x => tail (chain_of s') = [hard] /\ tells_of (wreported x) = [(0, 2); (0, 1); (1, 1); (2, 1)]) _ _ _); [vm_compute; reflexivity|vm_compute; reflexivity|vm_compute; repeat split].
Qed.

(** That every change of the chain is reported is false: a message whose second
    header is of the far future leaves the first on the chain, and nothing is
    reported. *)
Theorem C124_reported_refuted : exists H ng scf P kcf acf ping_timeout cap env wenv_of magic hook st ps cps fst0 c0 white am os s L o s' x,
  let step := full_step H scf P kcf acf ping_timeout env wenv_of magic hook in
  wfair wenv_of am /\ wsetup H ng P kcf env wenv_of st ps cps fst0 c0 am (wheaders (os ++ [o])) /\
  whole_log H step env (WInitialize :: os) (full0 c0 (CbfModel.cbf0 cap fst0) white am) = Val (s, L) /\ step o s = Val (s', x) /\
  length (chain_of s') <> length (chain_of s) /\ wreported x = [].
Proof.
  destruct (tx_ex wx_meet (from_alice (WNode (MHeaders [la1; easy 2 3 4000000000]))) (fun s _ s' x => length (chain_of s') <> length (chain_of s) /\ wreported x = []))
    as (c & am & s & L & s' & x & A1 & A2 & A3 & A4 & A5); [vm_compute; reflexivity|vm_compute; reflexivity|vm_compute; repeat split; discriminate|].
  exists exH, ex_ng, SyncProps.ex_cf, CbfProps.ex_P, wx_kcf, ex_acf, 60000, 1000, nx_env, wx_wenv, 7, (fun _ _ => true), cp_store, cp_params, [], [], c, ∅, am, wx_meet, s, L, (from_alice (WNode (MHeaders [la1; easy 2 3 4000000000]))), s', x.
  intros step. split; [exact A1|]. split; [exact A2|]. split; [exact A3|]. split; [exact A4|exact A5].
Qed.
Print Assumptions C124_reported_refuted.
