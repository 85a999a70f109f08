(** Property theorems about starting the client over the files of an earlier
    run (C85), each followed by a concrete case. *)
From Verif Require Import Base RunEx PowModel BlockModel BlockSpec BlockExample BlockMain
  StoreModel StoreSpec StoreProps LoadModel LoadSpec LoadProofs.
From Verif Require SyncModel SyncProps CbfModel CbfSpec CbfMain CbfProps.
Open Scope N_scope.

(** ** C85 *)

(** An earlier run of the header cache and of the filter manager, both over
    working storage, ended with the block tree [c] and the filter manager [s].
    Their files are what the next run finds (a torn record may follow).
    Starting succeeds in every environment, repairs the files and reports the
    same chain, checkpoints, work, filter headers and heights. *)
Theorem C85_restart H ng hsize henc hdec fsize fenc fdec leaves cf scf e k
    st0 os c outs fst0 old ins s fouts fs :
  codec hsize henc hdec -> codec fsize fenc fdec -> keeps_partial leaves -> params_ok (lc_params cf) ->
  ng (p_network (lc_params cf)) = H (lc_genesis cf) -> s_genesis st0 = lc_genesis cf ->
  reachable H ng st0 (lc_params cf) (lc_checkpoints cf) os c outs -> io_ok os -> c_height c < 2 ^ 64 ->
  CbfSpec.chained (lc_filters cf) (CbfModel.genesis_entry (lc_filters cf) :: fst0) -> lenN fst0 <= CbfModel.tr_height old ->
  CbfSpec.cbf_reach (lc_filters cf) (lc_capacity cf) fst0 ins s fouts -> CbfSpec.faithful old ins -> Forall CbfSpec.io_ok ins ->
  CbfMain.final_tree old ins = tree_of H c ->
  file_of hsize henc (s_tail (c_store c)) (fl_headers fs) -> file_of fsize fenc (CbfModel.c_store s) (fl_filters fs) ->
  exists rd, start H ng hsize hdec fsize fdec leaves cf scf e k fs =
      (Files (Some (encoded henc (s_tail (c_store c)))) (Some (encoded fenc (CbfModel.c_store s))), Val (Ok rd)) /\
    active (rd_cache rd) = active c /\ c_tip H (rd_cache rd) = c_tip H c /\ c_chainwork (rd_cache rd) = c_chainwork c /\
    c_checkpoints (rd_cache rd) = c_checkpoints c /\ s_tail (c_store (rd_cache rd)) = s_tail (c_store c) /\
    rd_tip rd = c_height c /\ rd_filter_tip rd = CbfModel.f_height s /\
    CbfModel.f_entries (lc_filters cf) (rd_cbf rd) = CbfModel.f_entries (lc_filters cf) s /\
    CbfModel.c_store (rd_cbf rd) = CbfModel.c_store s.
Proof.
  exact (restart_runs H ng hsize henc hdec fsize fenc fdec leaves cf scf e k st0 os c outs fst0 old ins s fouts fs).
Qed.
Print Assumptions C85_restart.

(** Without files of an earlier run, or with empty ones, the client starts at
    genesis. *)
Theorem C85_fresh H ng hsize henc hdec fsize fenc fdec leaves cf scf e k fs :
  codec hsize henc hdec -> codec fsize fenc fdec -> keeps_partial leaves ->
  ng (p_network (lc_params cf)) = H (lc_genesis cf) ->
  fl_headers fs ∈ [None; Some []] -> fl_filters fs ∈ [None; Some []] ->
  exists rd, start H ng hsize hdec fsize fdec leaves cf scf e k fs = (Files (Some []) (Some []), Val (Ok rd)) /\
    active (rd_cache rd) = [lc_genesis cf] /\ rd_tip rd = 0 /\ rd_filter_tip rd = 0 /\
    CbfModel.f_entries (lc_filters cf) (rd_cbf rd) = [CbfModel.genesis_entry (lc_filters cf)].
Proof. exact (fresh_start H ng hsize henc hdec fsize fenc fdec leaves cf scf e k fs). Qed.
Print Assumptions C85_fresh.

(** If the filter file has more records than the header file, starting panics
    in every environment (after the first minute of 1970), leaves the files as
    they are, and so panics again at every later attempt. *)
Theorem C85_ahead H ng hsize henc hdec fsize fenc fdec leaves cf scf hds st fs e k e' k' :
  codec hsize henc hdec -> codec fsize fenc fdec -> keeps_partial leaves ->
  ng (p_network (lc_params cf)) = H (lc_genesis cf) ->
  file_of hsize henc hds (fl_headers fs) -> file_of fsize fenc st (fl_filters fs) ->
  linked_from H (H (lc_genesis cf)) hds -> acyclic H hds -> lenN hds < 2 ^ 64 ->
  CbfSpec.chained (lc_filters cf) (CbfModel.genesis_entry (lc_filters cf) :: st) ->
  lenN hds < lenN st -> 60000 <= SyncModel.se_now e -> 60000 <= SyncModel.se_now e' ->
  let start := start H ng hsize hdec fsize fdec leaves cf scf in
  (start e k fs).2 = Panic (PAssert 571) /\
  start e' k' (start e k fs).1 = ((start e k fs).1, Panic (PAssert 571)).
Proof. exact (ahead_panics H ng hsize henc hdec fsize fenc fdec leaves cf scf hds st fs e k e' k'). Qed.
Print Assumptions C85_ahead.

(** A concrete setting: header records of four bytes (the examples are told
    apart by their nonce), filter header records of two. *)
Definition ex_henc (h : header) : list N := [h_prev h; h_time h; h_bits h; h_nonce h].
Definition ex_hdec (b : list N) : option header :=
  match b with [p; t; bits; n] => Some (mkHeader p t bits n) | _ => None end.
Lemma ex_hcodec : codec 4 ex_henc ex_hdec.
Proof. split; [lia|]. by intros []. Qed.
Definition ex_lconf : lconf := LConf ex_g (ex_params Regtest) [] CbfProps.ex_P 1000 true.
Definition ex_start := start exH ex_ng 4 ex_hdec 2 ex_dec std_leaves ex_lconf SyncProps.ex_cf.
Definition ex_files (hs : list header) (fs : list (N * N)) (torn : list N) : files :=
  Files (Some (encoded ex_henc hs ++ torn)) (Some (encoded ex_enc fs ++ take 1 torn)).
Definition ex_e : SyncModel.senv := SyncProps.ex_env 100000.

(** The blocks [a1] and [a2] and their filter headers. *)
Definition ex_old : CbfModel.tree := CbfModel.Tree (exH ex_g) [exH a1; exH a2] None.
Definition ex_ins : list CbfSpec.input := CbfProps.ex_up ex_old (exH a2) [11; 12].
Definition ex_filters : list (N * N) := [(11, 8012); (12, 8012013)].

Example C85_restart_case : exists c outs s fouts,
  reachable exH ex_ng ex_store (ex_params Regtest) [] [imp [a1; a2]] c outs /\ io_ok [imp [a1; a2]] /\
  CbfSpec.cbf_reach CbfProps.ex_P 1000 [] ex_ins s fouts /\ CbfSpec.faithful ex_old ex_ins /\ Forall CbfSpec.io_ok ex_ins /\
  CbfMain.final_tree ex_old ex_ins = tree_of exH c /\
  (active c = [ex_g; a1; a2] /\ s_tail (c_store c) = [a1; a2] /\ CbfModel.c_store s = ex_filters) /\
  match ex_start ex_e CbfProps.ex_k (ex_files [a1; a2] ex_filters [1; 2; 3]) with
  | (fs', Val (Ok rd)) => fs' = ex_files [a1; a2] ex_filters [] /\ rd_tip rd = 2 /\ rd_filter_tip rd = 2
  | _ => False
  end.
Proof.
  destruct (ex_reach (ex_params Regtest) [] ex_store [imp [a1; a2]] (fun c _ =>
    active c = [ex_g; a1; a2] /\ s_tail (c_store c) = [a1; a2] /\ CbfModel.tr_chain (tree_of exH c) = [exH a1; exH a2] /\
    CbfModel.tr_genesis (tree_of exH c) = exH ex_g /\ CbfModel.tr_checkpoint (tree_of exH c) = None))
    as (c & outs & R & E1 & E2 & E3 & E4 & E5); [vm_compute; reflexivity|ex_fair|vm_compute; repeat split|].
  destruct (run_ex (CbfSpec.cbf_run CbfProps.ex_P ex_ins (CbfModel.cbf0 1000 [])) (fun s _ => CbfModel.c_store s = ex_filters))
    as (s & fouts & R' & E'); [vm_compute; reflexivity|].
  exists c, outs, s, fouts. split; [exact R|]. split; [ex_io|]. split; [exact R'|]. split; [repeat split|]. split; [repeat constructor|].
  split; [destruct (tree_of exH c); cbn in *; by subst|]. split; [done|].
  vm_compute. repeat split.
Qed.

Example C85_fresh_case :
  match ex_start ex_e CbfProps.ex_k (Files None (Some [])) with
  | (fs', Val (Ok rd)) => fs' = Files (Some []) (Some []) /\ rd_tip rd = 0 /\ rd_filter_tip rd = 0
  | _ => False
  end.
Proof. vm_compute. repeat split. Qed.

Example C85_ahead_case :
  file_of 4 ex_henc [a1] (fl_headers (ex_files [a1] ex_filters [])) /\ linked_from exH (exH ex_g) [a1] /\
  CbfSpec.chained CbfProps.ex_P (CbfModel.genesis_entry CbfProps.ex_P :: ex_filters) /\
  (ex_start ex_e CbfProps.ex_k (ex_files [a1] ex_filters [])).2 = Panic (PAssert 571).
Proof.
  split; [right; exists []; split; [cbn; lia|reflexivity]|]. split; [repeat split|]. split; [|vm_compute; reflexivity].
  split; [done|]. intros i a b Ha Hb. do 3 (destruct i as [|i]; [cbn in Ha, Hb; try discriminate Hb; injection Ha as <-; injection Hb as <-; reflexivity|]).
  discriminate Ha.
Qed.

(** A crash can lead there.  Both runs are over working storage until the
    process dies while the header cache switches from [a1, a2] to the heavier
    [b1, b2, b3]: the header file was cut back and [b1] written, the filter
    manager has not been told yet and its file still has two records.  From
    then on the client cannot be started. *)
Theorem C85_crash_refuted : exists c c' r s fouts,
  transition exH ex_ng ex_store (ex_params Regtest) [] [imp [a1; a2]; imp [b1; b2]] c (OImport [(b3, ch_die 1)] ex_now) c' r /\
  io_ok [imp [a1; a2]; imp [b1; b2]] /\
  CbfSpec.cbf_reach CbfProps.ex_P 1000 [] ex_ins s fouts /\ CbfSpec.faithful ex_old ex_ins /\ Forall CbfSpec.io_ok ex_ins /\
  CbfMain.final_tree ex_old ex_ins = tree_of exH c /\
  forall e k, 60000 <= SyncModel.se_now e ->
    (ex_start e k (ex_files (s_tail (c_store c')) (CbfModel.c_store s) [])).2 = Panic (PAssert 571).
Proof.
  destruct (ex_trans (ex_params Regtest) [] ex_store [imp [a1; a2]; imp [b1; b2]]
    (OImport [(b3, ch_die 1)] ex_now) (fun c c' r => s_tail (c_store c') = [b1] /\ CbfModel.tr_chain (tree_of exH c) = [exH a1; exH a2] /\
    CbfModel.tr_genesis (tree_of exH c) = exH ex_g /\ CbfModel.tr_checkpoint (tree_of exH c) = None))
    as (c & c' & r & T & E2 & E3 & E4 & E5); [vm_compute; reflexivity|ex_fair| |vm_compute; repeat split|].
  { apply Forall_forall. intros x Hx. cbn in Hx. apply elem_of_list_singleton in Hx as ->. apply fair_die. }
  destruct (run_ex (CbfSpec.cbf_run CbfProps.ex_P ex_ins (CbfModel.cbf0 1000 [])) (fun s _ => CbfModel.c_store s = ex_filters))
    as (s & fouts & R' & E'); [vm_compute; reflexivity|].
  exists c, c', r, s, fouts. split; [exact T|]. split; [ex_io|]. split; [exact R'|]. split; [repeat split|]. split; [repeat constructor|].
  split; [destruct (tree_of exH c); cbn in *; by subst|]. intros e k Hn. rewrite E2, E'.
  apply (C85_ahead exH ex_ng 4 ex_henc ex_hdec 2 ex_enc ex_dec std_leaves ex_lconf SyncProps.ex_cf [b1] ex_filters _ e k e k
    ex_hcodec ex_codec std_keeps_partial eq_refl); try done.
  - right. exists []. split; [cbn; lia|reflexivity].
  - right. exists []. split; [cbn; lia|reflexivity].
  - exists ex_rank. apply Forall_cons. split; [|done]. vm_compute. lia.
  - apply C85_ahead_case.
Qed.
Print Assumptions C85_crash_refuted.

(** A crash one record later leaves as many headers as filter headers, but the
    latter belong to the abandoned branch.  Nothing notices: the client starts,
    and from then on, as long as no peer names the stale tip as previous header
    and no re-org goes below it, the filter headers stay as they are. *)
Theorem C85_stuck P cap st ins s outs :
  CbfSpec.chained P (CbfModel.genesis_entry P :: st) ->
  CbfSpec.cbf_reach P cap st ins s outs ->
  Forall (fun i =>
    (forall from ty stop prev hs, CbfSpec.i_op i = CbfModel.CCFHeaders from ty stop prev hs ->
       prev <> (ne_last (CbfModel.genesis_entry P) st).2) /\
    (forall rev h, CbfSpec.i_op i = CbfModel.CImported rev -> last rev = Some h -> lenN st < h)) ins ->
  CbfModel.c_filters s = st.
Proof. intros C R F. exact (stuck P cap ins _ s outs (CbfMain.cbf0_ok P cap st C) R F). Qed.
Print Assumptions C85_stuck.

(** The filters of [b1], [b2], [b3] hash to 21, 22, 23: an honest peer's
    message is dropped without an answer or a report. *)
Definition ex_new : CbfModel.tree := CbfModel.Tree (exH ex_g) [exH b1; exH b2; exH b3] None.
Example C85_stuck_case :
  (match ex_start ex_e CbfProps.ex_k (ex_files [b1; b2] ex_filters []) with
   | (_, Val (Ok rd)) => rd_tip rd = 2 /\ rd_filter_tip rd = 2
   | _ => False
   end) /\
  exists s outs, CbfSpec.cbf_reach CbfProps.ex_P 1000 ex_filters
    [CbfProps.ex_i ex_new (CbfModel.CNegotiated 1 true true false); CbfProps.ex_i ex_new (CbfModel.CCFHeaders 1 0 (exH b3) (1 + 22 + 1000 * (1 + 21 + 1000 * 8)) [23])] s outs /\
  CbfModel.c_filters s = ex_filters /\ outs !! 1%nat = Some [CbfModel.CoTimer 1000].
Proof. split; [vm_compute; repeat split|]. apply run_ex. vm_compute. repeat split. Qed.
