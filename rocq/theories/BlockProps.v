(** Property theorems about the block header cache (properties C01-C14,
    C18-C21, C24-C26), each followed by a concrete case. *)
From Coq Require Import Sorted.
From Verif Require Import Base PowModel BlockModel BlockSpec BlockMain BlockQueries PowProofs
  BlockOrigin BlockExample.
Open Scope N_scope.

(** ** C01 *)
Theorem C01_linked_chain H ng s ps cps os c outs : params_ok ps ->
  reachable H ng s ps cps os c outs ->
  get_block_by_height c 0 = Some (s_genesis s) /\
  (forall h, is_Some (get_block_by_height c h) <-> h <= c_height c) /\
  (forall h p x, get_block_by_height c h = Some p -> get_block_by_height c (h + 1) = Some x ->
     h_prev x = H p) /\
  get_block_by_height c (c_height c) = Some (c_tip H c).2 /\
  (c_tip H c).1 = H (c_tip H c).2 /\
  lenN (active c) = c_height c + 1.
Proof. intros P. exact (linked_chain H ng s ps cps P os c outs). Qed.
Print Assumptions C01_linked_chain.

(** A re-org from branch a to branch b; the chain has height 3. *)
Example C01_case : exists c outs, params_ok (ex_params Regtest) /\
  reachable exH ex_ng ex_store (ex_params Regtest) [] ex_hist c outs /\
  active c = [ex_g; b1; b2; b3] /\ c_height c = 3 /\ c_tip exH c = (exH b3, b3).
Proof.
  destruct (ex_reach (ex_params Regtest) [] ex_store ex_hist (fun c _ =>
    active c = [ex_g; b1; b2; b3] /\ c_height c = 3 /\ c_tip exH c = (exH b3, b3)))
    as (c & outs & R & E); [vm_compute; reflexivity|ex_fair|vm_compute; repeat split|].
  exists c, outs. split; [apply ex_params_ok|]. by split.
Qed.

(** ** C02 *)
Theorem C02_hash_index H ng s ps cps os c outs : params_ok ps ->
  reachable H ng s ps cps os c outs ->
  (forall k h x, get_block c k = Some (h, x) <-> get_block_by_height c h = Some x /\ H x = k) /\
  (forall k, contains c k = true <-> exists h x, get_block_by_height c h = Some x /\ H x = k) /\
  (forall h1 h2 x1 x2, get_block_by_height c h1 = Some x1 -> get_block_by_height c h2 = Some x2 ->
     H x1 = H x2 -> h1 = h2) /\
  (forall k, contains c k = true -> in_orphans c k = false).
Proof. intros P. exact (hash_index H ng s ps cps P os c outs). Qed.
Print Assumptions C02_hash_index.

Example C02_case : exists c outs,
  reachable exH ex_ng ex_store (ex_params Regtest) [] ex_hist c outs /\
  get_block c (exH b2) = Some (2, b2) /\ contains c (exH a2) = false /\ in_orphans c (exH a2) = true.
Proof. apply ex_reach; [vm_compute; reflexivity|ex_fair|]. vm_compute. repeat split. Qed.

(** ** C03 *)
Theorem C03_work_is_sum H ng s ps cps os c outs : params_ok ps ->
  reachable H ng s ps cps os c outs -> c_chainwork c = sum_work (active c).
Proof. intros P. exact (work_is_sum H ng s ps cps P os c outs). Qed.
Print Assumptions C03_work_is_sum.

Theorem C03_work_monotone H ng s ps cps os c o c' r : params_ok ps ->
  transition H ng s ps cps os c o c' r -> io_ok [o] -> c_chainwork c <= c_chainwork c'.
Proof. intros P. exact (work_monotone H ng s ps cps P os c o c' r). Qed.
Print Assumptions C03_work_monotone.

(** The work grows from 2 to 3 units above genesis over a re-org. *)
Example C03_case : io_ok [imp [b3]] /\ exists c c' r,
  transition exH ex_ng ex_store (ex_params Regtest) [] [imp [a1; a2]; imp [b1; b2]] c (imp [b3]) c' r /\
  c_chainwork c = 3 * h_work ex_g /\ c_chainwork c' = 4 * h_work ex_g.
Proof.
  split; [ex_io|]. apply ex_trans; [vm_compute; reflexivity|ex_fair|ex_fair|]. vm_compute. repeat split.
Qed.

(** Without [io_ok] the claim is false: when the store fails to roll back, the
    chain in memory stays truncated at the fork. *)
Theorem C03_work_monotone_refuted_on_store_failure :
  exists H ng s ps cps os c o c' r, params_ok ps /\
    transition H ng s ps cps os c o c' r /\ c_chainwork c' < c_chainwork c.
Proof.
  destruct (ex_trans (ex_params Regtest) [] ex_store [imp [a1; a2]; imp [b1; b2]]
    (OImport [(b3, ch_noroll)] ex_now) (fun c c' r => c_chainwork c' < c_chainwork c))
    as (c & c' & r & T & E); [vm_compute; reflexivity|ex_fair|ex_fair|vm_compute; reflexivity|].
  exists exH, ex_ng, ex_store, (ex_params Regtest), []. do 5 eexists.
  split; [apply ex_params_ok|]. by split.
Qed.
Print Assumptions C03_work_monotone_refuted_on_store_failure.

(** ** C04 *)
Theorem C04_best_branch H ng s ps cps os c hd ch now c' r : params_ok ps ->
  transition H ng s ps cps os c (OImport [(hd, ch)] now) c' (Ok r) ->
  io_ok [OImport [(hd, ch)] now] ->
  is_known c (H hd) = false -> is_known c (h_prev hd) = true ->
  c_chainwork c <= c_chainwork c' /\
  (forall h f path, branch_off H c hd h f path -> valid_path H c now h f path ->
     sum_work (take (S (N.to_nat h)) (active c)) + sum_work path <= c_chainwork c') /\
  (active c' = active c \/
   exists h f path, branch_off H c hd h f path /\ valid_path H c now h f path /\
     active c' = take (S (N.to_nat h)) (active c) ++ path) /\
  (p_network ps <> Bitcoin ->
   (forall h f path, branch_off H c hd h f path -> valid_path H c now h f path ->
      sum_work (take (S (N.to_nat h)) (active c)) + sum_work path = c_chainwork c' ->
      (c_tip H c').1 <= last_hash H (H f) path) /\
   (c_chainwork c = c_chainwork c' -> (c_tip H c').1 <= (c_tip H c).1)).
Proof. intros P. exact (best_branch H ng s ps cps P os c hd ch now c' r). Qed.
Print Assumptions C04_best_branch.

(** Header b3 completes a branch of three headers that beats the two active
    ones. *)
Example C04_case : io_ok [imp [b3]] /\ exists c c' r,
  transition exH ex_ng ex_store (ex_params Regtest) [] [imp [a1; a2]; imp [b1; b2]] c (imp [b3]) c' r /\
  (exists res, r = Ok res) /\ is_known c (exH b3) = false /\ is_known c (h_prev b3) = true /\
  branch_off exH c b3 0 ex_g [b1; b2; b3] /\ active c' = [ex_g; b1; b2; b3].
Proof.
  split; [ex_io|].
  destruct (ex_trans (ex_params Regtest) [] ex_store [imp [a1; a2]; imp [b1; b2]] (imp [b3])
    (fun c c' r => r = Ok (TipChanged b3 (exH b3) 3 [(2, a2); (1, a1)] [(1, b1); (2, b2); (3, b3)]) /\
       is_known c (exH b3) = false /\ is_known c (h_prev b3) = true /\ active c' = [ex_g; b1; b2; b3] /\
       active c = [ex_g; a1; a2] /\ stale exH c b1 /\ stale exH c b2))
    as (c & c' & r & T & Er & K1 & K2 & E' & E & S1 & S2);
    [vm_compute; reflexivity|ex_fair|ex_fair|vm_compute; repeat split|].
  exists c, c', r. split_and!; auto; [by eexists|]. unfold branch_off. rewrite E.
  split_and!; [done|done|vm_compute; repeat split|].
  repeat (apply Forall_cons; split; [first [by left|by right]|]). by apply Forall_nil.
Qed.

(** ** C06 *)
Theorem C06_mainnet_strict H ng s ps cps os c o c' r : params_ok ps ->
  transition H ng s ps cps os c o c' r -> io_ok [o] -> p_network ps = Bitcoin ->
  active c `prefix_of` active c' \/ sum_work (active c) < sum_work (active c').
Proof. intros P. exact (mainnet_strict H ng s ps cps P os c o c' r). Qed.
Print Assumptions C06_mainnet_strict.

(** On mainnet the equal-work branch (1, 2) does not displace (4, 5) although
    its tip hash is smaller; on regtest it does. *)
Example C06_case :
  (exists c c' r, transition exH ex_ng ex_store (ex_params Bitcoin) [] [imp [b1; b2]; imp [a1]] c (imp [a2]) c' r /\
    active c = [ex_g; b1; b2] /\ active c' = [ex_g; b1; b2]) /\
  (exists c c' r, transition exH ex_ng ex_store (ex_params Regtest) [] [imp [b1; b2]; imp [a1]] c (imp [a2]) c' r /\
    active c = [ex_g; b1; b2] /\ active c' = [ex_g; a1; a2]).
Proof.
  split; (apply ex_trans; [vm_compute; reflexivity|ex_fair|ex_fair|]; vm_compute; repeat split).
Qed.

(** ** C07 *)
Theorem C07_checkpoint_hash H ng s ps cps os c outs h k x : params_ok ps ->
  reachable H ng s ps cps os c outs -> NoDup (map fst cps) ->
  (h + 1, k) ∈ cps -> get_block_by_height c (h + 1) = Some x ->
  s_tail s !! N.to_nat h = Some x \/ H x = k.
Proof. intros P. exact (checkpoint_hash H ng s ps cps P os c outs h k x). Qed.
Print Assumptions C07_checkpoint_hash.

(** With a checkpoint on a2 the longer branch b is not accepted. *)
Example C07_case : NoDup (map fst [(2, exH a2)]) /\ exists c outs,
  reachable exH ex_ng ex_store (ex_params Regtest) [(2, exH a2)] ex_hist c outs /\
  active c = [ex_g; a1; a2].
Proof.
  split; [apply NoDup_singleton|].
  apply ex_reach; [vm_compute; reflexivity|ex_fair|]. vm_compute. repeat split.
Qed.

(** ** C08 *)
(** Testnet-like rules: a block may have the minimum difficulty if it is late.
    Genesis is 256 times harder than the minimum.  Branch a (three easy
    blocks) reaches the checkpoint at height 3; the stale easy block [lb1] is
    then extended by one hard block, giving a shorter but heavier branch that
    reverts all of a, including the checkpointed block. *)
Definition cp_params : params :=
  mkParams Testnet (target_of_bits 0x1d00ffff) 600 1209600 true false.
Definition cp_g : header := mkHeader 0 1 0x1c00ffff 1.
Definition easy (p k time : N) : header := mkHeader (p * 2 ^ 248) time 0x1d00ffff k.
Definition la1 := easy 1 2 2000.
Definition la2 := easy 2 3 4000.
Definition la3 := easy 3 4 6000.
Definition lb1 := easy 1 5 2001.
Definition lb2 : header := mkHeader (5 * 2 ^ 248) 2500 0x1c00ffff 6.
Definition cp_store := mkStore cp_g [].

Theorem C08_no_revert_below_checkpoint_refuted :
  exists H ng s ps cps os c o c' r k cp x, params_ok ps /\
    transition H ng s ps cps os c o c' r /\ io_ok [o] /\ NoDup (map fst cps) /\ (k, cp) ∈ cps /\
    get_block_by_height c k = Some x /\ H x = cp /\ last_checkpoint c = k /\
    get_block_by_height c' k = None /\ get_block_by_height c' 1 <> get_block_by_height c 1.
Proof.
  destruct (ex_trans cp_params [(3, exH la3)] cp_store [imp [la1; la2; lb1]; imp [la3]]
    (imp [lb2]) (fun c c' r => active c = [cp_g; la1; la2; la3] /\ active c' = [cp_g; lb1; lb2] /\
       get_block_by_height c 3 = Some la3 /\ last_checkpoint c = 3 /\
       get_block_by_height c' 3 = None /\ get_block_by_height c' 1 <> get_block_by_height c 1))
    as (c & c' & r & T & _ & _ & E); [vm_compute; reflexivity|ex_fair|ex_fair|vm_compute; repeat split; congruence|].
  exists exH, ex_ng, cp_store, cp_params, [(3, exH la3)]. do 5 eexists. exists 3, (exH la3), la3.
  destruct E as (E1 & E2 & E3 & E4).
  split_and!; [split; cbn; lia|exact T|ex_io|apply NoDup_singleton|set_solver|done..].
Qed.
Print Assumptions C08_no_revert_below_checkpoint_refuted.

(** What does hold: as long as the new chain is not shorter than a reached
    checkpoint, nothing at or below it changes; and a header whose parent is
    active below the last checkpoint is refused.  Missing from the full claim:
    the case of a chain that gets shorter, where it is false (above). *)
Theorem C08_checkpoint_kept_partial H ng s ps cps os c hd ch now c' r k cp x : params_ok ps ->
  transition H ng s ps cps os c (OImport [(hd, ch)] now) c' r -> NoDup (map fst cps) ->
  (k, cp) ∈ cps -> get_block_by_height c k = Some x -> H x = cp -> k <= c_height c' ->
  forall h, h <= k -> get_block_by_height c' h = get_block_by_height c h.
Proof. intros P. exact (checkpoint_kept H ng s ps cps P os c hd ch now c' r k cp x). Qed.
Print Assumptions C08_checkpoint_kept_partial.

Theorem C08_below_checkpoint_refused H ng s ps cps os c hd ch now c' r h p : params_ok ps ->
  transition H ng s ps cps os c (OImport [(hd, ch)] now) c' r -> is_known c (H hd) = false ->
  get_block_by_height c h = Some p -> h_prev hd = H p -> h < last_checkpoint c ->
  exists e, r = Err (EAborted e 0 (c_height c')) /\ c' = c.
Proof. intros P. exact (below_checkpoint H ng s ps cps P os c hd ch now c' r h p). Qed.
Print Assumptions C08_below_checkpoint_refused.

(** Checkpoint at height 1: branch b forks above it and is adopted; a block on
    genesis is refused. *)
Definition b2' := ex_hd 2 9 21.
Definition b3' := ex_hd 9 10 31.
Example C08_case :
  (exists c c' r, transition exH ex_ng ex_store (ex_params Regtest) [(1, exH a1)]
     [imp [a1; a2]; imp [b2']] c (imp [b3']) c' r /\
     active c = [ex_g; a1; a2] /\ active c' = [ex_g; a1; b2'; b3'] /\ 1 <= c_height c') /\
  (exists c c' r, transition exH ex_ng ex_store (ex_params Regtest) [(1, exH a1)]
     [imp [a1; a2]] c (imp [b1]) c' r /\
     is_known c (exH b1) = false /\ 0 < last_checkpoint c /\ r = Err (EAborted (EInvalidHeight 1) 0 2)).
Proof.
  split; (apply ex_trans; [vm_compute; reflexivity|ex_fair|ex_fair|]; vm_compute; repeat split; discriminate).
Qed.

(** ** C09 *)
(** The state is also reached by some single-header history [hist] made of the
    same headers (batches may stop early), along which every block that was
    not preloaded was valid at the moment it was accepted. *)
Theorem C09_active_validated H ng s ps cps os c outs : params_ok ps ->
  reachable H ng s ps cps os c outs ->
  exists c0 hist outs', from_store H ng s ps cps = Val (Ok c0) /\
    hist `sublist_of` singles os /\ run H c0 hist = Val (c, outs') /\
    forall h p x, get_block_by_height c h = Some p -> get_block_by_height c (h + 1) = Some x ->
      s_tail s !! N.to_nat h = Some x \/
      exists l1 o l2 c1 outs1, hist = l1 ++ o :: l2 /\ run H c0 l1 = Val (c1, outs1) /\
        valid_at H c1 (clock_of o) h p x.
Proof. intros P. exact (active_validated H ng s ps cps P os c outs). Qed.
Print Assumptions C09_active_validated.

(** No header is made up: every known one was preloaded or presented. *)
Theorem C09_active_presented H ng s ps cps os c outs x : params_ok ps ->
  reachable H ng s ps cps os c outs ->
  x ∈ active c \/ stale H c x -> x ∈ s_genesis s :: s_tail s ++ presented os.
Proof. exact (known_presented H ng s ps cps os c outs x). Qed.
Print Assumptions C09_active_presented.

(** A header too far in the future and one not later than the median are
    refused; valid ones get in. *)
Example C09_case : exists c outs,
  reachable exH ex_ng ex_store (ex_params Regtest) []
    [imp [a1; a2]; imp [ex_hd 3 7 (ex_now + 7201)]; imp [ex_hd 3 8 10]; imp [ex_hd 3 9 (ex_now + 7200)]] c outs /\
  active c = [ex_g; a1; a2; ex_hd 3 9 (ex_now + 7200)].
Proof. apply ex_reach; [vm_compute; reflexivity|ex_fair|]. vm_compute. repeat split. Qed.

(** ** C10 *)
Theorem C10_single_report H ng s ps cps os c hd ch now c' r : params_ok ps ->
  transition H ng s ps cps os c (OImport [(hd, ch)] now) c' r ->
  match r with
  | Ok (TipChanged tip k height rv cn) =>
      report_exact (active c) (active c') rv cn /\ cn <> [] /\
      (k, tip) = c_tip H c' /\ height = c_height c'
  | Ok TipUnchanged => active c' = active c
  | Err _ => True
  end.
Proof. intros P. exact (single_report H ng s ps cps P os c hd ch now c' r). Qed.
Print Assumptions C10_single_report.

Theorem C10_extend_report H ng s ps cps os c hd ch now c' r : params_ok ps ->
  transition H ng s ps cps os c (OExtend hd now ch) c' r ->
  match r with
  | Ok (TipChanged tip k height rv cn) =>
      active c' = active c ++ [hd] /\ rv = [] /\ cn = [(c_height c', hd)] /\
      (k, tip) = c_tip H c' /\ height = c_height c'
  | Ok TipUnchanged => c' = c
  | Err e => e = EStore \/ c' = c
  end.
Proof. intros P. exact (extend_report H ng s ps cps P os c hd ch now c' r). Qed.
Print Assumptions C10_extend_report.

Example C10_case : exists c c' r,
  transition exH ex_ng ex_store (ex_params Regtest) [] [imp [a1; a2]; imp [b1; b2]] c (imp [b3]) c' r /\
  r = Ok (TipChanged b3 (exH b3) 3 [(2, a2); (1, a1)] [(1, b1); (2, b2); (3, b3)]).
Proof. apply ex_trans; [vm_compute; reflexivity|ex_fair|ex_fair|]. vm_compute. repeat split. Qed.

(** ** C11 *)
(** A batch that switches a -> b -> a' reports the blocks a1, a2, which were
    active before the call, as newly connected. *)
Theorem C11_batch_connected_refuted :
  exists H ng s ps cps os c hds now c' tip k height rv cn, params_ok ps /\
    transition H ng s ps cps os c (OImport hds now) c' (Ok (TipChanged tip k height rv cn)) /\
    io_ok [OImport hds now] /\
    exists h x, (h, x) ∈ cn /\ x ∈ active c.
Proof.
  destruct (ex_trans (ex_params Regtest) [] ex_store [imp [a1; a2]] (imp [b1; b2; b3; a3; a4])
    (fun c c' r => r = Ok (TipChanged a4 (exH a4) 4 [] [(1, a1); (2, a2); (3, a3); (4, a4)]) /\
       active c = [ex_g; a1; a2]))
    as (c & c' & r & T & -> & E); [vm_compute; reflexivity|ex_fair|ex_fair|vm_compute; repeat split|].
  exists exH, ex_ng, ex_store, (ex_params Regtest), [], [imp [a1; a2]], c. do 8 eexists.
  split_and!; [apply ex_params_ok|exact T|ex_io|].
  exists 1, a1. rewrite E. split; set_solver.
Qed.
Print Assumptions C11_batch_connected_refuted.

(** A batch that switches a -> b -> a' -> c' omits a1, a2 from the reverted
    list although they were active before the call and are not after it. *)
Definition c1 := ex_hd 1 11 12.
Definition c2 := ex_hd 11 12 22.
Definition c3 := ex_hd 12 13 32.
Definition c4 := ex_hd 13 14 42.
Definition c5 := ex_hd 14 15 52.
Theorem C11_batch_reverted_refuted :
  exists H ng s ps cps os c hds now c' tip k height rv cn, params_ok ps /\
    transition H ng s ps cps os c (OImport hds now) c' (Ok (TipChanged tip k height rv cn)) /\
    io_ok [OImport hds now] /\
    exists h x, active c !! N.to_nat h = Some x /\ x ∉ active c' /\ rv = [].
Proof.
  destruct (ex_trans (ex_params Regtest) [] ex_store [imp [a1; a2]]
    (imp [b1; b2; b3; a3; a4; c1; c2; c3; c4; c5])
    (fun c c' r => r = Ok (TipChanged c5 (exH c5) 5 [] [(1, c1); (2, c2); (3, c3); (4, c4); (5, c5)]) /\
       active c = [ex_g; a1; a2] /\ active c' = [ex_g; c1; c2; c3; c4; c5]))
    as (c & c' & r & T & -> & E & E'); [vm_compute; reflexivity|ex_fair|ex_fair|vm_compute; repeat split|].
  exists exH, ex_ng, ex_store, (ex_params Regtest), [], [imp [a1; a2]], c. do 8 eexists.
  split_and!; [apply ex_params_ok|exact T|ex_io|].
  exists 1, a1. rewrite E, E'. split; [done|]. split; [|done].
  rewrite !not_elem_of_cons. repeat split; try discriminate. apply not_elem_of_nil.
Qed.
Print Assumptions C11_batch_reverted_refuted.

(** What holds of every batch: the tip is right, both lists are ordered, the
    connected list contains only active blocks and every newly active one, and
    the reverted list contains only blocks that left.  Missing (and false, see
    above): connected blocks were not active before; every block that left is
    in the reverted list. *)
Theorem C11_batch_report_partial H ng s ps cps os c hds now c' r : params_ok ps ->
  transition H ng s ps cps os c (OImport hds now) c' (Ok r) ->
  match r with
  | TipUnchanged => active c' = active c
  | TipChanged tip k height rv cn =>
      (k, tip) = c_tip H c' /\ height = c_height c' /\
      StronglySorted (fun p q => q.1 < p.1) rv /\ StronglySorted (fun p q => p.1 < q.1) cn /\
      (forall h x, (h, x) ∈ cn -> active c' !! N.to_nat h = Some x) /\
      (forall h x, active c' !! N.to_nat h = Some x -> x ∉ active c -> (h, x) ∈ cn) /\
      (forall h x, (h, x) ∈ rv -> active c !! N.to_nat h = Some x /\ x ∉ active c')
  end.
Proof. intros P. exact (batch_report_facts H ng s ps cps P os c hds now c' r). Qed.
Print Assumptions C11_batch_report_partial.

Example C11_case : exists c c' r,
  transition exH ex_ng ex_store (ex_params Regtest) [] [imp [a1; a2]] c (imp [b1; b2; b3]) c' r /\
  r = Ok (TipChanged b3 (exH b3) 3 [(2, a2); (1, a1)] [(1, b1); (2, b2); (3, b3)]).
Proof. apply ex_trans; [vm_compute; reflexivity|ex_fair|ex_fair|]. vm_compute. repeat split. Qed.

(** ** C12 *)
Theorem C12_failed_import H ng s ps cps os c hd ch now c' e : params_ok ps ->
  transition H ng s ps cps os c (OImport [(hd, ch)] now) c' (Err e) ->
  io_ok [OImport [(hd, ch)] now] ->
  active c' = active c /\ c_chainwork c' = c_chainwork c /\ c_store c' = c_store c /\
  c_index c' = c_index c /\ (forall x, stale H c' x <-> stale H c x).
Proof. intros P. exact (failed_import H ng s ps cps P os c hd ch now c' e). Qed.
Print Assumptions C12_failed_import.

Theorem C12_aborted_height H ng s ps cps os c hds now c' e : params_ok ps ->
  transition H ng s ps cps os c (OImport hds now) c' (Err e) ->
  exists e' i, e = EAborted e' i (c_height c').
Proof. intros P. exact (aborted_height H ng s ps cps P os c hds now c' e). Qed.
Print Assumptions C12_aborted_height.

(** Headers that are known already, active or not, change nothing, whatever
    time it is by now. *)
Lemma known_loop H hds : forall c b i now, b_connected b = [] -> Forall (fun hc => is_known c (H hc.1) = true) hds ->
  import_loop H c b i hds now = Val (c, Ok TipUnchanged).
Proof.
  induction hds as [|[hd ch] hds IH]; intros c b i now Eb K; cbn [import_loop].
  - unfold batch_finish. by rewrite Eb.
  - apply Forall_cons in K as [K1 K]. cbn [fst] in K1. unfold import_block. rewrite K1. cbn [mbind_M]. by apply IH.
Qed.
Theorem C12_known H c hds now : Forall (fun hc => is_known c (H hc.1) = true) hds ->
  step H c (OImport hds now) = Val (c, Ok TipUnchanged).
Proof. intros K. cbn [step]. by apply known_loop. Qed.
Print Assumptions C12_known.

(** An active header and a stale one. *)
Example C12_known_case : exists c outs,
  reachable exH ex_ng ex_store (ex_params Regtest) [] [imp [a1; a2; b1]] c outs /\ forallb (fun h => is_known c (exH h)) [a2; b1] = true /\ in_orphans c (exH b1) = true.
Proof. apply ex_reach; [vm_compute; reflexivity|ex_fair|]. vm_compute. repeat split. Qed.

(** A header that does not meet the target it claims, or claims a target above
    the limit of the network, is refused wherever it belongs, and is not kept. *)
Lemma validate_fatal H ps cps cbs g tip hd now e : validate H ps cps cbs g tip hd now = Val (Some e) ->
  (forall x, e <> EDuplicate x) /\ (forall x, e <> EMissing x).
Proof.
  unfold validate, assertM. destruct (_ =? _); [|done]. destruct (required_bits _ _ _ _ _); [|done]. cbn [mbind_M].
  destruct (validate_pow _ _ _) as [[]|]; [intros [= <-]; by split..|]. cbv zeta. destruct (negb _); [intros [= <-]; by split|].
  destruct (median_time_past _ _) as [mtp|]; [|done]. cbn [mbind_M]. destruct (h_time hd <=? mtp); [intros [= <-]; by split|].
  destruct (_ <? h_time hd); [intros [= <-]; by split|done].
Qed.
Lemma worthless_import H c hd now ch : h_target hd < pow_value (H hd) \/ p_pow_limit (c_params c) < h_target hd ->
  is_known c (H hd) = false -> forall c' r, import_block H c hd now ch = Val (c', r) ->
  c' = c /\ exists e, r = Err e /\ (forall x, e <> EDuplicate x) /\ (forall x, e <> EMissing x).
Proof.
  intros W K c' r. unfold import_block. rewrite K. generalize (validate_fatal H (c_params c) (c_checkpoints c) (c_chain c) (c_genesis c) (c_last c) hd now).
  fold (c_validate H c (c_last c) hd now). intros V. destruct (h_prev hd =? _).
  - destruct (c_validate H c (c_last c) hd now) as [[e|]|]; cbn [mbind_M]; [| |done].
    + intros [= <- <-]. split; [done|]. exists e. split; [done|]. by apply V.
    + unfold admission. destruct (N.leb_spec (pow_value (H hd)) (h_target hd)); cbn [negb].
      * destruct (N.ltb_spec (p_pow_limit (c_params c)) (h_target hd)); [|lia]. intros [= <- <-]. split; [done|]. by eexists.
      * intros [= <- <-]. split; [done|]. by eexists.
  - cbn [mbind_M]. unfold admission. destruct (N.leb_spec (pow_value (H hd)) (h_target hd)); cbn [negb].
    + destruct (N.ltb_spec (p_pow_limit (c_params c)) (h_target hd)); [|lia]. intros [= <- <-]. split; [done|]. by eexists.
    + intros [= <- <-]. split; [done|]. by eexists.
Qed.
Lemma worthless_loop H c hd now ch : h_target hd < pow_value (H hd) \/ p_pow_limit (c_params c) < h_target hd ->
  is_known c (H hd) = false -> forall b c' r, import_loop H c b 0 [(hd, ch)] now = Val (c', r) ->
  c' = c /\ exists e, r = Err (EAborted e 0 (c_height c)).
Proof.
  intros W K b c' r. cbn [import_loop]. generalize (worthless_import H c hd now ch W K).
  destruct (import_block H c hd now ch) as [[c1 r1]|]; [|done]. intros G. destruct (G _ _ eq_refl) as (-> & e & -> & D & M). cbn [mbind_M].
  destruct e; first [by edestruct D|by edestruct M|intros [= <- <-]; split; [done|by eexists]].
Qed.
Theorem C12_worthless H c hd ch now c' r : h_target hd < pow_value (H hd) \/ p_pow_limit (c_params c) < h_target hd ->
  is_known c (H hd) = false -> step H c (OImport [(hd, ch)] now) = Val (c', r) ->
  c' = c /\ exists e, r = Err (EAborted e 0 (c_height c)).
Proof. intros W K. cbn [step]. exact (worthless_loop H c hd now ch W K _ c' r). Qed.
Print Assumptions C12_worthless.

(** A header whose parent is unknown, with a hash above its target. *)
Example C12_worthless_case : exists c outs, reachable exH ex_ng ex_store (ex_params Regtest) [] [imp [a1; a2; b1]] c outs /\
  let x := mkHeader (77 * 2 ^ 248) ex_now 0x03000001 78 in h_target x < pow_value (exH x) /\ is_known c (exH x) = false /\ is_known c (h_prev x) = false.
Proof. apply ex_reach; [vm_compute; reflexivity|ex_fair|]. vm_compute. repeat split. Qed.

(** A header beyond the future limit is refused; in a batch the header before
    it stays and the reported height is the new one. *)
Definition late := ex_hd 2 3 (ex_now + 8000).
Example C12_case :
  (exists c c' r, transition exH ex_ng ex_store (ex_params Regtest) [] [imp [a1]] c (imp [late]) c' r /\
    r = Err (EAborted (EInvalidTime (ex_now + 8000) Gt) 0 1)) /\
  (exists c c' r, transition exH ex_ng ex_store (ex_params Regtest) [] [] c (imp [a1; late]) c' r /\
    r = Err (EAborted (EInvalidTime (ex_now + 8000) Gt) 1 1) /\ active c = [ex_g] /\ active c' = [ex_g; a1]).
Proof.
  split; (apply ex_trans; [vm_compute; reflexivity|ex_fair|ex_fair|]; vm_compute; repeat split).
Qed.

(** ** C13 *)
Theorem C13_load_total H ng s ps cps os : params_ok ps ->
  linked_from H (H (s_genesis s)) (s_tail s) -> acyclic H (s_tail s ++ presented os) -> fair os ->
  (s_tail s = [] \/ ng (p_network ps) = H (s_genesis s) ->
   exists c outs, reachable H ng s ps cps os c outs) /\
  (s_tail s <> [] -> ng (p_network ps) <> H (s_genesis s) ->
   from_store H ng s ps cps = Val (Err EGenesisMismatch)).
Proof. intros P. exact (load_total H ng s ps cps P os). Qed.
Print Assumptions C13_load_total.

Theorem C13_next_total H ng s ps cps os c outs o : params_ok ps ->
  reachable H ng s ps cps os c outs -> acyclic H (s_tail s ++ presented (os ++ [o])) -> fair [o] ->
  exists c' r, transition H ng s ps cps os c o c' r.
Proof. intros P. exact (next_total H ng s ps cps P os c outs o). Qed.
Print Assumptions C13_next_total.

Theorem C13_queries_total H ng s ps cps os c outs : params_ok ps ->
  reachable H ng s ps cps os c outs ->
  (forall k, exists r, find_branch c k = Val r) /\
  (forall locs stop max, exists l, locate_headers c locs stop max = Val l) /\
  (forall from, from <= c_height c -> from < 2 ^ 64 -> exists l, locator_hashes H c from = Val l) /\
  (forall h, h <> 0 -> exists t, median_time_past (c_chain c) h = Val t).
Proof. intros P. exact (queries_total H ng s ps cps P os c outs). Qed.
Print Assumptions C13_queries_total.

(** Acyclicity cannot be dropped: with a parent cycle among stale headers the
    ancestor walk does not end. *)
Definition cyc_x := mkHeader (3 * 2 ^ 248) 10 ex_bits 2.
Definition cyc_y := mkHeader (2 * 2 ^ 248) 10 ex_bits 3.
Example C13_cycle_diverges :
  match from_store exH ex_ng ex_store (ex_params Regtest) [] with
  | Val (Ok c0) => run exH c0 [imp [cyc_x; cyc_y]] = Panic (PDiverge 403)
  | _ => False
  end.
Proof. vm_compute. reflexivity. Qed.

(** An orphan, a duplicate, an invalid header and a re-org in one history. *)
Example C13_case : fair [imp [a2; a1; a1; late; b3]; imp [b2; b1]] /\
  acyclic exH (s_tail ex_store ++ presented [imp [a2; a1; a1; late; b3]; imp [b2; b1]]) /\
  exists c outs, reachable exH ex_ng ex_store (ex_params Regtest) []
    [imp [a2; a1; a1; late; b3]; imp [b3; b2; b1]] c outs /\
  active c = [ex_g; b1; b2; b3].
Proof.
  split; [ex_fair|]. split; [apply ex_side_spec; vm_compute; reflexivity|].
  apply ex_reach; [vm_compute; reflexivity|ex_fair|]. vm_compute. repeat split.
Qed.

(** ** C14 *)
Theorem C14_store_mirror H ng s ps cps os c outs : params_ok ps ->
  reachable H ng s ps cps os c outs -> io_ok os ->
  s_genesis (c_store c) :: s_tail (c_store c) = active c.
Proof. intros P. exact (store_mirror H ng s ps cps P os c outs). Qed.
Print Assumptions C14_store_mirror.

Theorem C14_reload H ng s ps cps os c outs : params_ok ps ->
  reachable H ng s ps cps os c outs -> io_ok os -> ng (p_network ps) = H (s_genesis s) ->
  exists c1, from_store H ng (c_store c) ps cps = Val (Ok c1) /\
    active c1 = active c /\ c_height c1 = c_height c /\ c_tip H c1 = c_tip H c /\
    c_chainwork c1 = c_chainwork c /\ c_index c1 = c_index c /\
    c_checkpoints c1 = c_checkpoints c /\ c_store c1 = c_store c /\ c_orphans c1 = ∅.
Proof. intros P. exact (reload H ng s ps cps P os c outs). Qed.
Print Assumptions C14_reload.

Example C14_case : io_ok ex_hist /\ ex_ng (p_network (ex_params Regtest)) = exH (s_genesis ex_store) /\
  exists c outs, reachable exH ex_ng ex_store (ex_params Regtest) [] ex_hist c outs /\
    s_tail (c_store c) = [b1; b2; b3].
Proof.
  split; [ex_io|]. split; [reflexivity|].
  apply ex_reach; [vm_compute; reflexivity|ex_fair|]. vm_compute. repeat split.
Qed.

(** ** C18 *)
Theorem C18_locator_heights from : from < 2 ^ 64 ->
  exists l, locators_indexes from = Val l /\
    l !! 0%nat = Some from /\ List.last l 0 = 0 /\
    (forall i j a b, (i < j)%nat -> l !! i = Some a -> l !! j = Some b -> b < a) /\
    (forall i, (i <= 8)%nat -> N.of_nat i <= from -> l !! i = Some (from - N.of_nat i)) /\
    (forall i a, (8 <= i)%nat -> l !! i = Some a -> a <> 0 -> a = from - (6 + 2 ^ N.of_nat (i - 7))) /\
    (length l <= 9 + N.size_nat from)%nat /\ (length l <= 73)%nat.
Proof. exact (locators_correct from). Qed.
Print Assumptions C18_locator_heights.

(** The documented example of common/src/block.rs:37-39. *)
Example C18_case :
  locators_indexes 99 = Val [99; 98; 97; 96; 95; 94; 93; 92; 91; 89; 85; 77; 61; 29; 0].
Proof. vm_compute. reflexivity. Qed.

(** ** C19 *)
Theorem C19_locator_hashes H ng s ps cps os c outs from : params_ok ps ->
  reachable H ng s ps cps os c outs -> from <= c_height c -> from < 2 ^ 64 ->
  exists idx hs, locators_indexes from = Val idx /\ locator_hashes H c from = Val hs /\
    exists idx', idx' `prefix_of` idx /\ StronglySorted (fun a b => b < a) idx' /\
      (forall h, h ∈ idx -> (last_checkpoint c <= h <-> h ∈ idx')) /\
      Forall2 (fun h k => exists x, get_block_by_height c h = Some x /\ H x = k) idx' hs.
Proof. intros P. exact (locators_above H ng s ps cps P os c outs from). Qed.
Print Assumptions C19_locator_hashes.

Example C19_case : exists c outs,
  reachable exH ex_ng ex_store (ex_params Regtest) [(2, exH b2)] ex_hist c outs /\
  locator_hashes exH c 3 = Val [exH b3; exH b2].
Proof. apply ex_reach; [vm_compute; reflexivity|ex_fair|]. vm_compute. repeat split. Qed.

(** ** C20 *)
Theorem C20_located_headers H ng s ps cps os c outs locs stop max : params_ok ps ->
  reachable H ng s ps cps os c outs -> locs <> [] ->
  exists start, locate_headers c locs stop max = Val
      (let last := match get_block c stop with Some (h, _) => h | None => c_height c end in
       take (N.to_nat (N.min max (last - start))) (drop (S (N.to_nat start)) (active c))) /\
    ((exists l1 k l2 x, locs = l1 ++ k :: l2 /\ Forall (fun k => contains c k = false) l1 /\
        get_block_by_height c start = Some x /\ H x = k) \/
     (start = 0 /\ Forall (fun k => contains c k = false) locs)).
Proof. intros P. exact (located H ng s ps cps P os c outs locs stop max). Qed.
Print Assumptions C20_located_headers.

Theorem C20_located_no_locators H ng s ps cps os c outs stop max : params_ok ps ->
  reachable H ng s ps cps os c outs ->
  locate_headers c [] stop max =
    Val (match get_block c stop with Some (_, x) => [x] | None => [] end).
Proof. intros P. exact (located_empty H ng s ps cps os c outs stop max). Qed.
Print Assumptions C20_located_no_locators.

Example C20_case : exists c outs,
  reachable exH ex_ng ex_store (ex_params Regtest) [] ex_hist c outs /\
  locate_headers c [exH a2; exH b1] 0 10 = Val [b2; b3] /\
  locate_headers c [exH a2; exH b1] (exH b2) 10 = Val [b2] /\
  locate_headers c [exH a2] 0 2 = Val [b1; b2].
Proof. apply ex_reach; [vm_compute; reflexivity|ex_fair|]. vm_compute. repeat split. Qed.

(** ** C21 *)
Theorem C21_find_branch H ng s ps cps os c outs k : params_ok ps ->
  reachable H ng s ps cps os c outs ->
  (forall h x, get_block_by_height c h = Some x -> H x = k -> find_branch c k = Val (Some (h, [x]))) /\
  (contains c k = false -> exists r, find_branch c k = Val r /\
    match r with
    | Some (h, x :: path) =>
        get_block_by_height c h = Some x /\ path <> [] /\ linked_from H (H x) path /\
        last_hash H (H x) path = k /\ Forall (stale H c) path
    | Some (_, []) => False
    | None => forall h x path, get_block_by_height c h = Some x -> linked_from H (H x) path ->
          Forall (stale H c) path -> last_hash H (H x) path <> k
    end).
Proof. intros P. exact (branch_lookup H ng s ps cps P os c outs k). Qed.
Print Assumptions C21_find_branch.

Example C21_case : exists c outs,
  reachable exH ex_ng ex_store (ex_params Regtest) [] ex_hist c outs /\
  find_branch c (exH a2) = Val (Some (0, [ex_g; a1; a2])) /\
  find_branch c (exH b2) = Val (Some (2, [b2])) /\ find_branch c 7 = Val None.
Proof. apply ex_reach; [vm_compute; reflexivity|ex_fair|]. vm_compute. repeat split. Qed.

(** ** C24 *)
Theorem C24_median_time_past H ng s ps cps os c outs h : params_ok ps ->
  reachable H ng s ps cps os c outs -> 1 <= h <= c_height c + 1 ->
  exists t, median_time_past (c_chain c) h = Val t /\
    let ts := map h_time (take (N.to_nat (N.min h 11)) (drop (N.to_nat (h - 11)) (active c))) in
    length ts = N.to_nat (N.min h 11) /\ t ∈ ts /\
    (length ts / 2 < length (filter (fun x => (x <= t)%N) ts))%nat /\
    (length ts - length ts / 2 <= length (filter (fun x => (t <= x)%N) ts))%nat.
Proof. intros P. exact (median_ok H ng s ps cps P os c outs h). Qed.
Print Assumptions C24_median_time_past.

Example C24_case : exists c outs,
  reachable exH ex_ng ex_store (ex_params Regtest) [] ex_hist c outs /\
  median_time_past (c_chain c) 4 = Val 21 /\ median_time_past (c_chain c) 3 = Val 11.
Proof. apply ex_reach; [vm_compute; reflexivity|ex_fair|]. vm_compute. repeat split. Qed.

(** ** C25 *)
Theorem C25_target_kept ps get g height time bits : params_ok ps ->
  (height + 1) mod adj_interval ps <> 0 ->
  exists b, next_difficulty_target ps get g height time (target_of_bits bits) = Val b /\
    target_of_bits b = target_of_bits bits.
Proof. exact (target_kept ps get g height time bits). Qed.
Print Assumptions C25_target_kept.

Theorem C25_target_adjusted ps get g first height time last : params_ok ps ->
  let T := p_timespan ps in
  T mod 4 = 0 -> T < 2 ^ 30 -> p_pow_limit ps * (4 * T) < 2 ^ 256 -> last <= p_pow_limit ps ->
  p_no_retarget ps = false -> (height + 1) mod adj_interval ps = 0 ->
  get (height + 1 - adj_interval ps) = Some first ->
  exists b span, next_difficulty_target ps get g height time last = Val b /\
    T / 4 <= span <= 4 * T /\
    (h_time first <= time -> time < 2 ^ 32 ->
       span = N.max (T / 4) (N.min (4 * T) (time - h_time first))) /\
    let t := N.min (p_pow_limit ps) (last * span / T) in
    target_of_bits b <= t /\ t * (2 ^ 15 - 1) <= target_of_bits b * 2 ^ 15 /\
    target_of_bits b <= p_pow_limit ps /\ target_of_bits b <= 4 * last /\
    last / 4 * (2 ^ 15 - 1) <= target_of_bits b * 2 ^ 15.
Proof. exact (target_adjusted ps get g first height time last). Qed.
Print Assumptions C25_target_adjusted.

Theorem C25_target_no_retarget ps get g first height time last : params_ok ps ->
  p_no_retarget ps = true -> (height + 1) mod adj_interval ps = 0 ->
  get (height + 1 - adj_interval ps) = Some first ->
  next_difficulty_target ps get g height time last = Val (h_bits first).
Proof. exact (target_no_retarget ps get g first height time last). Qed.
Print Assumptions C25_target_no_retarget.

(** The first mainnet retarget that changed the difficulty: block 32256 (bits
    0x1d00d86a) from 1261130161 and 1262152739. *)
Definition main_params : params :=
  mkParams Bitcoin (2 ^ 224 - 1) 600 1209600 false false.
Definition main_first : header := mkHeader 0 1261130161 0x1d00ffff 0.
Example C25_case :
  (32255 + 1) mod adj_interval main_params = 0 /\
  p_pow_limit main_params * (4 * p_timespan main_params) < 2 ^ 256 /\
  target_of_bits 0x1d00ffff <= p_pow_limit main_params /\
  next_difficulty_target main_params (fun h => if h =? 30240 then Some main_first else None) ex_g
    32255 1262152739 (target_of_bits 0x1d00ffff) = Val 0x1d00d86a.
Proof. vm_compute. repeat split; discriminate. Qed.

(** ** C26 *)
(** When the last block of a period is earlier than the first, the 32-bit
    subtraction wraps (in a release build) and the period counts as the
    slowest possible, so the target becomes four times easier instead of four
    times harder. *)
Theorem C26_backwards_refuted ps last first : 0 < p_timespan ps < 2 ^ 30 ->
  last < first -> first < 2 ^ 32 -> first - last + 4 * p_timespan ps <= 2 ^ 32 ->
  adjusted_timespan ps last first = 4 * p_timespan ps.
Proof. exact (backwards_is_slowest ps last first). Qed.
Print Assumptions C26_backwards_refuted.

Example C26_case :
  next_difficulty_target main_params (fun h => if h =? 30240 then Some main_first else None) ex_g
    32255 1261130160 (target_of_bits 0x1c00ffff) = Val (bits_of_target (4 * target_of_bits 0x1c00ffff)).
Proof. vm_compute. reflexivity. Qed.
