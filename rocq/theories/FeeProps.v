(** Property theorems about the fee estimator (C36, C37), each followed by a
    concrete case. *)
From Verif Require Import Base RunEx FeeModel FeeSpec FeeProofs.
Open Scope N_scope.

(** ** C36 *)

(** The order of low, median and high is claimed for rates up to 2^53, which
    no rate exceeds while the money supply is below 2^53 satoshis. *)
Theorem C36_estimate fees :
  (estimate_from fees = None <-> fees = []) /\
  (forall fees', fees ≡ₚ fees' -> estimate_from fees' = estimate_from fees) /\
  forall e, estimate_from fees = Some e ->
    is_least (es_low e) fees /\ is_greatest (es_high e) fees /\
    (Forall (fun x => x <= 2 ^ 53) fees ->
      es_low e <= es_median e <= es_high e /\ splits (es_median e) fees) /\
    ((length fees mod 2 = 1)%nat -> es_median e ∈ fees).
Proof. exact (estimate_facts fees). Qed.
Print Assumptions C36_estimate.
Example C36_case : estimate_from [9; 2; 1; 8] = Some (Estimate 1 5 9) /\ estimate_from [3; 9; 2] = Some (Estimate 2 3 9) /\
  estimate_from [4; 7] = Some (Estimate 4 6 7) /\ estimate_from [7; 4] = Some (Estimate 4 6 7).
Proof. repeat split. Qed.

(** Above 2^53 the conversion to floating point can push the median below
    the lowest rate. *)
Theorem C36_order_refuted_above_2_53 : exists fees e, estimate_from fees = Some e /\
  Forall (fun x => x < 2 ^ 64) fees /\ es_median e < es_low e.
Proof.
  exists [2 ^ 53 + 1; 2 ^ 53 + 1], (Estimate (2 ^ 53 + 1) (2 ^ 53) (2 ^ 53 + 1)).
  split; [vm_compute; reflexivity|]. split; [|vm_compute; reflexivity].
  repeat constructor; vm_compute; reflexivity.
Qed.
Print Assumptions C36_order_refuted_above_2_53.

(** ** C37 *)

(** After any history [os] the estimator is in state [e]; up to twelve blocks
    [bs] are then processed at increasing heights and rolled back, to a
    height between that of [e] and the first of them.  The unspent outputs
    and the height are those of [e] again, and whatever is processed next is
    reported as if [bs] had never been seen. *)
Theorem C37_rollback os e rs bs e' rs' h :
  fee_run os est0 = Val (e, rs) -> above (e_height e) bs -> bs <> [] -> (length bs <= 12)%nat ->
  fee_run (processing bs) e = Val (e', rs') ->
  e_height e <= h -> match bs with (h1, _) :: _ => h < h1 | [] => True end ->
  exists e1, fee_rollback h e' = Val e1 /\ e_utxos e1 = e_utxos e /\ e_height e1 = e_height e /\
    e_snaps e1 `suffix_of` e_snaps e /\
    forall bs3, reports (fee_run (processing bs3) e1) = reports (fee_run (processing bs3) e).
Proof. exact (rollback_restores os e rs bs e' rs' h). Qed.
Print Assumptions C37_rollback.

(** Coinbase paying 50, then spent with fee 10 on branch a, fee 20 on
    branch b. *)
Definition cb : tx := Tx 1 1 [null_outpoint] [(50, 7)] 400.
Definition sp (id fee : N) : tx := Tx id id [(1, 0)] [(50 - fee, 7)] 4.
Example C37_case : exists e rs e' rs' e1,
  fee_run [FProcess [cb] 3] est0 = Val (e, rs) /\ above (e_height e) [(5, [sp 2 10]); (6, [])] /\
  fee_run (processing [(5, [sp 2 10]); (6, [])]) e = Val (e', rs') /\ e_height e <= 4 /\
  rs' = [Some (Some (Estimate 10 10 10)); Some None] /\
  fee_rollback 4 e' = Val e1 /\
  reports (fee_run (processing [(5, [sp 3 20])]) e1) = Val [Some (Some (Estimate 20 20 20))].
Proof.
  destruct (run_ex (fee_run [FProcess [cb] 3] est0) (fun e _ => e_height e = 3 /\
    match fee_run (processing [(5, [sp 2 10]); (6, [])]) e with
    | Val (e', rs') => rs' = [Some (Some (Estimate 10 10 10)); Some None] /\
        match fee_rollback 4 e' with
        | Val e1 => reports (fee_run (processing [(5, [sp 3 20])]) e1) = Val [Some (Some (Estimate 20 20 20))]
        | Panic _ => False
        end
    | Panic _ => False
    end)) as (e & rs & E & He & X); [vm_compute; repeat split|].
  apply run_ex in X as (e' & rs' & E' & Hrs & X). apply val_ex in X as (e1 & E1 & X).
  exists e, rs, e', rs', e1. rewrite He. repeat split; done.
Qed.

(** Rolling back to the current height (or above) is not a no-op: the state
    before the current block comes back, although the block was not
    reverted. *)
Theorem C37_rollback_to_current_refuted : exists os e rs e1,
  fee_run os est0 = Val (e, rs) /\ fee_rollback (e_height e) e = Val e1 /\
  e_height e1 <> e_height e /\ e_utxos e1 <> e_utxos e.
Proof.
  destruct (run_ex (fee_run [FProcess [cb] 3] est0) (fun e _ => 
    match fee_rollback (e_height e) e with
    | Val e1 => e_height e1 <> e_height e /\ e_utxos e1 !! (1, 0) <> e_utxos e !! (1, 0)
    | Panic _ => False
    end)) as (e & rs & E & X); [vm_compute; split; discriminate|].
  apply val_ex in X as (e1 & E1 & Hh & Hu). exists [FProcess [cb] 3], e, rs, e1.
  repeat split; [done|done|done|]. intros X. by rewrite X in Hu.
Qed.
Print Assumptions C37_rollback_to_current_refuted.

(** Beyond the depth of the snapshots a rollback changes nothing. *)
Theorem C37_rollback_too_deep h e : Forall (fun p => h < p.1) (e_snaps e) ->
  fee_rollback h e = Val (Estimator (e_utxos e) (e_height e) []).
Proof. exact (rollback_too_deep h e). Qed.
Print Assumptions C37_rollback_too_deep.

(** Processing a block whose transaction creates money panics. *)
Theorem C37_no_panic_refuted : exists os, fee_run os est0 = Panic (PAssert 169).
Proof. exists [FProcess [cb] 1; FProcess [Tx 2 2 [(1, 0)] [(51, 7)] 400] 2]. vm_compute. reflexivity. Qed.
Print Assumptions C37_no_panic_refuted.
