(** Property theorems: the active chain does not depend on delivery order. *)
From Verif Require Import Base PowModel BlockModel BlockSpec BlockExample ConvergeSpec
  BlockConverge ConvergeProofs.
Open Scope N_scope.

(** ** C05 *)
(** Two caches on the same genesis, fed the same set of headers in any orders,
    batches, repetitions and HashMap orders, end with the same active chain:
    the best one.  [reachable ... []] means no checkpoints. *)
Theorem C05_converge H ng s ps os1 os2 c1 c2 outs1 outs2 :
  params_ok ps -> p_network ps <> Bitcoin -> s_tail s = [] ->
  reachable H ng s ps [] os1 c1 outs1 -> reachable H ng s ps [] os2 c2 outs2 ->
  imports os1 -> imports os2 -> io_ok os1 -> io_ok os2 ->
  (forall x, x ∈ presented os1 <-> x ∈ presented os2) ->
  hash_injective H (s_genesis s :: presented os1) ->
  (forall x, x ∈ presented os1 -> acceptable H ps x) ->
  (forall o, o ∈ os1 ++ os2 -> valid_in_any_context H ps (s_genesis s) (presented os1) (clock_of o)) ->
  active c1 = active c2 /\
  exists l, active c1 = s_genesis s :: l /\ best_chain H (s_genesis s) (presented os1) l.
Proof. exact (converge H ng s ps os1 os2 c1 c2 outs1 outs2). Qed.
Print Assumptions C05_converge.

(** The same with hypotheses about the headers alone, for networks without
    retargeting. *)
Theorem C05_steady H ng s ps height os1 os2 c1 c2 outs1 outs2 :
  params_ok ps -> p_network ps <> Bitcoin -> s_tail s = [] ->
  reachable H ng s ps [] os1 c1 outs1 -> reachable H ng s ps [] os2 c2 outs2 ->
  imports os1 -> imports os2 -> io_ok os1 -> io_ok os2 ->
  (forall x, x ∈ presented os1 <-> x ∈ presented os2) ->
  hash_injective H (s_genesis s :: presented os1) ->
  (forall x, x ∈ presented os1 -> acceptable H ps x) ->
  (forall o, o ∈ os1 ++ os2 -> steady H ps (s_genesis s) (presented os1) height (clock_of o)) ->
  active c1 = active c2 /\
  exists l, active c1 = s_genesis s :: l /\ best_chain H (s_genesis s) (presented os1) l.
Proof.
  intros Hp Hn Ht R1 R2 M1 M2 I1 I2 E Hi Ha Hs.
  apply (converge H ng s ps os1 os2 c1 c2 outs1 outs2); auto.
  intros o Ho. exact (steady_valid H ps _ _ height _ Hp (Hs o Ho)).
Qed.
Print Assumptions C05_steady.

(** Two branches of equal work, delivered backwards, interleaved and with
    repetitions: the one with the smaller tip hash wins. *)
Definition conv_1 : list op := [imp [b2; b1]; imp [a2; a1; a2]].
Definition conv_2 : list op :=
  [imp [a1]; OImport [(b1, ch_rev); (b2, ch_rev); (a2, ch0)] ex_now; imp [b1]].
Example C05_case : exists c1 outs1 c2 outs2,
  reachable exH ex_ng ex_store (ex_params Regtest) [] conv_1 c1 outs1 /\
  reachable exH ex_ng ex_store (ex_params Regtest) [] conv_2 c2 outs2 /\
  imports conv_1 /\ imports conv_2 /\ io_ok conv_1 /\ io_ok conv_2 /\
  (forall x, x ∈ presented conv_1 <-> x ∈ presented conv_2) /\
  hash_injective exH (ex_g :: presented conv_1) /\
  (forall x, x ∈ presented conv_1 -> acceptable exH (ex_params Regtest) x) /\
  (forall o, o ∈ conv_1 ++ conv_2 ->
     steady exH (ex_params Regtest) ex_g (presented conv_1) (fun x => N.to_nat (h_time x / 10)) (clock_of o)) /\
  active c1 = [ex_g; a1; a2] /\ active c2 = [ex_g; a1; a2].
Proof.
  destruct (ex_reach (ex_params Regtest) [] ex_store conv_1 (fun c _ => active c = [ex_g; a1; a2]))
    as (c1 & outs1 & R1 & A1); [vm_compute; reflexivity|ex_fair|vm_compute; reflexivity|].
  destruct (ex_reach (ex_params Regtest) [] ex_store conv_2 (fun c _ => active c = [ex_g; a1; a2]))
    as (c2 & outs2 & R2 & A2); [vm_compute; reflexivity|ex_fair|vm_compute; reflexivity|].
  exists c1, outs1, c2, outs2. split; [exact R1|]. split; [exact R2|].
  split; [repeat constructor; eexists _, _; reflexivity|].
  split; [repeat constructor; eexists _, _; reflexivity|].
  split; [ex_io|]. split; [ex_io|].
  split; [intros x; cbn; rewrite !elem_of_cons; tauto|].
  assert (forall x, x ∈ presented conv_1 -> x = a1 \/ x = a2 \/ x = b1 \/ x = b2) as Hin.
  { intros x Hx. cbn in Hx. rewrite !elem_of_cons, elem_of_nil in Hx. tauto. }
  assert (forall x, x ∈ ex_g :: presented conv_1 -> x = ex_g \/ x = a1 \/ x = a2 \/ x = b1 \/ x = b2) as Hin'.
  { intros x Hx. apply elem_of_cons in Hx as [?|Hx]; [by left|right; auto]. }
  split.
  { intros x y Hx Hy. destruct (Hin' x Hx) as [->|[->|[->|[->| ->]]]], (Hin' y Hy) as [->|[->|[->|[->| ->]]]];
      intros E; try reflexivity; vm_compute in E; discriminate. }
  split.
  { intros x Hx. destruct (Hin x Hx) as [->|[->|[->| ->]]]; vm_compute; repeat split; discriminate. }
  split; [|split; [exact A1|exact A2]].
  intros o Ho. assert (clock_of o = ex_now) as ->.
  { cbn in Ho. repeat (apply elem_of_cons in Ho as [->|Ho]; [reflexivity|]).
    by apply elem_of_nil in Ho. }
  constructor.
  - split; [reflexivity|]. intros E. vm_compute in E. discriminate.
  - vm_compute. reflexivity.
  - intros x Hx. by destruct (Hin x Hx) as [->|[->|[->| ->]]].
  - split; [reflexivity|]. intros x p Hx Hp.
    destruct (Hin x Hx) as [->|[->|[->| ->]]], (Hin' p Hp) as [->|[->|[->|[->| ->]]]];
      intros E; try reflexivity; vm_compute in E; discriminate.
  - intros x y Hx Hy. destruct (Hin' x Hx) as [->|[->|[->|[->| ->]]]], (Hin' y Hy) as [->|[->|[->|[->| ->]]]];
      intros E; try reflexivity; vm_compute in E; lia.
  - intros x Hx. destruct (Hin x Hx) as [->|[->|[->| ->]]]; vm_compute; discriminate.
  - intros x Hx. destruct (Hin x Hx) as [->|[->|[->| ->]]]; vm_compute; discriminate.
Qed.

(** On mainnet, with every other hypothesis the same, the order decides. *)
Theorem C05_mainnet_refuted : exists os1 os2 c1 c2 outs1 outs2,
  reachable exH ex_ng ex_store (ex_params Bitcoin) [] os1 c1 outs1 /\
  reachable exH ex_ng ex_store (ex_params Bitcoin) [] os2 c2 outs2 /\
  io_ok os1 /\ io_ok os2 /\ presented os1 ≡ₚ presented os2 /\
  active c1 = [ex_g; a1; a2] /\ active c2 = [ex_g; b1; b2].
Proof.
  destruct (ex_reach (ex_params Bitcoin) [] ex_store [imp [a1; a2]; imp [b1; b2]] (fun c _ => active c = [ex_g; a1; a2]))
    as (c1 & outs1 & R1 & A1); [vm_compute; reflexivity|ex_fair|vm_compute; reflexivity|].
  destruct (ex_reach (ex_params Bitcoin) [] ex_store [imp [b1; b2]; imp [a1; a2]] (fun c _ => active c = [ex_g; b1; b2]))
    as (c2 & outs2 & R2 & A2); [vm_compute; reflexivity|ex_fair|vm_compute; reflexivity|].
  exists [imp [a1; a2]; imp [b1; b2]], [imp [b1; b2]; imp [a1; a2]], c1, c2, outs1, outs2.
  split; [exact R1|]. split; [exact R2|]. split; [ex_io|]. split; [ex_io|].
  split; [|split; [exact A1|exact A2]].
  change ([a1; a2] ++ [b1; b2] ≡ₚ [b1; b2] ++ [a1; a2]). apply Permutation_app_comm.
Qed.
Print Assumptions C05_mainnet_refuted.

(** Dropping the hypothesis that headers are valid in any context: a branch is
    judged by the median time of the active chain instead of its own, so the
    chain with most work (three blocks of early times) is kept out when a chain
    of later times arrived first, and accepted otherwise. *)
Definition late1 := ex_hd 1 2 100.
Definition late2 := ex_hd 2 3 200.
Definition early1 := ex_hd 1 4 5.
Definition early2 := ex_hd 4 5 6.
Definition early3 := ex_hd 5 6 7.
Theorem C05_context_refuted : exists os1 os2 c1 c2 outs1 outs2,
  reachable exH ex_ng ex_store (ex_params Regtest) [] os1 c1 outs1 /\
  reachable exH ex_ng ex_store (ex_params Regtest) [] os2 c2 outs2 /\
  io_ok os1 /\ io_ok os2 /\ presented os1 ≡ₚ presented os2 /\
  active c1 = [ex_g; late1; late2] /\ active c2 = [ex_g; early1; early2; early3].
Proof.
  destruct (ex_reach (ex_params Regtest) [] ex_store [imp [late1; late2]; imp [early1; early2; early3]]
    (fun c _ => active c = [ex_g; late1; late2]))
    as (c1 & outs1 & R1 & A1); [vm_compute; reflexivity|ex_fair|vm_compute; reflexivity|].
  destruct (ex_reach (ex_params Regtest) [] ex_store [imp [early1; early2; early3]; imp [late1; late2]]
    (fun c _ => active c = [ex_g; early1; early2; early3]))
    as (c2 & outs2 & R2 & A2); [vm_compute; reflexivity|ex_fair|vm_compute; reflexivity|].
  exists [imp [late1; late2]; imp [early1; early2; early3]], [imp [early1; early2; early3]; imp [late1; late2]],
    c1, c2, outs1, outs2.
  split; [exact R1|]. split; [exact R2|]. split; [ex_io|]. split; [ex_io|].
  split; [|split; [exact A1|exact A2]].
  change ([late1; late2] ++ [early1; early2; early3] ≡ₚ [early1; early2; early3] ++ [late1; late2]).
  apply Permutation_app_comm.
Qed.
Print Assumptions C05_context_refuted.
