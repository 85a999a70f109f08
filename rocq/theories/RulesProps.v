(** Property theorems: the rules a header must meet to extend the chain. *)
From Verif Require Import Base PowModel BlockModel BlockSpec BlockExample BlockProps RulesProofs.
Open Scope N_scope.

(** ** C83 *)
(** [extend_tip] appends a header exactly when it is valid on top of the tip:
    named parent, required target, proof of work, checkpoint, median time past
    and clock. *)
Theorem C83_extend_iff H ng s ps cps os c hd ch now c' r : params_ok ps ->
  transition H ng s ps cps os c (OExtend hd now ch) c' r -> io_ok [OExtend hd now ch] ->
  active c' = active c ++ [hd] <-> valid_at H c now (c_height c) (c_tip H c).2 hd.
Proof. intros P. exact (extend_iff H ng s ps cps P os c hd ch now c' r). Qed.
Print Assumptions C83_extend_iff.

(** The rules fix one required target. *)
Theorem C83_required_unique c g height parent hd : params_ok (c_params c) ->
  exists bits, rule_bits (c_params c) (active c) g height parent hd bits /\
    forall b, rule_bits (c_params c) (active c) g height parent hd b -> b = bits.
Proof. exact (required_unique c g height parent hd). Qed.
Print Assumptions C83_required_unique.

(** Testnet rules on a genesis 256 times harder than the easiest target, then
    one late easy block.  The next block must be hard again unless it is more
    than twenty minutes late, and must be easy if it is. *)
Definition ext (hd : header) : op := OExtend hd ex_now ch0.
Definition hard (p k time : N) : header := mkHeader (p * 2 ^ 248) time 0x1c00ffff k.
Definition on_la1 (hd : header) (ok : bool) : Prop := exists c c' r,
  transition exH ex_ng cp_store cp_params [] [imp [la1]] c (ext hd) c' r /\ io_ok [ext hd] /\
  active c = [cp_g; la1] /\ active c' = if ok then active c ++ [hd] else active c.
Example C83_case : on_la1 (hard 2 3 3200) true /\ on_la1 (easy 2 3 3200) false /\
  on_la1 (hard 2 3 3201) false /\ on_la1 (easy 2 3 3201) true.
Proof.
  assert (forall hd, io_ok [ext hd]) as Hio by (intros hd; ex_io).
  split_and!.
  - destruct (ex_trans cp_params [] cp_store [imp [la1]] (ext (hard 2 3 3200))
      (fun c c' r => active c = [cp_g; la1] /\ active c' = active c ++ [hard 2 3 3200])) as (c & c' & r & T & E1 & E2);
      [vm_compute; reflexivity|ex_fair|ex_fair|vm_compute; repeat split|].
    exists c, c', r. split; [exact T|]. split; [apply Hio|]. split; [exact E1|exact E2].
  - destruct (ex_trans cp_params [] cp_store [imp [la1]] (ext (easy 2 3 3200))
      (fun c c' r => active c = [cp_g; la1] /\ active c' = active c)) as (c & c' & r & T & E1 & E2);
      [vm_compute; reflexivity|ex_fair|ex_fair|vm_compute; repeat split|].
    exists c, c', r. split; [exact T|]. split; [apply Hio|]. split; [exact E1|exact E2].
  - destruct (ex_trans cp_params [] cp_store [imp [la1]] (ext (hard 2 3 3201))
      (fun c c' r => active c = [cp_g; la1] /\ active c' = active c)) as (c & c' & r & T & E1 & E2);
      [vm_compute; reflexivity|ex_fair|ex_fair|vm_compute; repeat split|].
    exists c, c', r. split; [exact T|]. split; [apply Hio|]. split; [exact E1|exact E2].
  - destruct (ex_trans cp_params [] cp_store [imp [la1]] (ext (easy 2 3 3201))
      (fun c c' r => active c = [cp_g; la1] /\ active c' = active c ++ [easy 2 3 3201])) as (c & c' & r & T & E1 & E2);
      [vm_compute; reflexivity|ex_fair|ex_fair|vm_compute; repeat split|].
    exists c, c', r. split; [exact T|]. split; [apply Hio|]. split; [exact E1|exact E2].
Qed.
