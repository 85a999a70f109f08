(** Property theorems: the fee rates behind an estimate (C84). *)
From Verif Require Import Base RunEx FeeModel FeeSpec FeeProofs FeeRates FeeProps.
Open Scope N_scope.

(** ** C84 *)
(** Each processed block yields the estimate over the rates of exactly those of
    its transactions all of whose inputs were created by transactions seen
    before: value in minus value out per virtual byte, rounded to the nearest
    integer.  Floating point does not matter. *)
Theorem C84_block_rates bs e rs : sane (concat (map snd bs)) -> above 0 bs ->
  fee_run (processing bs) est0 = Val (e, rs) -> rs = block_reports [] bs.
Proof. exact (block_reports_spec bs e rs). Qed.
Print Assumptions C84_block_rates.

(** Two coinbases, then a block with: a spend of the first with fee 10, a spend
    of that spend in the same block with fee 15 at two and a half satoshis per
    byte, and a spend of an unknown output, which does not count. *)
Definition cb2 : tx := Tx 9 9 [null_outpoint] [(50, 7); (60, 8)] 400.
Definition spend2 : tx := Tx 3 3 [(2, 0); (9, 1)] [(85, 7)] 24.
Definition foreign : tx := Tx 4 4 [(77, 0)] [(5, 7)] 4.
Definition rate_blocks : list (N * list tx) := [(1, [cb]); (2, [cb2; sp 2 10; spend2; foreign])].
Example C84_case : sane (concat (map snd rate_blocks)) /\ above 0 rate_blocks /\
  block_reports [] rate_blocks = [Some None; Some (Some (Estimate 3 7 10))] /\
  exists e rs, fee_run (processing rate_blocks) est0 = Val (e, rs).
Proof.
  split.
  { split.
    - apply (bool_decide_unpack _). vm_compute. exact I.
    - apply (bool_decide_unpack _). vm_compute. exact I.
    - repeat (apply Forall_cons; split; [repeat (apply Forall_cons; split; [vm_compute; discriminate|]); apply Forall_nil; done|]).
      by apply Forall_nil.
    - repeat (apply Forall_cons; split; [vm_compute; split; [discriminate|reflexivity]|]). by apply Forall_nil.
    - repeat (apply Forall_cons; split; [vm_compute; split; reflexivity|]). by apply Forall_nil.
    - apply Forall_forall. intros t Ht l v Hl. apply elem_of_list_In in Ht.
      assert (l ∈ map (fun n => take n (concat (map snd rate_blocks))) (seq 0 6)) as Hm.
      { destruct Hl as [k Hk]. apply elem_of_list_fmap. exists (length l). split.
        - rewrite Hk. by rewrite take_app.
        - apply elem_of_seq. apply (f_equal length) in Hk. rewrite app_length in Hk.
          change (length (concat (map snd rate_blocks))) with 5%nat in Hk. lia. }
      assert (forallb (fun l => forallb (fun t => match input_value l t with Some v => v <? 2 ^ 50 | None => true end)
        (concat (map snd rate_blocks))) (map (fun n => take n (concat (map snd rate_blocks))) (seq 0 6)) = true) as X
        by (vm_compute; reflexivity).
      rewrite forallb_forall in X. apply elem_of_list_In in Hm. specialize (X l Hm).
      rewrite forallb_forall in X. specialize (X t Ht). intros E. rewrite E in X. lia. }
  split; [vm_compute; repeat split|]. split; [vm_compute; reflexivity|].
  destruct (run_ex (fee_run (processing rate_blocks) est0) (fun _ _ => True)) as (e & rs & E & _);
    [vm_compute; exact I|]. by exists e, rs.
Qed.
