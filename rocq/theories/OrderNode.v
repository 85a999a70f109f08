(** Repeated commands. *)
From Verif Require Import Base PowModel BlockModel FeeModel AddrModel PeerModel CbfModel CbfSpec CbfSeen DispModel NodeModel OrderSpec.
From Verif Require InvModel SyncModel.
Open Scope N_scope.

Lemma watched_again P cap st ins s outs i w : cbf_reach P cap st ins s outs -> i_op i = CWatch w -> (forall a, a ∈ w -> a ∈ watched_scripts ins) ->
  step_on P i s = Val (s, []).
Proof.
  intros R Op I. destruct (reach_viewed P cap st ins s outs R) as (W & _). unfold step_on. rewrite Op. cbn [cbf_step].
  assert (E : r_add_watch w (c_rescan s) = c_rescan s).
  { unfold r_add_watch. replace (list_to_set w ∪ r_watch (c_rescan s)) with (r_watch (c_rescan s)) by (rewrite W; set_solver). by destruct (c_rescan s). }
  rewrite E. by destruct s.
Qed.
Lemma submitted_again P cap st ins s outs i t os : cbf_reach P cap st ins s outs -> i_op i = CWatchTx t os -> watched_txs ins !! t = Some os ->
  step_on P i s = Val (s, []).
Proof.
  intros R Op I. destruct (reach_viewed P cap st ins s outs R) as (_ & W & _). unfold step_on. rewrite Op. cbn [cbf_step].
  assert (E : r_set_txs (<[t := list_to_set os]> (r_txs (c_rescan s))) (c_rescan s) = c_rescan s).
  { unfold r_set_txs. rewrite insert_id; [by destruct (c_rescan s)|]. by rewrite W, lookup_fmap, I. }
  rewrite E. by destruct s.
Qed.

Lemma announce_twice t s : InvModel.announce t (InvModel.announce t s).1 = InvModel.announce t s.
Proof.
  unfold InvModel.announce, InvModel.schedule_tick. destruct s as [ps cf es mp rm rc tk]. cbn. rewrite insert_insert.
  unfold InvModel.set_tick, InvModel.set_peers, InvModel.set_mempool. cbn. do 2 f_equal.
  rewrite <- map_fmap_compose. apply map_fmap_ext. intros a [re nw wt ob at_ la] _. unfold compose. cbn. destruct re; [|done]. cbn. by rewrite insert_insert.
Qed.
Lemma get_block_twice h s : InvModel.get_block h (InvModel.get_block h s).1 = InvModel.get_block h s.
Proof.
  unfold InvModel.get_block, InvModel.schedule_tick. destruct s as [ps cf es mp rm rc tk]. cbn. destruct (rm !! h) eqn:E; cbn; [by rewrite E|].
  by rewrite lookup_insert.
Qed.

Section Twice.
Context (H : header -> N) (scf : SyncModel.sconf) (P : params) (sock : N -> sockaddr) (env : nat -> nenv) (magic : N).
Notation step := (node_step H scf P sock env magic).
Lemma command_twice o s s1 x : names_only o -> step o s = Val (s1, x) ->
  Forall wakes_up x /\ exists s2, step o s1 = Val (s2, x) /\ same_managers (f_state s1) (f_state s2).
Proof.
  intros K. destruct o; try done; unfold node_step; cbn [nop_fop fstep].
  - unfold call_cbf. cbn [cbf_step mbind_M get_blocks flat_map app fqueued map]. intros [= <- <-]. split; [constructor|]. eexists. split; [reflexivity|].
    cbn [f_state n_cache n_sync n_cbf n_inv]. split; [done|]. split; [done|]. split; [|done].
    destruct (n_cbf (f_state s)) as [r f st ps id pr pe infl]. unfold set_rescan, r_add_watch. cbn. do 2 f_equal. set_solver.
  - unfold call_inv. cbn [InvModel.inv_step]. pose proof (get_block_twice hash (n_inv (f_state s))) as T. destruct (InvModel.get_block hash (n_inv (f_state s))) as [i1 y] eqn:E.
    cbn [mbind_M]. intros [= <- <-]. assert (Y : y = [InvModel.IoTimer 1000]) by (unfold InvModel.get_block, InvModel.schedule_tick in E; congruence). subst y.
    split; [repeat constructor; by eexists _, _|]. cbn [f_state n_inv]. cbn [fst] in T. rewrite T. cbn [mbind_M]. eexists. split; [reflexivity|]. done.
  - unfold both, call_cbf, call_inv. cbn [InvModel.inv_step cbf_step mbind_M get_blocks n_inv flat_map app].
    pose proof (announce_twice t (n_inv (f_state s))) as T. destruct (InvModel.announce t (n_inv (f_state s))) as [i1 y] eqn:E.
    cbn [mbind_M]. intros [= <- <-]. assert (Y : y = [InvModel.IoTimer 1000]) by (unfold InvModel.announce, InvModel.schedule_tick in E; congruence). subst y.
    split; [repeat constructor; by eexists _, _|]. cbn [f_state n_inv]. cbn [fst] in T. rewrite T. cbn [mbind_M]. eexists. split; [reflexivity|].
    cbn [f_state n_cache n_sync n_cbf n_inv]. split; [done|]. split; [done|]. split; [|done].
    destruct (n_cbf (f_state s)) as [r f st ps id pr pe infl]. unfold set_rescan, r_set_txs. cbn. by rewrite insert_insert.
Qed.
End Twice.
