(** Repeated commands of the running client: C120. *)
From Verif Require Import Base RunEx PowModel BlockModel BlockSpec BlockExample BlockProps UtilModel FeeModel AddrModel PeerModel
  DispModel DispSpec LoadModel NodeModel NodeSpec NodeProps NodeLogSpec NodeLog NodeSeen NodeFetch.
From Verif Require SyncModel SyncSpec SyncProps CbfModel CbfSpec CbfProps InvModel InvSpec InvProps.
From Verif Require Import NodeLogProps OrderSpec.
From Verif Require OrderNode.
Open Scope N_scope.

(** Giving the running client a command to watch scripts, to submit a
    transaction or to fetch a block twice leaves every manager as giving it
    once; all it brings about is a request to be woken up. *)
Theorem C120_twice H scf P sock env magic o s s1 x : names_only o -> node_step H scf P sock env magic o s = Val (s1, x) ->
  Forall wakes_up x /\ exists s2, node_step H scf P sock env magic o s1 = Val (s2, x) /\ same_managers (f_state s1) (f_state s2).
Proof. exact (OrderNode.command_twice H scf P sock env magic o s s1 x). Qed.
Print Assumptions C120_twice.

(** The first submission changes the inventory and what is watched. *)
Example C120_twice_case : exists c s t s1 x, nx_run nx_up (nx_0 c) = Val (s, t) /\ names_only (NSubmit InvProps.ex_t1) /\ nx_step (NSubmit InvProps.ex_t1) s = Val (s1, x) /\
  length x = 1%nat /\ n_inv (f_state s1) <> n_inv (f_state s) /\ n_cbf (f_state s1) <> n_cbf (f_state s).
Proof.
  destruct (nx_ex_t nx_up (fun _ s _ => match nx_step (NSubmit InvProps.ex_t1) s with
     | Val (s1, x) => length x = 1%nat /\ (size (InvModel.iv_mempool (n_inv (f_state s1))) =? size (InvModel.iv_mempool (n_inv (f_state s))))%nat = false /\
         (size (CbfModel.r_txs (CbfModel.c_rescan (n_cbf (f_state s1)))) =? size (CbfModel.r_txs (CbfModel.c_rescan (n_cbf (f_state s)))))%nat = false
     | Panic _ => False end)) as (c & s & t & R & Q); [vm_compute; repeat split|].
  apply run_ex in Q as (s1 & x & E & Q1 & Q2 & Q3). exists c, s, t, s1, x. split; [exact R|]. split; [exact I|]. split; [exact E|]. split; [exact Q1|]. split; intros X.
  - rewrite X, Nat.eqb_refl in Q2. discriminate Q2.
  - rewrite X, Nat.eqb_refl in Q3. discriminate Q3.
Qed.
