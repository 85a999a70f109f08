(** The chain of a running node, as seen by its user. *)
From Verif Require Import Base PowModel BlockModel BlockSpec AddrModel PeerModel DispModel LoadModel NodeModel FullModel FullSpec.
From Verif Require SyncModel CbfModel InvModel.
Open Scope N_scope.

Section Spec.
Context (H : header -> N).

(** A chain from genesis, made of headers that were stored or presented. *)
Definition a_chain (st : store) (given : list header) (chain : list header) : Prop :=
  chain !! 0%nat = Some (s_genesis st) /\
  (forall i p x, chain !! i = Some p -> chain !! S i = Some x -> h_prev x = H p) /\
  NoDup (H <$> chain) /\
  forall x, x ∈ chain -> x ∈ s_genesis st :: s_tail st ++ given.

(** What a user is told of the chain. Headers set [aside] are known, but not on
    the chain. *)
Definition tells (chain : list header) (aside : header -> Prop) (c : cmd) (r : reply) : Prop :=
  match c with
  | CmdGetTip => exists hd, r = RpTip (lenN chain - 1) hd (sum_work chain) /\ last chain = Some hd
  | CmdGetByHeight h => r = RpHeader (chain !! N.to_nat h)
  | CmdGetBlock k =>
      (exists i hd, chain !! i = Some hd /\ H hd = k /\ r = RpBlock (Some (N.of_nat i, hd))) \/
      ((forall hd, hd ∈ chain -> H hd <> k) /\ r = RpBlock None)
  | CmdFindBranch k =>
      (exists i hd, chain !! i = Some hd /\ H hd = k /\ r = RpBranch (Some (N.of_nat i, [hd]))) \/
      (forall hd, hd ∈ chain -> H hd <> k) /\
      ((exists i hd path, chain !! i = Some hd /\ r = RpBranch (Some (N.of_nat i, hd :: path)) /\
          path <> [] /\ linked_from H (H hd) path /\ last_hash H (H hd) path = k /\ Forall aside path) \/
       (r = RpBranch None /\ forall i hd path, chain !! i = Some hd -> linked_from H (H hd) path -> Forall aside path -> last_hash H (H hd) path <> k))
  | _ => True
  end.

(** A report of a new tip: blocks that left, and blocks that are on the chain
    now, among them all that were not before. *)
Definition true_report (chain chain' : list header) (k h : N) (rv cn : list (N * header)) : Prop :=
  lenN chain' = h + 1 /\ (exists hd, last chain' = Some hd /\ H hd = k) /\
  (forall i x, (i, x) ∈ rv -> chain !! N.to_nat i = Some x /\ x ∉ chain') /\
  (forall i x, (i, x) ∈ cn -> chain' !! N.to_nat i = Some x) /\
  (forall i x, chain' !! N.to_nat i = Some x -> x ∉ chain -> (i, x) ∈ cn).
End Spec.

(** The chain that a node has. *)
Definition chain_of (s : wstate) : list header := active (n_cache (w_node (f_state s))).
