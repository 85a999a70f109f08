(** Vocabulary for the theorems about the wallet's coins. *)
From Verif Require Import Base WalletModel.
Open Scope N_scope.

(** [out] is the output of one of the transactions at outpoint [op], and pays a
    watched script. *)
Definition created (watch : list N) (l : list tx) (op : N * N) (out : N * N) : Prop :=
  exists x, x ∈ l /\ tx_id x = op.1 /\ tx_out x !! N.to_nat op.2 = Some out /\ out.1 ∈ watch.
(** One of the transactions spends [op]. *)
Definition spent (l : list tx) (op : N * N) : Prop := exists x, x ∈ l /\ op ∈ tx_in x.

(** Transactions in the order of a chain: ids are distinct, and no transaction
    spends an output of itself or of a later one. *)
Fixpoint chain_ordered (l : list tx) : Prop :=
  match l with
  | [] => True
  | x :: l' =>
      tx_id x ∉ map tx_id l' /\
      (forall op, op ∈ tx_in x -> op.1 ∉ tx_id x :: map tx_id l') /\
      chain_ordered l'
  end.

(** Ranges of the machine types: at most [2^32] outputs, values below [2^64]. *)
Definition tx_fits (x : tx) : Prop :=
  lenN (tx_out x) <= 2 ^ 32 /\ Forall (fun o => o.2 < 2 ^ 64) (tx_out x).

(** The watched scripts are those of addresses (wallet.rs:125). *)
Definition watch_ok (addr_of : N -> option N) (script_of : N -> N) (watch : list N) : Prop :=
  forall s, s ∈ watch -> exists a, addr_of s = Some a /\ script_of a = s.

(** The transactions of the matched blocks. *)
Fixpoint matched (es : list client_event) : list tx :=
  match es with
  | [] => []
  | BlockMatched txs :: es' => txs ++ matched es'
  | _ :: es' => matched es'
  end.

Definition total (l : list ((N * N) * (N * N))) : N := foldr N.add 0 (map (fun c => c.2.2) l).
