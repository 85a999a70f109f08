(** Model of the wallet's coins (wallet/src/wallet.rs, wallet/src/wallet/db.rs,
    wallet/src/wallet/schema.sql). *)
From Verif Require Import Base.
Open Scope N_scope.

(** A transaction: its id, the outpoints it spends and its outputs (script and
    value, a [u64]). Scripts, addresses and ids are numbers; the id is taken as
    given (it is a hash of the transaction, not modelled). *)
Record tx := { tx_id : N; tx_in : list (N * N); tx_out : list (N * N) }.

(** schema.sql:1-10: a row of [utxos]: the outpoint, the address and the value
    (a signed 64-bit integer). The [id] and [date] columns are not used. *)
Record row := { row_op : N * N; row_addr : N; row_val : Z }.
(** The table in row id order. *)
Definition table := list row.

(** [value as i64] and [value as u64]. *)
Definition as_i64 (v : N) : Z := if (v <? 2 ^ 63)%N then Z.of_N v else (Z.of_N v - 2 ^ 64)%Z.
Definition as_u64 (z : Z) : N := Z.to_N (z mod 2 ^ 64).

Section Wallet.
(** [Address::from_script] on the wallet's network and [Address::script_pubkey]
    (rust-bitcoin, not modelled). Addresses are stored as text and parsed back;
    the text is not modelled. *)
Context (addr_of : N -> option N) (script_of : N -> N).

(** db.rs:151-169 [add_utxo]: [INSERT .. ON CONFLICT DO NOTHING] with
    [UNIQUE (txid, vout)]; the new row gets the largest row id. Failures of the
    database itself are not modelled. *)
Definition add_utxo (t : table) (op : N * N) (addr value : N) : table :=
  if existsb (fun r => bool_decide (row_op r = op)) t then t
  else t ++ [{| row_op := op; row_addr := addr; row_val := as_i64 value |}].

(** db.rs:71-103 [utxo]. *)
Definition utxo (t : table) (op : N * N) : option (N * N) :=
  match List.find (fun r => bool_decide (row_op r = op)) t with
  | Some r => Some (script_of (row_addr r), as_u64 (row_val r))
  | None => None
  end.

(** db.rs:105-132 [utxos]. *)
Definition utxos (t : table) : list ((N * N) * (N * N)) :=
  map (fun r => (row_op r, (script_of (row_addr r), as_u64 (row_val r)))) t.

(** db.rs:171-183 [remove_utxo]: the row found and the table without it. *)
Definition remove_utxo (t : table) (op : N * N) : table * option (N * N) :=
  (List.filter (fun r => negb (bool_decide (row_op r = op))) t, utxo t op).

(** db.rs:62-69 [balance]: [SUM] over signed 64-bit integers fails on overflow
    ([Err]); over no row it is [NULL], which reads as zero. *)
Fixpoint sum_i64 (acc : Z) (l : list Z) : result Z unit :=
  match l with
  | [] => Ok acc
  | z :: l' =>
      let acc' := (acc + z)%Z in
      if ((- 2 ^ 63 <=? acc') && (acc' <? 2 ^ 63))%Z then sum_i64 acc' l' else Err tt
  end.
Definition balance (t : table) : result N unit :=
  match sum_i64 0 (map row_val t) with Ok z => Ok (as_u64 z) | Err e => Err e end.

(** wallet.rs:68-82, the outputs part of [apply]: [vout as u32] and
    [Address::from_script(..).unwrap()] (line 75). *)
Fixpoint apply_outputs (watch : list N) (id : N) (vout : N) (outs : list (N * N)) (t : table) : M table :=
  match outs with
  | [] => Val t
  | (s, v) :: outs' =>
      if existsb (fun w => w =? s) watch then
        match addr_of s with
        | Some a => apply_outputs watch id (vout + 1) outs' (add_utxo t (id, wrap32 vout) a v)
        | None => Panic (PAssert 75)
        end
      else apply_outputs watch id (vout + 1) outs' t
  end.

(** wallet.rs:66-90 [apply]. *)
Definition apply (watch : list N) (t : table) (x : tx) : M table :=
  t' <-- apply_outputs watch (tx_id x) 0 (tx_out x) t ;;
  Val (fold_left (fun t op => (remove_utxo t op).1) (tx_in x) t').

(** wallet.rs:255-258: the transactions of a matched block in order. *)
Fixpoint apply_all (watch : list N) (t : table) (l : list tx) : M table :=
  match l with
  | [] => Val t
  | x :: l' => t' <-- apply watch t x ;; apply_all watch t' l'
  end.

(** wallet.rs:229-275 [handle_client_event]: matched blocks are applied; every
    other event, in particular [BlockDisconnected], leaves the coins alone. *)
Inductive client_event := BlockMatched (txs : list tx) | BlockDisconnected | OtherEvent.
Definition handle_event (watch : list N) (t : table) (e : client_event) : M table :=
  match e with
  | BlockMatched txs => apply_all watch t txs
  | BlockDisconnected | OtherEvent => Val t
  end.
Fixpoint handle_events (watch : list N) (t : table) (es : list client_event) : M table :=
  match es with
  | [] => Val t
  | e :: es' => t' <-- handle_event watch t e ;; handle_events watch t' es'
  end.
End Wallet.
