(** Model of the inventory manager, p2p/src/fsm/invmgr.rs. *)
From Verif Require Import Base FeeModel.
Open Scope N_scope.

(** ** Constants (milliseconds), invmgr.rs:39-52. *)
Definition rebroadcast_timeout : N := 60000.
Definition request_timeout : N := 15000.
Definition inv_idle_timeout : N := 30000.
Definition max_attempts : nat := 3.
Definition prune_depth : N := 12.

(** A block as seen by the manager: [block_hash] is the hash of the header
    alone; [b_txs] is the body that came with it.  [b_merkle_ok] says whether
    the body matches the merkle root of the header; the code never looks. *)
Record block := Block { b_hash : N; b_txs : list tx; b_merkle_ok : bool }.

(** invmgr.rs:54-72 [Peer]; the field [requests] is dead code.  [ip_network]:
    the peer has the [NETWORK] service. *)
Record ipeer := IPeer {
  ip_relay : bool;
  ip_network : bool;
  ip_wtx : bool;
  ip_outbox : gmap N N;
  ip_attempts : nat;
  ip_last : option N
}.

(** invmgr.rs:92-117 [InventoryManager], without the random number
    generator, the clock (passed to [timer]) and the outbox (returned). *)
Record inv := Inv {
  iv_peers : gmap N ipeer;
  iv_confirmed : gmap N (list tx);
  iv_est : estimator;
  iv_mempool : gmap N tx;
  iv_remaining : gmap N (option N);
  iv_received : gmap N block;
  iv_tick : option N
}.
Definition inv0 : inv := Inv ∅ ∅ est0 ∅ ∅ ∅ None.

Inductive inventory := InvTx (txid : N) | InvWitnessTx (txid : N) | InvWTx (wtxid : N) | InvBlock (hash : N) | InvOther.
Inductive tx_status :=
| StConfirmed (block height : N) | StAcknowledged (peer : N) | StReverted (t : tx).
Inductive iout :=
| IoInv (addr : N) (invs : list inventory)
| IoGetData (addr : N) (hash : N)
| IoTx (addr : N) (t : tx)
| IoStatus (txid : N) (s : tx_status)
| IoBlock (b : block) (height : N) (fees : option estimate)
| IoTimedOut (addr : N)
| IoTimer (d : N).

(** Operations.  The tree argument of the code is given by what is asked of
    it: the height of a hash on the active chain, and the chain height.
    [pick] is the random choice of a peer for a block request. *)
Inductive inv_op :=
| INegotiated (addr : N) (network relay wtx : bool)
| IDisconnected (addr : N)
| IReverted (heights : list N)
| IBlock (b : block) (height_of : N -> option N)
| IGetDataMsg (addr : N) (invs : list inventory)
| ITimer (now tree_height : N) (pick : N -> list N -> option N)
| IAnnounce (t : tx)
| IGetBlock (hash : N).

Definition set_peers p (s : inv) := Inv p (iv_confirmed s) (iv_est s) (iv_mempool s) (iv_remaining s) (iv_received s) (iv_tick s).
Definition set_confirmed c (s : inv) := Inv (iv_peers s) c (iv_est s) (iv_mempool s) (iv_remaining s) (iv_received s) (iv_tick s).
Definition set_est e (s : inv) := Inv (iv_peers s) (iv_confirmed s) e (iv_mempool s) (iv_remaining s) (iv_received s) (iv_tick s).
Definition set_mempool m (s : inv) := Inv (iv_peers s) (iv_confirmed s) (iv_est s) m (iv_remaining s) (iv_received s) (iv_tick s).
Definition set_remaining r (s : inv) := Inv (iv_peers s) (iv_confirmed s) (iv_est s) (iv_mempool s) r (iv_received s) (iv_tick s).
Definition set_received r (s : inv) := Inv (iv_peers s) (iv_confirmed s) (iv_est s) (iv_mempool s) (iv_remaining s) r (iv_tick s).
Definition set_tick t (s : inv) := Inv (iv_peers s) (iv_confirmed s) (iv_est s) (iv_mempool s) (iv_remaining s) (iv_received s) t.
Definition set_outbox o (p : ipeer) := IPeer (ip_relay p) (ip_network p) (ip_wtx p) o (ip_attempts p) (ip_last p).

(** invmgr.rs:505-508 [schedule_tick]. *)
Definition schedule_tick (s : inv) : inv * list iout := (set_tick None s, [IoTimer 1000]).

(** invmgr.rs:191-219 [peer_negotiated]. *)
Definition inv_negotiated addr network relay wtx (s : inv) : inv * list iout :=
  let '(s, o) := schedule_tick s in
  (set_peers (<[addr := IPeer relay network wtx (t_id <$> iv_mempool s) 0 None]> (iv_peers s)) s, o).

(** invmgr.rs:478-496 [announce]. *)
Definition announce (t : tx) (s : inv) : inv * list iout :=
  let s := set_mempool (<[t_wid t := t]> (iv_mempool s)) s in
  let s := set_peers ((fun p => if ip_relay p then set_outbox (<[t_wid t := t_id t]> (ip_outbox p)) p else p) <$> iv_peers s) s in
  schedule_tick s.

(** invmgr.rs:222-234 [block_reverted] ([height - 1] wraps at zero). *)
Fixpoint revert_txs (ts : list tx) (s : inv) : inv * list iout :=
  match ts with
  | [] => (s, [])
  | t :: ts' =>
      let '(s, o) := announce t s in
      let '(s, o') := revert_txs ts' s in
      (s, o ++ IoStatus (t_id t) (StReverted t) :: o')
  end.
Definition block_reverted (height : N) (s : inv) : M (inv * list iout) :=
  e <-- fee_rollback (if height =? 0 then u64_max else height - 1) (iv_est s) ;;
  let s := set_est e s in
  match iv_confirmed s !! height with
  | Some ts => Val (revert_txs ts (set_confirmed (delete height (iv_confirmed s)) s))
  | None => Val (s, [])
  end.
(** invmgr.rs:171-175: the reverted blocks of an import, in turn. *)
Fixpoint blocks_reverted (hs : list N) (s : inv) : M (inv * list iout) :=
  match hs with
  | [] => Val (s, [])
  | h :: hs' =>
      '(s, o) <-- block_reverted h s ;;
      '(s, o') <-- blocks_reverted hs' s ;;
      Val (s, o ++ o')
  end.

(** invmgr.rs:259-293: announcing to one peer, [None] if the peer is to be
    dropped.  [mempool[wtxid]] panics if the key is absent. *)
Definition announced (mempool : gmap N tx) (p : ipeer) : M (list inventory) :=
  foldr (fun w k => l <-- k ;;
           match mempool !! w with
           | Some t => Val ((if ip_wtx p then InvWTx (t_wid t) else InvTx (t_id t)) :: l)
           | None => Panic (PIndex 280)
           end) (Val []) (map fst (map_to_list (ip_outbox p))).
Definition peer_tick (now : N) (mempool : gmap N tx) (addr : N) (p : ipeer) : M (option ipeer * list iout) :=
  if bool_decide (ip_outbox p = ∅) then Val (Some p, [])
  else if now - default 0 (ip_last p) <? rebroadcast_timeout then Val (Some p, [])
  else if (max_attempts <=? ip_attempts p)%nat then Val (None, [IoTimedOut addr])
  else
    invs <-- announced mempool p ;;
    Val (Some (IPeer (ip_relay p) (ip_network p) (ip_wtx p) (ip_outbox p) (S (ip_attempts p)) (Some now)),
         [IoInv addr invs; IoTimer rebroadcast_timeout]).
(** The peers in turn (a hash map, so in some order).  The events for dropped
    peers come after all announcements in the code, here with the peer. *)
Fixpoint peers_tick (now : N) (mempool : gmap N tx) (l : list (N * ipeer)) : M (list (N * ipeer) * list iout) :=
  match l with
  | [] => Val ([], [])
  | (a, p) :: l' =>
      '(p', o) <-- peer_tick now mempool a p ;;
      '(l', o') <-- peers_tick now mempool l' ;;
      Val (match p' with Some p' => (a, p') :: l' | None => l' end, o ++ o')
  end.

(** invmgr.rs:302-327: the block requests that are due, each sent to a random
    peer with the network service. *)
Definition request_blocks (now : N) (pick : N -> list N -> option N) (peers : gmap N ipeer)
    (remaining : gmap N (option N)) : gmap N (option N) * list iout :=
  let servers := map fst (List.filter (fun ap : N * ipeer => ip_network ap.2) (map_to_list peers)) in
  let target h t := if request_timeout <=? now - default 0 t then
      match pick h servers with
      | Some a => if bool_decide (a ∈ servers) then Some a else head servers
      | None => head servers
      end else None in
  (map_imap (fun h t => Some (if target h t then Some now else t)) remaining,
   concat (map (fun '(h, t) => match target h t with
                               | Some a => [IoGetData a h; IoTimer request_timeout]
                               | None => [] end) (map_to_list remaining))).

(** invmgr.rs:242-328 [timer_expired]; the subtraction of heights wraps. *)
Definition inv_timer (now tree_height : N) pick (s : inv) : M (inv * list iout) :=
  let due := inv_idle_timeout <=? now - default 0 (iv_tick s) in
  let s := if due then set_tick (Some now) s else s in
  let o1 := if due then [IoTimer inv_idle_timeout] else [] in
  let s := set_confirmed (filter (fun '(h, _) => wrap64 (tree_height + 2 ^ 64 - h) <=? prune_depth = true) (iv_confirmed s)) s in
  '(l, o2) <-- peers_tick now (iv_mempool s) (map_to_list (iv_peers s)) ;;
  let s := set_peers (list_to_map l) s in
  let '(r, o3) := request_blocks now pick (iv_peers s) (iv_remaining s) in
  Val (set_remaining r s, o1 ++ o2 ++ o3).

(** [mempool.values().find(|tx| tx.txid() == txid)]: the one with the
    smallest wtxid (the mempool is a sorted map). *)
Definition find_txid (txid : N) (m : gmap N tx) : option tx :=
  match sortN (map fst (List.filter (fun p : N * tx => t_id p.2 =? txid) (map_to_list m))) with
  | w :: _ => m !! w
  | [] => None
  end.

(** invmgr.rs:74-88, 345-357, 368-380: the peer fetched the transaction. *)
Definition acknowledge (addr wtxid : N) (txid : option N) (s : inv) : inv * list iout :=
  match iv_peers s !! addr with
  | Some p =>
      match ip_outbox p !! wtxid with
      | Some t => (set_peers (<[addr := IPeer (ip_relay p) (ip_network p) (ip_wtx p) (delete wtxid (ip_outbox p)) 0 None]> (iv_peers s)) s,
                   [IoStatus (default t txid) (StAcknowledged addr)])
      | None => (s, [])
      end
  | None => (s, [])
  end.
(** invmgr.rs:331-388 [received_getdata]. *)
Definition getdata_one (addr : N) (i : inventory) (s : inv) : inv * list iout :=
  match i with
  | InvTx txid | InvWitnessTx txid =>
      match find_txid txid (iv_mempool s) with
      | Some t => let '(s, o) := acknowledge addr (t_wid t) (Some txid) s in (s, IoTx addr t :: o)
      | None => (s, [])
      end
  | InvWTx w =>
      let o1 := match iv_mempool s !! w with Some t => [IoTx addr t] | None => [] end in
      let '(s, o) := acknowledge addr w None s in (s, o1 ++ o)
  | _ => (s, [])
  end.
Fixpoint getdata (addr : N) (is : list inventory) (s : inv) : inv * list iout :=
  match is with
  | [] => (s, [])
  | i :: is' => let '(s, o) := getdata_one addr i s in let '(s, o') := getdata addr is' s in (s, o ++ o')
  end.

(** invmgr.rs:443-466: one transaction of a processed block. *)
Definition confirm_tx (hash height : N) (t : tx) (s : inv) : inv * list iout :=
  match iv_mempool s !! t_wid t with
  | Some t' =>
      let s := set_mempool (delete (t_wid t) (iv_mempool s)) s in
      let s := set_peers ((fun p => set_outbox (delete (t_wid t) (ip_outbox p)) p) <$> iv_peers s) s in
      let s := set_confirmed (<[height := default [] (iv_confirmed s !! height) ++ [t']]> (iv_confirmed s)) s in
      (s, [IoStatus (t_id t') (StConfirmed hash height)])
  | None => (s, [])
  end.
Fixpoint confirm_txs (hash height : N) (ts : list tx) (s : inv) : inv * list iout :=
  match ts with
  | [] => (s, [])
  | t :: ts' =>
      let '(s, o) := confirm_tx hash height t s in
      let '(s, o') := confirm_txs hash height ts' s in
      (s, o ++ o')
  end.
(** invmgr.rs:431-475: the loop body for one block; the fee estimator
    processes it and the event is emitted. *)
Definition process_block (height : N) (b : block) (s : inv) : M (inv * list iout) :=
  let '(s, o) := confirm_txs (b_hash b) height (b_txs b) s in
  '(e, fees) <-- fee_process (b_txs b) height (iv_est s) ;;
  Val (set_est e s, o ++ [IoBlock b height fees]).
(** invmgr.rs:431-437: always the smallest height of the queue. *)
Fixpoint process_queue (hs : list N) (s : inv) : M (inv * list iout) :=
  match hs with
  | [] => Val (s, [])
  | h :: hs' =>
      match iv_received s !! h with
      | Some b =>
          '(s, o) <-- process_block h b (set_received (delete h (iv_received s)) s) ;;
          '(s, o') <-- process_queue hs' s ;;
          Val (s, o ++ o')
      | None => process_queue hs' s
      end
  end.
(** invmgr.rs:394-475 [received_block].  The returned list of transactions is
    not used by the caller and left out. *)
Definition received_block (b : block) (height_of : N -> option N) (s : inv) : M (inv * list iout) :=
  match iv_remaining s !! b_hash b with
  | None => Val (s, [])
  | Some _ =>
      let s := set_remaining (delete (b_hash b) (iv_remaining s)) s in
      match height_of (b_hash b) with
      | None => Val (s, [])
      | Some height =>
          let s := set_received (<[height := b]> (iv_received s)) s in
          if bool_decide (iv_remaining s = ∅)
          then process_queue (sortN (map fst (map_to_list (iv_received s)))) s
          else Val (s, [])
      end
  end.

(** invmgr.rs:499-503 [get_block]. *)
Definition get_block (hash : N) (s : inv) : inv * list iout :=
  schedule_tick (match iv_remaining s !! hash with
                 | Some _ => s
                 | None => set_remaining (<[hash := None]> (iv_remaining s)) s end).

(** invmgr.rs:157-188 [received_event] and the public functions. *)
Definition inv_step (o : inv_op) (s : inv) : M (inv * list iout) :=
  match o with
  | INegotiated a n r w => Val (inv_negotiated a n r w s)
  | IDisconnected a => Val (set_peers (delete a (iv_peers s)) s, [])
  | IReverted hs => blocks_reverted hs s
  | IBlock b height_of => received_block b height_of s
  | IGetDataMsg a is => Val (getdata a is s)
  | ITimer now th pick => inv_timer now th pick s
  | IAnnounce t => Val (announce t s)
  | IGetBlock h => Val (get_block h s)
  end.
Fixpoint inv_run (os : list inv_op) (s : inv) : M (inv * list (list iout)) :=
  match os with
  | [] => Val (s, [])
  | o :: os' => '(s, x) <-- inv_step o s ;; '(s, xs) <-- inv_run os' s ;; Val (s, x :: xs)
  end.
