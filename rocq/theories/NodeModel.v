(** The managers that use the block tree put together: the state machine of
    DispModel.v with the header cache, the sync manager, the compact filter
    manager and the inventory manager in it (p2p/src/fsm.rs:334-360).

    The peer, address and ping managers are left out here: what they queue is
    an input of the run.  [PeerNegotiated] and [PeerDisconnected] are queued in
    the outbox of the peer manager; that messages come from connected peers is
    not needed below. *)
From Verif Require Import Base PowModel BlockModel UtilModel FeeModel AddrModel PeerModel DispModel LoadModel.
From Verif Require SyncModel CbfModel InvModel.
Open Scope N_scope.

(** Payloads of network messages that the managers read or write
    (bitcoin crate [NetworkMessage]). *)
Inductive nmsg :=
| MHeaders (hds : list header)
| MGetHeaders (l : SyncModel.locators)
| MInv (invs : list InvModel.inventory)
| MGetData (invs : list InvModel.inventory)
| MBlock (b : InvModel.block)
| MTx (t : tx)
| MCFHeaders (ftype stop_hash prev : N) (hashes : list N)
| MGetCFHeaders (ftype start stop_hash : N)
| MCFilter (ftype hash : N) (f : CbfModel.bfilter)
| MGetCFilters (start stop_hash : N).

(** p2p/src/fsm/event.rs: the events that some manager reacts to are told
    apart, the others are kept as the output of the manager they come from. *)
Inductive nev :=
| EvNegotiated (addr height : N) (outbound network filters relay wtx persistent : bool)
| EvDisconnected (addr : N)
| EvMessage (from : N) (m : nmsg)
| EvSync (o : SyncModel.sout)
| EvCbf (o : CbfModel.cout)
| EvInv (o : InvModel.iout).

(** What the outside decides during one call of a manager: the clocks, the order of
    hash maps, random choices, and whether stores fail. *)
Record nenv := NEnv {
  ne_sync : SyncModel.senv;
  ne_import : nat -> choice;
  ne_cbf : CbfModel.choices;
  ne_pick : N -> list N -> option N;
}.

(** fsm.rs:334-360 [StateMachine]; [n_calls] counts the calls, to take the
    next environment. *)
Record node := Node {
  n_cache : cache;
  n_sync : SyncModel.sync;
  n_cbf : CbfModel.cbf;
  n_inv : InvModel.inv;
  n_calls : nat;
}.

Section Node.
Context (H : header -> N).
Context (scf : SyncModel.sconf) (P : CbfModel.params).
(** Socket addresses, which are numbers for the managers modelled here. *)
Context (sock : N -> sockaddr).
(** The environment of each call, in turn, and the magic number of the network. *)
Context (env : nat -> nenv) (magic : N).

Notation io := (DispModel.io nmsg nev).
Notation St := node.

(** Outputs of the managers as entries of their outboxes
    (p2p/src/fsm/output.rs). A reply to the user is not one, and the debug
    assertion does nothing in a release build. *)
Definition sync_io (o : SyncModel.sout) : list (comp * io) :=
  match o with
  | SyncModel.SoGetHeaders a l => [(CSync, IoWrite (sock a) (MGetHeaders l))]
  | SyncModel.SoHeaders a hds => [(CSync, IoWrite (sock a) (MHeaders hds))]
  | SyncModel.SoTimer d => [(CSync, IoTimer d)]
  | SyncModel.SoDisconnect a => [(CSync, IoDisconnect (sock a) RTimeout)]
  | SyncModel.SoDebugAssert _ => []
  | o => [(CSync, IoEvent (EvSync o))]
  end.
Definition inv_io (o : InvModel.iout) : list (comp * io) :=
  match o with
  | InvModel.IoInv a invs => [(CInv, IoWrite (sock a) (MInv invs))]
  | InvModel.IoGetData a h => [(CInv, IoWrite (sock a) (MGetData [InvModel.InvBlock h]))]
  | InvModel.IoTx a t => [(CInv, IoWrite (sock a) (MTx t))]
  | InvModel.IoTimer d => [(CInv, IoTimer d)]
  | o => [(CInv, IoEvent (EvInv o))]
  end.
Definition cbf_io (o : CbfModel.cout) : list (comp * io) :=
  match o with
  | CbfModel.CoGetCFHeaders a s h => [(CCbf, IoWrite (sock a) (MGetCFHeaders 0 s h))]
  | CbfModel.CoGetCFilters a s h => [(CCbf, IoWrite (sock a) (MGetCFilters s h))]
  | CbfModel.CoCFHeaders a h p l => [(CCbf, IoWrite (sock a) (MCFHeaders 0 h p l))]
  | CbfModel.CoDisconnect a => [(CCbf, IoDisconnect (sock a) RTimeout)]
  | CbfModel.CoTimer d => [(CCbf, IoTimer d)]
  | CbfModel.CoGetBlock _ | CbfModel.CoReply _ => []
  | o => [(CCbf, IoEvent (EvCbf o))]
  end.

(** One call of each manager. *)
Definition call_sync (o : SyncModel.sync_op) (n : node) : M (node * list (comp * io)) :=
  '(s, c, x) <-- SyncModel.sync_step H scf (o, ne_sync (env (n_calls n))) (n_sync n, n_cache n) ;;
  Val (Node c s (n_cbf n) (n_inv n) (S (n_calls n)), flat_map sync_io x).
Definition call_inv (o : InvModel.inv_op) (n : node) : M (node * list (comp * io)) :=
  '(i, x) <-- InvModel.inv_step o (n_inv n) ;;
  Val (Node (n_cache n) (n_sync n) (n_cbf n) i (S (n_calls n)), flat_map inv_io x).
(** cbfmgr.rs:288-292 and fsm.rs:725-728: matching blocks are requested from
    the inventory manager. *)
Fixpoint get_blocks (l : list CbfModel.cout) (i : InvModel.inv) : InvModel.inv * list InvModel.iout :=
  match l with
  | [] => (i, [])
  | CbfModel.CoGetBlock h :: l' =>
      let '(i, x) := InvModel.get_block h i in
      let '(i, x') := get_blocks l' i in
      (i, x ++ x')
  | _ :: l' => get_blocks l' i
  end.
Definition call_cbf (o : CbfModel.cbf_op) (n : node) : M (node * list (comp * io)) :=
  let e := env (n_calls n) in
  '(s, x) <-- CbfModel.cbf_step P (ne_cbf e) (SyncModel.se_now (ne_sync e)) (tree_of H (n_cache n)) o (n_cbf n) ;;
  let '(i, y) := get_blocks x (n_inv n) in
  Val (Node (n_cache n) (n_sync n) s i (S (n_calls n)), flat_map cbf_io x ++ flat_map inv_io y).

(** The headers of a batch with what the environment decides for each. *)
Definition with_choices (n : node) (hds : list header) : list (header * choice) :=
  imap (fun i hd => (hd, ne_import (env (n_calls n)) i)) hds.

(** fsm.rs:625-633 with cbfmgr.rs:171-315, invmgr.rs:157-188 and
    syncmgr.rs:154-190 [received_event]: what each manager does with an
    event. *)
Definition block_inv (i : InvModel.inventory) : option N :=
  match i with InvModel.InvBlock h => Some h | _ => None end.
Definition sync_event (e : nev) (n : node) : option SyncModel.sync_op :=
  match e with
  | EvNegotiated a h ob nw fl _ _ _ => Some (SyncModel.SNegotiated a h nw fl ob)
  | EvDisconnected a => Some (SyncModel.SDisconnect a)
  | EvMessage a (MHeaders hds) => Some (SyncModel.SHeaders a (with_choices n hds))
  | EvMessage a (MGetHeaders l) => Some (SyncModel.SGetHeaders a l)
  | EvMessage a (MInv l) => Some (SyncModel.SInv a (map block_inv l))
  | _ => None
  end.
Definition inv_event (e : nev) (n : node) : option InvModel.inv_op :=
  match e with
  | EvNegotiated a _ _ nw _ re wt _ => Some (InvModel.INegotiated a nw re wt)
  | EvDisconnected a => Some (InvModel.IDisconnected a)
  | EvSync (SyncModel.SoImported _ _ _ reverted _) => Some (InvModel.IReverted reverted.*1)
  | EvMessage a (MBlock b) => Some (InvModel.IBlock b (CbfModel.tr_get (tree_of H (n_cache n))))
  | EvMessage a (MGetData l) => Some (InvModel.IGetDataMsg a l)
  | _ => None
  end.
Definition cbf_event (e : nev) : option CbfModel.cbf_op :=
  match e with
  | EvNegotiated a _ ob _ fl _ _ pe => Some (CbfModel.CNegotiated a ob fl pe)
  | EvDisconnected a => Some (CbfModel.CDisconnected a)
  | EvInv (InvModel.IoBlock b h _) => Some (CbfModel.CBlockProcessed (InvModel.b_hash b) h)
  | EvSync (SyncModel.SoDisconnected h _) => Some (CbfModel.CBlockDisconnected h)
  | EvSync (SyncModel.SoImported _ _ _ reverted _) => Some (CbfModel.CImported reverted.*1)
  | EvInv (InvModel.IoStatus i (InvModel.StConfirmed _ _)) => Some (CbfModel.CTxConfirmed i)
  | EvInv (InvModel.IoStatus _ (InvModel.StReverted t)) => Some (CbfModel.CTxReverted (t_id t) (t_outs t).*2)
  | EvMessage a (MCFHeaders ty h p l) => Some (CbfModel.CCFHeaders a ty h p l)
  | EvMessage a (MGetCFHeaders ty s h) => Some (CbfModel.CGetCFHeaders a ty s h)
  | EvMessage a (MCFilter ty h f) => Some (CbfModel.CCFilter a ty h f)
  | _ => None
  end.
Definition on_event (c : comp) (e : nev) (n : node) : M (node * list (comp * io)) :=
  match c with
  | CCbf => match cbf_event e with Some o => call_cbf o n | None => Val (n, []) end
  | CInv => match inv_event e n with Some o => call_inv o n | None => Val (n, []) end
  | CSync => match sync_event e n with Some o => call_sync o n | None => Val (n, []) end
  | _ => Val (n, [])
  end.

(** Inputs of the node: the events of the peer manager that the others react
    to, messages, the timer, commands, and taking an output. *)
Inductive peer_event :=
| PNegotiated (addr height : N) (outbound network filters relay wtx persistent : bool)
| PDisconnected (addr : N).
Inductive nop :=
| NInitialize
| NPeer (e : peer_event)
| NMessage (from : N) (m : nmsg)
| NTimer
| NImport (hds : list header)
| NRescan (from to : CbfModel.bound) (watch : list N)
| NWatch (scripts : list N)
| NRequestFilters (a b : N)
| NRequestBlock (hash : N)
| NSubmit (t : tx)
| NNext.

Definition both (f g : node -> M (node * list (comp * io))) (n : node) : M (node * list (comp * io)) :=
  '(n, x) <-- f n ;;
  '(n, y) <-- g n ;;
  Val (n, x ++ y).

(** fsm.rs:752-763 [initialize], 766-799 [message_received] (the checks before
    it are in DispModel.v), 824-831 [timer_expired], 636-740 [command]. *)
Definition nop_fop (o : nop) : fop node nmsg nev :=
  match o with
  | NInitialize => FInput (both (call_sync SyncModel.SInitialize) (call_cbf CbfModel.CInitialize))
  | NPeer (PNegotiated a h ob nw fl re wt pe) => FInput (fun n => Val (n, [(CPeer, IoEvent (EvNegotiated a h ob nw fl re wt pe))]))
  | NPeer (PDisconnected a) => FInput (fun n => Val (n, [(CPeer, IoEvent (EvDisconnected a))]))
  | NMessage a m => FInternal (EvMessage a m)
  | NTimer => FInput (fun n =>
      let e := env (n_calls n) in
      both (call_inv (InvModel.ITimer (SyncModel.se_now (ne_sync e)) (CbfModel.tr_height (tree_of H (n_cache n))) (ne_pick e)))
        (both (call_sync SyncModel.STimer) (call_cbf CbfModel.CTimer)) n)
  | NImport hds => FInput (fun n => call_sync (SyncModel.SImport (with_choices n hds)) n)
  | NRescan a b w => FInput (call_cbf (CbfModel.CRescan a b w))
  | NWatch w => FInput (call_cbf (CbfModel.CWatch w))
  | NRequestFilters a b => FInput (call_cbf (CbfModel.CRequestFilters a b))
  | NRequestBlock h => FInput (call_inv (InvModel.IGetBlock h))
  | NSubmit t => FInput (both (call_cbf (CbfModel.CWatchTx (t_id t) (t_outs t).*2)) (call_inv (InvModel.IAnnounce t)))
  | NNext => FNext
  end.
Definition node_step (o : nop) (s : fsm node nmsg nev) : M (fsm node nmsg nev * list (fitem nmsg nev)) :=
  fstep on_event magic (nop_fop o) s.
Fixpoint node_run (os : list nop) (s : fsm node nmsg nev) : M (fsm node nmsg nev * list (fitem nmsg nev)) :=
  match os with
  | [] => Val (s, [])
  | o :: os' => '(s, x) <-- node_step o s ;; '(s, y) <-- node_run os' s ;; Val (s, x ++ y)
  end.

(** The start: an empty history over loaded stores. *)
Definition node0 (c : cache) (f : CbfModel.cbf) : fsm node nmsg nev :=
  Fsm (Node c SyncModel.sync_init f InvModel.inv0 0) (fun _ => []).
End Node.
