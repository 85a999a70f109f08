(** What the events that a node has announced tell about its peers, and the
    reasons it may have to write a message. *)
From Verif Require Import Base PowModel BlockModel FeeModel AddrModel DispModel DispSpec LoadModel NodeModel NodeSpec.
From Verif Require SyncModel CbfModel CbfSpec InvModel InvSpec.
Open Scope N_scope.

(** The handshakes of a peer since it was last disconnected, the most recent
    first. *)
Record handshake := Shake { sh_outbound : bool; sh_network : bool; sh_filters : bool; sh_wtx : bool }.
Definition shake_step (a : N) (l : list handshake) (e : nev) : list handshake :=
  match e with
  | EvNegotiated a' _ ob nw fl _ wt _ => if a' =? a then Shake ob nw fl wt :: l else l
  | EvDisconnected a' => if a' =? a then [] else l
  | _ => l
  end.
Definition handshakes (a : N) (es : list nev) : list handshake := foldl (shake_step a) [] es.

(** The last thing that was announced is this message from the peer. *)
Definition just_said (a : N) (m : nmsg) (es : list nev) : Prop := last es = Some (EvMessage a m).
Definition submitted (os : list nop) (t : tx) : Prop := NSubmit t ∈ os.

(** The reasons to write a message to a peer, given the inputs [os] and the
    events [es] up to then. *)
Definition reason_to_write (os : list nop) (es : list nev) (a : N) (m : nmsg) : Prop :=
  match m with
  | MGetHeaders _ => exists h, h ∈ handshakes a es /\ negb (sh_outbound h) || sh_network h = true
  | MHeaders _ => (exists l, just_said a (MGetHeaders l) es) \/ exists h, h ∈ handshakes a es /\ sh_outbound h = false
  | MGetCFHeaders _ _ _ | MGetCFilters _ _ => exists h, h ∈ handshakes a es /\ sh_outbound h = true /\ sh_filters h = true
  | MCFHeaders _ stop _ _ => exists ty start, just_said a (MGetCFHeaders ty start stop) es
  | MGetData _ => exists h l, handshakes a es = h :: l /\ sh_network h = true
  | MInv is => forall i, i ∈ is -> exists h l t, handshakes a es = h :: l /\ submitted os t /\
      i = (if sh_wtx h then InvModel.InvWTx (t_wid t) else InvModel.InvTx (t_id t))
  | MTx t => submitted os t /\ exists is i, just_said a (MGetData is) es /\ i ∈ is /\ InvSpec.names i t
  | MBlock _ | MCFilter _ _ _ => False
  end.

(** The filter manager's hash maps are traversed completely. *)
Definition fair_filters (env : nat -> nenv) : Prop := forall n m l, CbfModel.k_order (ne_cbf (env n)) m l ≡ₚ l.

(** ** The log of a run *)

(** Each input, the time and the height of the active chain when it was
    handled, and what was queued, emitted and passed on. *)
Record entry := Entry { e_op : nop; e_time : N; e_height : N; e_items : list (fitem nmsg nev) }.
Section Log.
Context (H : header -> N) (step : nop -> state -> M (state * list (fitem nmsg nev))) (env : nat -> nenv).
Definition log_step (o : nop) (s : state) (x : list (fitem nmsg nev)) : entry :=
  Entry o (SyncModel.se_now (ne_sync (env (n_calls (f_state s))))) (CbfModel.tr_height (tree_of H (n_cache (f_state s)))) x.
Fixpoint node_log (os : list nop) (s : state) : M (state * list entry) :=
  match os with
  | [] => Val (s, [])
  | o :: os' =>
      '(s1, x) <-- step o s ;;
      '(s2, l) <-- node_log os' s1 ;;
      Val (s2, log_step o s x :: l)
  end.
(** Some step of the run is such. *)
Fixpoint some_step (Q : state -> state -> Prop) (os : list nop) (s : state) : Prop :=
  match os with
  | [] => False
  | o :: os' => match step o s with Val (s', _) => Q s s' \/ some_step Q os' s' | Panic _ => False end
  end.
End Log.
Definition ops (l : list entry) : list nop := e_op <$> l.
Definition events (l : list entry) : list nev := announced (concat (e_items <$> l)).

(** The events and messages that a step queues. *)
Definition queued_events (x : list (fitem nmsg nev)) : list nev :=
  omap (fun i => match i with FQueued _ (IoEvent e) => Some e | _ => None end) x.
Definition written (x : list (fitem nmsg nev)) : list (sockaddr * nmsg) :=
  omap (fun i => match i with FQueued _ (IoWrite a m) => Some (a, m) | _ => None end) x.

(** What the user looks for: the scripts of the last rescan and of the watch
    commands since, and the outputs of the transactions that were submitted or
    reverted, and not confirmed since. *)
Definition log_scripts (w : list N) (e : entry) : list N :=
  match e_op e with NWatch l => l ++ w | NRescan _ _ l => l | _ => w end.
Definition tx_event (m : gmap N (list N)) (e : nev) : gmap N (list N) :=
  match e with
  | EvInv (InvModel.IoStatus i (InvModel.StConfirmed _ _)) => delete i m
  | EvInv (InvModel.IoStatus _ (InvModel.StReverted t)) => <[t_id t := (t_outs t).*2]> m
  | _ => m
  end.
Definition log_txs (m : gmap N (list N)) (e : entry) : gmap N (list N) :=
  foldl tx_event (match e_op e with NSubmit t => <[t_id t := (t_outs t).*2]> m | _ => m end) (announced (e_items e)).
Definition scripts_watched (l : list entry) : list N := foldl log_scripts [] l.
Definition txs_watched (l : list entry) : gmap N (list N) := foldl log_txs ∅ l.
Definition looked_for (P : CbfModel.params) (l : list entry) (f : CbfModel.bfilter) (block : N) : Prop :=
  (scripts_watched l <> [] /\ CbfModel.p_any P f block (list_to_set (scripts_watched l)) = Some true) \/
  ((scripts_watched l <> [] -> CbfModel.p_any P f block (list_to_set (scripts_watched l)) <> None) /\
   exists txid outs, txs_watched l !! txid = Some outs /\ CbfModel.p_all P f block (list_to_set outs) = Some true).

(** A block is awaited from the arrival of the filter that completes the scan
    up to it and matches, until it is processed or disconnected. *)
Definition reports_match (h : N) (e : nev) : bool :=
  match e with EvCbf (CbfModel.CoFilterProcessed _ h' _ true _) => h' =? h | _ => false end.
Definition log_awaits (h : N) (v : bool) (e : entry) : bool :=
  match announced (e_items e) with
  | [EvMessage _ (MCFilter _ _ _)] => v || existsb (reports_match h) (queued_events (e_items e))
  | [EvInv (InvModel.IoBlock _ h' _)] | [EvSync (SyncModel.SoDisconnected h' _)] => if h' =? h then false else v
  | _ => v
  end.
Definition awaited (h : N) (l : list entry) : bool := foldl (log_awaits h) false l.

(** When a block was last asked for, if it has not come since. *)
Definition block_message (hash : N) (e : nev) : bool :=
  match e with EvMessage _ (MBlock b) => InvModel.b_hash b =? hash | _ => false end.
Definition asks_block (hash : N) (w : sockaddr * nmsg) : bool :=
  match w.2 with MGetData [InvModel.InvBlock h] => h =? hash | _ => false end.
Definition log_asked (hash : N) (v : option N) (e : entry) : option N :=
  if existsb (block_message hash) (announced (e_items e)) then None
  else if existsb (asks_block hash) (written (e_items e)) then Some (e_time e) else v.
Definition last_asked (hash : N) (l : list entry) : option N := foldl (log_asked hash) None l.

(** Whether a peer is connected and serves blocks; one that does not react to
    announcements is given up. *)
Definition gives_up (a : N) (e : nev) : bool := match e with EvInv (InvModel.IoTimedOut a') => a' =? a | _ => false end.
Definition serve_event (a : N) (v : option bool) (e : nev) : option bool :=
  match e with
  | EvNegotiated a' _ _ nw _ _ _ _ => if a' =? a then Some nw else v
  | EvDisconnected a' => if a' =? a then None else v
  | _ => v
  end.
Definition log_serves (a : N) (v : option bool) (e : entry) : option bool :=
  if existsb (gives_up a) (queued_events (e_items e)) then None else foldl (serve_event a) v (announced (e_items e)).
Definition serves (a : N) (l : list entry) : option bool := foldl (log_serves a) None l.

(** Before or after the step this block was at this height of the active
    chain, and after it the filter was authentic there. *)
Definition vouches (H : header -> N) (P : CbfModel.params) (h block : N) (f : CbfModel.bfilter) (s s' : state) : Prop :=
  (CbfModel.tr_at (tree_of H (n_cache (f_state s))) h = Some block \/ CbfModel.tr_at (tree_of H (n_cache (f_state s'))) h = Some block) /\
  CbfSpec.authentic P (n_cbf (f_state s')) h f.

(** What makes a block wanted: the user asks for it, or its filter matches. *)
Definition makes_wanted (hash : N) (l : list entry) (e : entry) : Prop :=
  e_op e = NRequestBlock hash \/
  exists h v c, EvCbf (CbfModel.CoFilterProcessed hash h v true c) ∈ queued_events (e_items e) /\ awaited h l = false.

(** The blocks at a height stay: no import that reverts it is announced, and
    timers fire only while it is among the last thirteen. *)
Definition keeps (h : N) (e : entry) : Prop :=
  (forall b k th rv cn, EvSync (SyncModel.SoImported b k th rv cn) ∈ announced (e_items e) -> h ∉ rv.*1) /\
  (e_op e = NTimer -> h <= e_height e <= h + 12 /\ e_height e < 2 ^ 64).
