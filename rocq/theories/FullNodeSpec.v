(** The log of a run of the whole client, and what it is for the chain, filter
    and inventory managers. *)
From Verif Require Import Base PowModel BlockModel FeeModel AddrModel PeerModel DispModel DispSpec LoadModel NodeModel NodeSpec NodeLogSpec FullModel FullSpec.
From Verif Require SyncModel CbfModel CbfSpec InvModel.
Open Scope N_scope.

(** Each input with the time and the height of the chain when it was handled,
    and what happened. *)
Record wentry := WEntry { wl_op : wop; wl_time : N; wl_height : N; wl_items : list (fitem wmsg wev) }.
Section Log.
Context (H : header -> N) (step : wop -> wstate -> M (wstate * list (fitem wmsg wev))) (env : nat -> nenv).
Definition wlog_step (o : wop) (s : wstate) (x : list (fitem wmsg wev)) : wentry :=
  WEntry o (SyncModel.se_now (ne_sync (env (n_calls (w_node (f_state s)))))) (CbfModel.tr_height (tree_of H (n_cache (w_node (f_state s))))) x.
Fixpoint whole_log (os : list wop) (s : wstate) : M (wstate * list wentry) :=
  match os with
  | [] => Val (s, [])
  | o :: os' =>
      '(s1, x) <-- step o s ;;
      '(s2, l) <-- whole_log os' s1 ;;
      Val (s2, wlog_step o s x :: l)
  end.
(** Some step of the run is such. *)
Fixpoint wsome_step (Q : wstate -> wstate -> Prop) (os : list wop) (s : wstate) : Prop :=
  match os with
  | [] => False
  | o :: os' => match step o s with Val (s', _) => Q s s' \/ wsome_step Q os' s' | Panic _ => False end
  end.
End Log.

(** What an event tells these managers: who has completed a handshake, and with
    which services (1: blocks, 64: filters), who has left, messages of the chain
    and the filters, and their own events. *)
Definition told_of (e : wev) : option nev :=
  match e with
  | WvPeer (KoNegotiated a l sv pe _ _ h _ re wt) =>
      Some (EvNegotiated (key a) h (match l with Outbound => true | Inbound => false end) (N.testbit sv 0) (N.testbit sv 6) re wt pe)
  | WvPeer (KoDisconnected a _) => Some (EvDisconnected (key a))
  | WvMessage a (WNode m) => Some (EvMessage (key a) m)
  | WvNode e => Some e
  | _ => None
  end.
(** Of what happened, events and messages, other than those the user broadcasts. *)
Definition item_of (i : fitem wmsg wev) : option (fitem nmsg nev) :=
  match i with
  | FQueued c (IoEvent e) => (fun e => FQueued c (IoEvent e)) <$> told_of e
  | FQueued c (IoWrite a (WNode m)) => if decide (c = CMain) then None else Some (FQueued c (IoWrite a m))
  | FEmitted c (IoEvent e) => (fun e => FEmitted c (IoEvent e)) <$> told_of e
  | FPassed e => FPassed <$> told_of e
  | _ => None
  end.
(** Of the inputs, timers and commands. *)
Definition input_of (o : wop) : nop :=
  match o with
  | WInitialize => NInitialize
  | WTimer => NTimer
  | WCommand (CmdImportHeaders hds) => NImport hds
  | WCommand (CmdRequestFilters a b) => NRequestFilters a b
  | WCommand (CmdRequestBlock h) => NRequestBlock h
  | WCommand (CmdSubmit t) => NSubmit t
  | WCommand (CmdRescan a b w) => NRescan a b w
  | WCommand (CmdWatch w) => NWatch w
  | _ => NNext
  end.
Definition entry_of (e : wentry) : entry := Entry (input_of (wl_op e)) (wl_time e) (wl_height e) (omap item_of (wl_items e)).

(** Before or after the step this block was at this height of the active
    chain, and after it the filter was authentic there. *)
Definition wvouches (H : header -> N) (P : CbfModel.params) (h block : N) (f : CbfModel.bfilter) (s s' : wstate) : Prop :=
  (CbfModel.tr_at (tree_of H (n_cache (w_node (f_state s)))) h = Some block \/ CbfModel.tr_at (tree_of H (n_cache (w_node (f_state s')))) h = Some block) /\
  CbfSpec.authentic P (n_cbf (w_node (f_state s'))) h f.

(** A step queues an event of one of these managers. *)
Definition says (x : list (fitem wmsg wev)) (e : nev) : Prop := exists c, FQueued c (IoEvent (WvNode e)) ∈ x.
(** A step queues a message. *)
Definition writes (x : list (fitem wmsg wev)) (a : sockaddr) (m : nmsg) : Prop := exists c, FQueued c (IoWrite a (WNode m)) ∈ x.

(** The log as inputs with what happened. *)
Definition pairs (L : list wentry) : list (wop * list (fitem wmsg wev)) := (fun e => (wl_op e, wl_items e)) <$> L.
