(** Vocabulary for the inventory manager properties. *)
From Verif Require Import Base FeeModel InvModel.
Open Scope N_scope.

(** A history of operations from the initial state. *)
Definition inv_reach (os : list inv_op) (s : inv) (outs : list (list iout)) : Prop :=
  inv_run os inv0 = Val (s, outs).

(** The blocks reported as processed, with their heights, in order. *)
Definition processed (x : list iout) : list (N * block) :=
  omap (fun o => match o with IoBlock b h _ => Some (h, b) | _ => None end) x.

(** How often outputs or operations of a kind occur. *)
Definition count {A} (f : A -> bool) (l : list A) : nat := length (List.filter f l).
Definition processed_hash (hash : N) (o : iout) : bool :=
  match o with IoBlock b _ _ => b_hash b =? hash | _ => false end.
Definition requests_hash (hash : N) (o : inv_op) : bool :=
  match o with IGetBlock h => h =? hash | _ => false end.
Definition confirms (txid : N) (o : iout) : bool :=
  match o with IoStatus t (StConfirmed _ _) => t =? txid | _ => false end.
Definition reverts (txid : N) (o : iout) : bool :=
  match o with IoStatus t (StReverted _) => t =? txid | _ => false end.
Definition submits (txid : N) (o : inv_op) : bool :=
  match o with IAnnounce t => t_id t =? txid | _ => false end.
Definition announces_to (addr : N) (o : iout) : bool :=
  match o with IoInv a _ => a =? addr | _ => false end.
Definition acked_by (addr : N) (o : iout) : bool :=
  match o with IoStatus _ (StAcknowledged a) => a =? addr | _ => false end.
Definition drops (addr : N) (o : iout) : bool :=
  match o with IoTimedOut a => a =? addr | _ => false end.

(** The transaction with this witness id is in the mempool. *)
Definition tracked (w : N) (s : inv) : Prop := exists t, iv_mempool s !! w = Some t.
(** A block containing it is reported as processed. *)
Definition includes (w : N) (x : list iout) : Prop :=
  exists h b t, (h, b) ∈ processed x /\ t ∈ b_txs b /\ t_wid t = w.
(** It is remembered as confirmed at height [h]. *)
Definition confirmed_at (h : N) (t : tx) (s : inv) : Prop :=
  exists l, iv_confirmed s !! h = Some l /\ t ∈ l.

(** Operations that neither revert height [h] nor tell that it is buried by
    more than 12 blocks (or above the tip). *)
Definition keeps_height (h : N) (o : inv_op) : Prop :=
  match o with
  | IReverted hs => h ∉ hs
  | ITimer _ th _ => h <= th <= h + 12 /\ th < 2 ^ 64
  | _ => True
  end.

(** The connection with [addr] is neither closed nor renegotiated. *)
Definition same_session (addr : N) (o : inv_op) : Prop :=
  match o with
  | INegotiated a _ _ _ | IDisconnected a => a <> addr
  | _ => True
  end.

(** Times at which [addr] was sent announcements, interleaved with the
    acknowledgements received from it ([None]). *)
Definition announce_log (addr : N) (o : inv_op) (x : list iout) : list (option N) :=
  (if existsb (acked_by addr) x then [None] else []) ++
  match o with
  | ITimer now _ _ => if existsb (announces_to addr) x then [Some now] else []
  | _ => []
  end.
Fixpoint announce_logs (addr : N) (os : list inv_op) (xs : list (list iout)) : list (option N) :=
  match os, xs with
  | o :: os, x :: xs => announce_log addr o x ++ announce_logs addr os xs
  | _, _ => []
  end.
(** Two announcements with no acknowledgement between them are a minute
    apart. *)
Definition spaced (l : list (option N)) : Prop :=
  forall i t t', l !! i = Some (Some t) -> l !! S i = Some (Some t') -> t + 60000 <= t'.

(** ** What an observer knows *)

(** A connection as seen from outside: its services and flags as negotiated,
    when it was last sent an announcement that it did not react to, and how
    many of those there have been in a row. *)
Record pview := PView { pv_network : bool; pv_relay : bool; pv_wtx : bool; pv_last : option N; pv_tries : nat }.
Definition view_step (a : N) (o : inv_op) (x : list iout) (v : option pview) : option pview :=
  match o with
  | INegotiated a' n r w => if a' =? a then Some (PView n r w None 0) else v
  | IDisconnected a' => if a' =? a then None else v
  | ITimer now _ _ =>
      if existsb (drops a) x then None
      else if existsb (announces_to a) x then (fun v => PView (pv_network v) (pv_relay v) (pv_wtx v) (Some now) (S (pv_tries v))) <$> v
      else v
  | _ => if existsb (acked_by a) x then (fun v => PView (pv_network v) (pv_relay v) (pv_wtx v) None 0) <$> v else v
  end.
Fixpoint views (a : N) (os : list inv_op) (xs : list (list iout)) (v : option pview) : option pview :=
  match os, xs with
  | o :: os, x :: xs => views a os xs (view_step a o x v)
  | _, _ => v
  end.

(** Whether a block is waited for, and when it was last asked for. *)
Definition asks (h : N) (o : iout) : bool := match o with IoGetData _ h' => h' =? h | _ => false end.
Definition want_step (h : N) (o : inv_op) (x : list iout) (v : option (option N)) : option (option N) :=
  match o with
  | IGetBlock h' => if h' =? h then Some (default None v) else v
  | IBlock b _ => if b_hash b =? h then None else v
  | ITimer now _ _ => if existsb (asks h) x then Some (Some now) else v
  | _ => v
  end.
Fixpoint wants (h : N) (os : list inv_op) (xs : list (list iout)) (v : option (option N)) : option (option N) :=
  match os, xs with
  | o :: os, x :: xs => wants h os xs (want_step h o x v)
  | _, _ => v
  end.

(** An inventory entry names this transaction. *)
Definition names (i : inventory) (t : tx) : Prop :=
  match i with InvTx id | InvWitnessTx id => t_id t = id | InvWTx w => t_wid t = w | _ => False end.

(** What an output says about transactions is about those in [P]. *)
Definition concerns (P : tx -> Prop) (o : iout) : Prop :=
  match o with
  | IoTx _ t => P t
  | IoStatus id (StReverted t) => P t /\ t_id t = id
  | IoStatus id _ => exists t, P t /\ t_id t = id
  | IoInv _ is => forall i, i ∈ is -> exists t, P t /\ names i t
  | _ => True
  end.

(** ** What the fee estimator is told *)

(** Every reverted height rolls it back to the one before, and every block
    reported is processed by it. *)
Definition fee_calls (o : inv_op) (x : list iout) : list fee_op :=
  match o with
  | IReverted hs => map (fun h => FRollback (if h =? 0 then 2 ^ 64 - 1 else h - 1)) hs
  | _ => map (fun hb => FProcess (b_txs hb.2) hb.1) (processed x)
  end.
Fixpoint fee_history (os : list inv_op) (xs : list (list iout)) : list fee_op :=
  match os, xs with
  | o :: os, x :: xs => fee_calls o x ++ fee_history os xs
  | _, _ => []
  end.
(** The estimates reported along with blocks. *)
Definition reported (x : list iout) : list (option estimate) :=
  omap (fun o => match o with IoBlock _ _ f => Some f | _ => None end) x.

(** ** The order of reports *)

(** A block, its height, its estimate, and the transactions confirmed by it:
    first the confirmations, then the block. *)
Definition told (r : block * N * option estimate * list N) : list iout :=
  let '(b, h, f, ids) := r in map (fun id => IoStatus id (StConfirmed (b_hash b) h)) ids ++ [IoBlock b h f].

(** ** Wake-ups *)
Definition is_revert (o : iout) : bool := match o with IoStatus _ (StReverted _) => true | _ => false end.
(** Operations that leave something to do at the next timer. *)
Definition stirs (o : inv_op) (x : list iout) : bool :=
  match o with
  | INegotiated _ _ _ _ | IAnnounce _ | IGetBlock _ => true
  | IReverted _ => existsb is_revert x
  | _ => false
  end.
(** When the idle timer was last set, unless something was left to do since. *)
Definition idle_step (o : inv_op) (x : list iout) (v : option N) : option N :=
  if stirs o x then None
  else match o with ITimer now _ _ => if 30000 <=? now - default 0 v then Some now else v | _ => v end.
Fixpoint idled (os : list inv_op) (xs : list (list iout)) (v : option N) : option N :=
  match os, xs with
  | o :: os, x :: xs => idled os xs (idle_step o x v)
  | _, _ => v
  end.
