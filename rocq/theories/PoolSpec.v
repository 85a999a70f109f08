(** The transactions that a client holds for its user, and the peers it
    announces them to, told from the log of the client. *)
From Verif Require Import Base PowModel BlockModel FeeModel AddrModel DispModel DispSpec NodeModel NodeLogSpec.
From Verif Require InvModel InvSpec.
Open Scope N_scope.

(** Submitted or brought back by a reorganisation, and since then in no block
    that the client has reported. *)
Definition pool_event (m : gmap N tx) (e : nev) : gmap N tx :=
  match e with
  | EvInv (InvModel.IoBlock b _ _) => foldl (fun m t => delete (t_wid t) m) m (InvModel.b_txs b)
  | EvInv (InvModel.IoStatus _ (InvModel.StReverted t)) => <[t_wid t := t]> m
  | _ => m
  end.
Definition log_pool (m : gmap N tx) (e : entry) : gmap N tx :=
  foldl pool_event (match e_op e with NSubmit t => <[t_wid t := t]> m | _ => m end) (queued_events (e_items e)).
Definition pool (l : list entry) : gmap N tx := foldl log_pool ∅ l.

(** Whether a peer is connected and wants to hear of transactions; one that
    does not react to announcements is given up. *)
Definition relay_event (a : N) (v : option bool) (e : nev) : option bool :=
  match e with
  | EvNegotiated a' _ _ _ _ re _ _ => if a' =? a then Some re else v
  | EvDisconnected a' => if a' =? a then None else v
  | _ => v
  end.
Definition log_relays (a : N) (v : option bool) (e : entry) : option bool :=
  if existsb (gives_up a) (queued_events (e_items e)) then None else foldl (relay_event a) v (announced (e_items e)).
Definition relays (a : N) (l : list entry) : option bool := foldl (log_relays a) None l.
