(** Model of the ping manager, p2p/src/fsm/pingmgr.rs.  Times are
    milliseconds; subtraction of times does not go below zero, as in
    net/src/time.rs. *)
From Verif Require Import Base.
Open Scope N_scope.

(** pingmgr.rs:22, 27; the ping timeout (line 24) is a parameter. *)
Definition ping_interval : N := 120000.
Definition max_latencies : nat := 64.

(** pingmgr.rs:29-40 [State], [Peer]. *)
Inductive pstate := Awaiting (nonce since : N) | Resting (since : N).
Record ppeer := PPeer { pp_state : pstate; pp_latencies : list N }.
Notation pings := (gmap N ppeer).

Inductive pout :=
| PoPing (addr nonce : N)
| PoPong (addr nonce : N)
| PoDisconnect (addr : N)
| PoTimer (d : N).

(** pingmgr.rs:52-55 [record_latency]. *)
Definition record_latency (d : N) (l : list N) : list N := take max_latencies (d :: l).

(** pingmgr.rs:114-128 [peer_negotiated]. *)
Definition ping_negotiated (now addr nonce : N) (s : pings) : pings * list pout :=
  (<[addr := PPeer (Awaiting nonce now) []]> s, [PoPing addr nonce]).

(** pingmgr.rs:134-166: the timer for one peer. *)
Definition ping_tick (timeout now nonce addr : N) (p : ppeer) : ppeer * list pout :=
  match pp_state p with
  | Awaiting _ since => (p, if timeout <=? now - since then [PoDisconnect addr] else [])
  | Resting since =>
      if ping_interval <=? now - since then
        (PPeer (Awaiting nonce now) (pp_latencies p), [PoPing addr nonce; PoTimer timeout; PoTimer ping_interval])
      else (p, [])
  end.
(** pingmgr.rs:131-168 [timer_expired]: the hash map is traversed in some
    order, and every peer gets some fresh nonce. *)
Definition ping_timer (timeout now : N) (order : list N -> list N) (nonces : N -> N) (s : pings) : pings * list pout :=
  (map_imap (fun a p => Some (ping_tick timeout now (nonces a) a p).1) s,
   concat ((fun a => match s !! a with Some p => (ping_tick timeout now (nonces a) a p).2 | None => [] end) <$> order (fst <$> map_to_list s))).

(** pingmgr.rs:171-178 [received_ping]. *)
Definition received_ping (addr nonce : N) (s : pings) : pings * list pout :=
  match s !! addr with Some _ => (s, [PoPong addr nonce]) | None => (s, []) end.

(** pingmgr.rs:181-199 [received_pong]. *)
Definition received_pong (now addr nonce : N) (s : pings) : pings * list pout :=
  match s !! addr with
  | Some p =>
      match pp_state p with
      | Awaiting n since =>
          if nonce =? n then (<[addr := PPeer (Resting now) (record_latency (now - since) (pp_latencies p))]> s, []) else (s, [])
      | Resting _ => (s, [])
      end
  | None => (s, [])
  end.

(** pingmgr.rs:92-111 [received_event] and the timer. *)
Inductive ping_op :=
| PNegotiated (now addr nonce : N)
| PDisconnected (addr : N)
| PPing (from nonce : N)
| PPong (now from nonce : N)
| PTimer (now : N) (order : list N -> list N) (nonces : N -> N).
Definition ping_step (timeout : N) (o : ping_op) (s : pings) : pings * list pout :=
  match o with
  | PNegotiated now addr nonce => ping_negotiated now addr nonce s
  | PDisconnected addr => (delete addr s, [])
  | PPing from nonce => received_ping from nonce s
  | PPong now from nonce => received_pong now from nonce s
  | PTimer now order nonces => ping_timer timeout now order nonces s
  end.
