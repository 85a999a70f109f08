(** Which headers a client takes, told from its log. *)
From Verif Require Import Base PowModel BlockModel AddrModel DispModel DispSpec NodeModel NodeLogSpec LoadModel FullModel FullSpec FullChainSpec.
From Verif Require SyncModel SyncSpec.
Open Scope N_scope.

(** Whether a peer is connected and, if we connected to it, has the blocks. *)
Definition join_event (a : N) (b : bool) (e : nev) : bool :=
  match e with
  | EvNegotiated a' _ ob nw _ _ _ _ => if (a' =? a) && (negb ob || nw) then true else b
  | EvDisconnected a' => if a' =? a then false else b
  | _ => b
  end.
Definition log_joined (a : N) (b : bool) (e : entry) : bool := foldl (join_event a) b (announced (e_items e)).
Definition joined (a : N) (l : list entry) : bool := foldl (log_joined a) false l.

(** Whether a peer was asked for headers, and has not sent any or left since;
    if [strict], also no timer has fired since. *)
Definition answers (a : N) (e : nev) : bool :=
  match e with EvMessage a' (MHeaders _) | EvDisconnected a' => a' =? a | _ => false end.
Definition asks_headers (w : sockaddr) (p : sockaddr * nmsg) : bool :=
  match p.2 with MGetHeaders _ => bool_decide (p.1 = w) | _ => false end.
Definition fires (o : nop) : bool := match o with NTimer => true | _ => false end.
Definition log_asking (strict : bool) (a : N) (w : sockaddr) (b : bool) (e : entry) : bool :=
  if existsb (asks_headers w) (written (e_items e)) then true
  else if existsb (answers a) (announced (e_items e)) || (strict && fires (e_op e)) then false else b.
Definition asking (strict : bool) (a : N) (w : sockaddr) (l : list entry) : bool := foldl (log_asking strict a w) false l.

(** Headers to be taken: from a connected peer, not more than a message may
    hold, asked for or few, and the last of them not on the chain. *)
Definition takes (H : header -> N) (strict : bool) (a : N) (w : sockaddr) (l : list entry) (hds : list header) (chain : list header) : Prop :=
  joined a l = true /\ lenN hds <= 2000 /\ (asking strict a w l = true \/ lenN hds <= 24) /\
  exists hd, last hds = Some hd /\ H hd ∉ H <$> chain.

(** What a step queues about the chain: blocks that leave, blocks that join, and
    the new tip. *)
Definition chain_report (e : nev) : option SyncModel.sout :=
  match e with EvSync o => if SyncSpec.chain_event o then Some o else None | _ => None end.
Definition reported (x : list (fitem nmsg nev)) : list SyncModel.sout := omap chain_report (queued_events x).
Definition wreported (x : list (fitem wmsg wev)) : list SyncModel.sout :=
  omap (fun i => match i with FQueued _ (IoEvent (WvNode e)) => chain_report e | _ => None end) x.

(** What a batch of headers did to a chain, by its result. *)
Definition outcome (H : header -> N) (chain chain' : list header) (r : result import_result err) : Prop :=
  match r with
  | Ok (TipChanged _ k h rv cn) => true_report H chain chain' k h rv cn
  | Ok TipUnchanged => chain' = chain
  | Err e => exists e' i, e = EAborted e' i (lenN chain' - 1)
  end.
