(** Vocabulary for the properties of the client. *)
From Verif Require Import Base PowModel BlockModel AddrModel PeerModel DispModel LoadModel NodeModel FullModel FullSpec ClientModel.
From Verif Require SyncModel CbfModel InvModel.
Open Scope N_scope.

(** Commands in the order they were sent, and in which they were executed, with
    the thread that sent them. *)
Definition sent (l : list kitem) : list (cmd * N) :=
  omap (fun i => match i with KSent t c => Some (c, t) | _ => None end) l.
Definition executed (l : list kitem) : list (cmd * N) :=
  omap (fun i => match i with KExecuted t c _ _ _ => Some (c, t) | _ => None end) l.
(** The inputs of the node, and the events it published. *)
Definition inputs (l : list kitem) : list wop :=
  omap (fun i => match i with KStep o _ _ _ => Some o | _ => None end) l.
Definition published (l : list kitem) : list wev :=
  omap (fun i => match i with KPublished e => Some e | _ => None end) l.
(** What was queued, emitted and passed on by the node. *)
Definition node_items (l : list kitem) : list (fitem wmsg wev) :=
  concat (omap (fun i => match i with KStep _ _ _ x => Some x | _ => None end) l).

(** The events published since the thread subscribed, and what it took from its
    channel. *)
Definition hears (t : N) (v : option (list wev)) (i : kitem) : option (list wev) :=
  match i with
  | KSubscribed t' => if t' =? t then Some [] else v
  | KPublished e => (fun l => l ++ [e]) <$> v
  | _ => v
  end.
Definition heard (t : N) (l : list kitem) : option (list wev) := foldl (hears t) None l.
Definition took (t : N) (l : list kitem) : list item :=
  omap (fun i => match i with KTook t' x => if t' =? t then Some x else None | _ => None end) l.
Definition feed_of (c : call) : feed := match c with HSubscribe f => f | _ => FeedEvents end.

(** The thread called the method, and later its command was executed in state
    [s] with this reply. *)
Definition called (t : N) (c : call) (l : list kitem) : Prop := KCalled t c ∈ l.
Definition replied (t : N) (c : call) (s s' : wstate) (r : reply) (l : list kitem) : Prop :=
  exists cm a b, command_of c = Some cm /\ l = a ++ KExecuted t cm s s' r :: b /\ called t c a.

(** The machine, stepped. *)
Section Steps.
Context (step : wop -> wstate -> M (wstate * list (fitem wmsg wev))).
Fixpoint machine (os : list wop) (s : wstate) : M (wstate * list (fitem wmsg wev)) :=
  match os with
  | [] => Val (s, [])
  | o :: os' => '(s, x) <-- step o s ;; '(s, y) <-- machine os' s ;; Val (s, x ++ y)
  end.
End Steps.

(** A wait that has seen some events, the first so many of those published since
    the thread subscribed, with the peers known at first: the last event is the
    first that ends it, with this value. *)
Fixpoint wait_result (c : call) (known : gmap sockaddr (N * N)) (seen es : list wev) : option value :=
  match es with
  | [] => None
  | [e] => waits_for c known seen e
  | e :: es' =>
      match waits_for c known seen e with
      | Some _ => None
      | None => wait_result c (known_after c e known) (seen ++ [e]) es'
      end
  end.

(** Why a method returned. *)
Inductive reason_to_return (H : header -> N) (t : N) (c : call) (l : list kitem) : hresult -> Prop :=
| BecauseReply s s' r v : receives c = true -> replied t c s s' r l -> with_reply H c r = inl v -> reason_to_return H t c l v
| BecauseSent cm : receives c = false -> subscribes c = false -> command_of c = Some cm -> KSent t cm ∈ l -> reason_to_return H t c l (HOk VUnit)
| BecauseHeard es es' known v : heard t l = Some (es ++ es') -> subscribes c = true ->
    (if receives c then exists s s' r, replied t c s s' r l /\ with_reply H c r = inr known else known = ∅) ->
    wait_result c known [] es = Some v -> reason_to_return H t c l (HOk v)
| BecauseTimeout : subscribes c = true -> reason_to_return H t c l (HErr ETimeout)
| BecauseStopped : KStopped ∈ l -> (is_Some (command_of c) \/ c = HShutdown) -> reason_to_return H t c l (HErr EDisconnected)
| BecauseEmpty a b : c = HAsk (CmdRequestFilters a b) -> b < a -> reason_to_return H t c l (HPanic 529)
| BecauseShutdown : c = HShutdown -> reason_to_return H t c l (HOk VUnit)
| BecauseDropped f : c = HSubscribe f -> reason_to_return H t c l (HOk VUnit).

(** The calls that returned, in order, and the events that the node emitted. *)
Definition returned (l : list kitem) : list (N * hresult) :=
  omap (fun i => match i with KReturned t r => Some (t, r) | _ => None end) l.
Definition emitted_events (l : list (fitem wmsg wev)) : list wev :=
  omap (fun i => match i with FEmitted _ (IoEvent e) => Some e | _ => None end) l.
