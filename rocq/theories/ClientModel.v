(** Model of the client (client/src/client.rs): the handles that users call from
    their threads, the channels between them and the thread of the node, and the
    loop of the reactor (net/poll/src/reactor.rs) that runs the node.

    The node is the machine of FullModel.v, here only as a step function and the
    replies to commands. What the poll reports (FullModel's inputs), which
    thread runs next, and when a wait has lasted too long are the operations, in
    any order that the code allows.

    Not modelled: a waker that cannot be woken (client.rs:469 [?]), [listening]
    (449-451), closures given to [query_tree] other than the one of
    [find_branch], what [load] does (LoadModel.v), time. *)
From Verif Require Import Base PowModel BlockModel FeeModel AddrModel PeerModel DispModel LoadModel NodeModel FullModel FullSpec.
From Verif Require SyncModel CbfModel InvModel.
Open Scope N_scope.

(** client.rs:245-263, 539-549: what is subscribed to, and what is sent to a
    subscriber for an event of the node. *)
Inductive feed := FeedEvents | FeedBlocks | FeedFilters.
Inductive item :=
| ItEvent (e : wev)
| ItBlock (b : InvModel.block) (height : N)
| ItFilter (f : CbfModel.bfilter) (block height : N).
Definition forward (f : feed) (e : wev) : list item :=
  match f with
  | FeedEvents => [ItEvent e]
  | FeedBlocks => match e with WvNode (EvInv (InvModel.IoBlock b h _)) => [ItBlock b h] | _ => [] end
  | FeedFilters => match e with WvNode (EvCbf (CbfModel.CoFilterReceived _ b h f)) => [ItFilter f b h] | _ => [] end
  end.

(** The methods of a handle (client.rs:458-717). [HAsk] is any method that sends
    a command and returns its reply, [HSend] any that does not wait for one
    ([command], [request_block], [import_addresses], [rescan], [watch]). The
    function given to [wait] sees all events so far, as it can keep a state. *)
Inductive call :=
| HAsk (c : cmd)
| HSend (c : cmd)
| HConnect (a : sockaddr)
| HDisconnect (a : sockaddr)
| HWait (f : list wev -> option N)
| HWaitPeers (count services : N)
| HWaitHeight (h : N)
| HSubscribe (f : feed)
| HShutdown.

(** What a method returns (client/src/handle.rs:23-41 [Error]). *)
Inductive value :=
| VUnit
| VReply (r : reply)
| VLink (l : link)
| VUser (n : N)
| VPeers (l : list (sockaddr * (N * N)))
| VHash (hash : N).
Inductive herror := EDisconnected | ENotConnected | EFilters | ETimeout.
Inductive hresult := HOk (v : value) | HErr (e : herror) | HPanic (line : N).

(** Where a thread of the user is. [TWaiting] keeps the events that were
    seen. *)
Inductive thread :=
| TCalled (c : call)
| TSubscribed (c : call)
| TSent (c : call)
| TReceiving (c : call)
| TWaiting (c : call) (known : gmap sockaddr (N * N)) (seen : list wev)
| TFeed (f : feed)
| TDone (r : hresult).

(** reactor.rs:157-273: where the loop of the reactor is. *)
Inductive phase := PStart | PInputs | PCommands | POutputs.

Record client := Client {
  k_node : option wstate;
  k_phase : phase;
  k_queue : list (cmd * N);
  k_woken : bool;
  k_shutdown : bool;
  k_feeds : gmap N (feed * list item);
  k_replies : gmap N reply;
  k_threads : gmap N thread;
}.
Definition client0 (s : wstate) : client := Client (Some s) PStart [] false false ∅ ∅ ∅.

(** What happens, for the statements. *)
Inductive kitem :=
| KCalled (t : N) (c : call)
| KSubscribed (t : N)
| KSent (t : N) (c : cmd)
| KStep (o : wop) (s s' : wstate) (x : list (fitem wmsg wev))
| KExecuted (t : N) (c : cmd) (s s' : wstate) (r : reply)
| KPublished (e : wev)
| KTook (t : N) (i : item)
| KReturned (t : N) (r : hresult)
| KStopped.

Definition set_node (n : option wstate) (s : client) : client :=
  Client n (k_phase s) (k_queue s) (k_woken s) (k_shutdown s) (k_feeds s) (k_replies s) (k_threads s).
Definition set_phase (p : phase) (s : client) : client :=
  Client (k_node s) p (k_queue s) (k_woken s) (k_shutdown s) (k_feeds s) (k_replies s) (k_threads s).
Definition set_queue (q : list (cmd * N)) (s : client) : client :=
  Client (k_node s) (k_phase s) q (k_woken s) (k_shutdown s) (k_feeds s) (k_replies s) (k_threads s).
Definition set_woken (b : bool) (s : client) : client :=
  Client (k_node s) (k_phase s) (k_queue s) b (k_shutdown s) (k_feeds s) (k_replies s) (k_threads s).
Definition set_shutdown (b : bool) (s : client) : client :=
  Client (k_node s) (k_phase s) (k_queue s) (k_woken s) b (k_feeds s) (k_replies s) (k_threads s).
Definition set_feeds (f : gmap N (feed * list item)) (s : client) : client :=
  Client (k_node s) (k_phase s) (k_queue s) (k_woken s) (k_shutdown s) f (k_replies s) (k_threads s).
Definition set_replies (r : gmap N reply) (s : client) : client :=
  Client (k_node s) (k_phase s) (k_queue s) (k_woken s) (k_shutdown s) (k_feeds s) r (k_threads s).
Definition set_threads (m : gmap N thread) (s : client) : client :=
  Client (k_node s) (k_phase s) (k_queue s) (k_woken s) (k_shutdown s) (k_feeds s) (k_replies s) m.

(** Whether a command has a channel for a reply (fsm.rs:205-257). *)
Definition has_reply (c : cmd) : bool :=
  match c with
  | CmdConnect _ | CmdDisconnect _ | CmdImportAddresses _ | CmdRequestBlock _ | CmdRescan _ _ _ | CmdWatch _ => false
  | _ => true
  end.
(** The command that a method sends, if it does. *)
Definition command_of (c : call) : option cmd :=
  match c with
  | HAsk c | HSend c => Some c
  | HConnect a => Some (CmdConnect a)
  | HDisconnect a => Some (CmdDisconnect a)
  | HWaitPeers _ sv => Some (CmdGetPeers sv)
  | HWaitHeight h => Some (CmdGetByHeight h)
  | HWait _ | HSubscribe _ | HShutdown => None
  end.
(** Whether it subscribes to the events before (client.rs:567, 586, 641, 652,
    695). *)
Definition subscribes (c : call) : bool :=
  match c with HConnect _ | HDisconnect _ | HWait _ | HWaitPeers _ _ | HWaitHeight _ => true | _ => false end.
(** Whether it waits for the reply. *)
Definition receives (c : call) : bool :=
  match c with HAsk c => has_reply c | HWaitPeers _ _ | HWaitHeight _ => true | _ => false end.

(** client.rs:573, 593. *)
Definition same_peer (a : sockaddr) (addr : sockaddr) : bool :=
  bool_decide (a = addr) || ((addr.1.2 =? 0) && (a.2 =? addr.2)).
(** The functions given to [event::wait] (client.rs:570-583, 590-600, 642,
    669-690, 701-707): the peers known after an event, and whether the wait
    ends. *)
Definition note_peer (sv : N) (e : wev) (known : gmap sockaddr (N * N)) : gmap sockaddr (N * N) :=
  match e with
  | WvPeer (KoNegotiated a _ services _ _ _ h _ _ _) => if has_services services sv then <[a := (h, services)]> known else known
  | _ => known
  end.
Definition known_after (c : call) (e : wev) (known : gmap sockaddr (N * N)) : gmap sockaddr (N * N) :=
  match c with HWaitPeers _ sv => note_peer sv e known | _ => known end.
Definition waits_for (c : call) (known : gmap sockaddr (N * N)) (seen : list wev) (e : wev) : option value :=
  match c with
  | HConnect addr => match e with WvPeer (KoConnected a _ l) => if same_peer a addr then Some (VLink l) else None | _ => None end
  | HDisconnect addr => match e with WvPeer (KoDisconnected a _) => if same_peer a addr then Some VUnit else None | _ => None end
  | HWait f => VUser <$> f (seen ++ [e])
  | HWaitPeers count sv =>
      match e with
      | WvPeer (KoNegotiated _ _ _ _ _ _ _ _ _ _) =>
          let known := note_peer sv e known in
          if N.of_nat (size known) =? count then Some (VPeers (map_to_list known)) else None
      | _ => None
      end
  | HWaitHeight h => match e with WvNode (EvSync (SyncModel.SoImported _ hash height _ _)) => if height =? h then Some (VHash hash) else None | _ => None end
  | _ => None
  end.

Section Client.
Context (H : header -> N).
Context (step : wop -> wstate -> M (wstate * list (fitem wmsg wev))) (reply_of : cmd -> wstate -> M reply).

Definition view_entry (v : view) : sockaddr * (N * N) := (v_addr v, (v_height v, v_services v)).
(** What a method makes of the reply: [None] if it goes on to wait
    (client.rs:656-667, 697-699), with the peers it knows. *)
Definition with_reply (c : call) (r : reply) : hresult + gmap sockaddr (N * N) :=
  match c, r with
  | HAsk _, RpSubmit None => inl (HErr ENotConnected)
  | HAsk _, RpFilters false => inl (HErr EFilters)
  | HAsk _, r => inl (HOk (VReply r))
  | HWaitPeers count _, RpPeers l =>
      if lenN l =? count then inl (HOk (VPeers (view_entry <$> l))) else inr (list_to_map (rev (view_entry <$> l)))
  | HWaitHeight _, RpHeader (Some hd) => inl (HOk (VHash (H hd)))
  | _, _ => inr ∅
  end.

(** net/src/event.rs:42-49 [emit] for each of the broadcasts. A receiver that
    is gone is no subscriber any more: here it goes with the thread. *)
Definition publish (e : wev) (s : client) : client := set_feeds ((fun '(f, q) => (f, q ++ forward f e)) <$> k_feeds s) s.

(** The thread of the node ends, by an error of the reactor, a shutdown or a
    panic: what is in the command channel is dropped, with the senders of the
    replies. The subscribers stay: the handles have them, too
    (net/src/event.rs:65-67). *)
Definition stop (s : client) : client * list kitem := (set_node None (set_queue [] s), [KStopped]).

Definition emitted_event (x : list (fitem wmsg wev)) : option wev :=
  match List.last x (FPassed WvInitializing) with FEmitted _ (IoEvent e) => Some e | _ => None end.
Definition emits (x : list (fitem wmsg wev)) : bool :=
  match List.last x (FPassed WvInitializing) with FEmitted _ _ => true | _ => false end.

(** One input of the node. *)
Definition feed_node (o : wop) (n : wstate) (p : phase) (s : client) : client * list kitem :=
  match step o n with
  | Panic _ => stop s
  | Val (n', x) => (set_phase p (set_node (Some n') s), [KStep o n n' x])
  end.

Definition return_ (t : N) (r : hresult) (s : client) : client * list kitem :=
  (set_threads (<[t := TDone r]> (k_threads s)) (set_feeds (delete t (k_feeds s)) s), [KReturned t r]).
Definition become (t : N) (x : thread) (s : client) : client := set_threads (<[t := x]> (k_threads s)) s.

(** [Sender::send] of the command channel (client.rs:468), or the shutdown
    channel, of capacity one (client.rs:271, 712); or what to do without. *)
Definition send (t : N) (c : call) (s : client) : client * list kitem :=
  match command_of c with
  | Some cm =>
      match k_node s with
      | None => return_ t (HErr EDisconnected) s
      | Some _ => (become t (TSent c) (set_queue (k_queue s ++ [(cm, t)]) s), [KSent t cm])
      end
  | None =>
      match c with
      | HShutdown =>
          match k_node s with
          | None => return_ t (HErr EDisconnected) s
          | Some _ => if k_shutdown s then (s, []) else (become t (TSent c) (set_shutdown true s), [])
          end
      | _ => (become t (TWaiting c ∅ []) s, [])
      end
  end.

(** The thread runs until it next touches something shared. *)
Definition run_thread (t : N) (s : client) : client * list kitem :=
  match k_threads s !! t with
  | Some (TCalled c) =>
      match c with
      | HAsk (CmdRequestFilters a b) => if b <? a then return_ t (HPanic 529) s else send t c s
      | HSubscribe f => (become t (TFeed f) (set_feeds (<[t := (f, [])]> (k_feeds s)) s), [KSubscribed t])
      | _ =>
          if subscribes c then (become t (TSubscribed c) (set_feeds (<[t := (FeedEvents, [])]> (k_feeds s)) s), [KSubscribed t])
          else send t c s
      end
  | Some (TSubscribed c) => send t c s
  | Some (TSent c) =>
      let s := set_woken true s in
      if receives c then (become t (TReceiving c) s, [])
      else if subscribes c then (become t (TWaiting c ∅ []) s, [])
      else return_ t (HOk VUnit) s
  | Some (TReceiving c) =>
      match k_replies s !! t with
      | Some r =>
          let s := set_replies (delete t (k_replies s)) s in
          match with_reply c r with
          | inl v => return_ t v s
          | inr known => (become t (TWaiting c known []) s, [])
          end
      | None => match k_node s with None => return_ t (HErr EDisconnected) s | Some _ => (s, []) end
      end
  | Some (TWaiting c known seen) =>
      match k_feeds s !! t with
      | Some (f, ItEvent e :: q) =>
          let s := set_feeds (<[t := (f, q)]> (k_feeds s)) s in
          match waits_for c known seen e with
          | Some v => let '(s, l) := return_ t (HOk v) s in (s, KTook t (ItEvent e) :: l)
          | None => (become t (TWaiting c (known_after c e known) (seen ++ [e])) s, [KTook t (ItEvent e)])
          end
      | _ => (s, [])
      end
  | Some (TFeed _) =>
      match k_feeds s !! t with
      | Some (f, i :: q) => (set_feeds (<[t := (f, q)]> (k_feeds s)) s, [KTook t i])
      | _ => (s, [])
      end
  | Some (TDone _) | None => (s, [])
  end.

(** [ONode] is an input from the poll or a failed dial (reactor.rs:196-240,
    262-266, 333), [OWoken] the event of the waker (241-247), [OCommand] one round
    of the loop over the commands (256-258), [OProcess] the end of the events of
    the poll (273), [ONext] one round of [process] (303), [OFail] an error of
    the reactor. [OCall] begins a call in a new thread, [OThread] lets it go on,
    [OTimeout] ends a wait, [ODrop] drops a receiver. *)
Inductive kop :=
| ORun
| ONode (o : wop)
| OWoken
| OCommand
| OProcess
| ONext
| OFail
| OCall (t : N) (c : call)
| OThread (t : N)
| OTimeout (t : N)
| ODrop (t : N).

Definition input_now (o : wop) (p : phase) : bool :=
  match o, p with
  | WInitialize, _ | WCommand _, _ | WNext, _ => false
  | _, PInputs => true
  | WDisconnected _ _, POutputs => true
  | _, _ => false
  end.

Definition kstep (o : kop) (s : client) : client * list kitem :=
  match o with
  | ORun => match k_phase s, k_node s with PStart, Some n => feed_node WInitialize n POutputs s | _, _ => (s, []) end
  | ONode o => match k_node s with Some n => if input_now o (k_phase s) then feed_node o n (k_phase s) s else (s, []) | None => (s, []) end
  | OWoken =>
      match k_phase s, k_node s with
      | PInputs, Some _ =>
          if negb (k_woken s) then (s, [])
          else if k_shutdown s then stop (set_shutdown false s)
          else (set_phase PCommands (set_woken false s), [])
      | _, _ => (s, [])
      end
  | OCommand =>
      match k_phase s, k_node s with
      | PCommands, Some n =>
          match k_queue s with
          | [] => (set_phase PInputs s, [])
          | (c, t) :: q =>
              match reply_of c n, step (WCommand c) n with
              | Val r, Val (n', x) =>
                  let s := set_node (Some n') (set_queue q s) in
                  let s := if has_reply c then set_replies (<[t := r]> (k_replies s)) s else s in
                  (s, [KStep (WCommand c) n n' x; KExecuted t c n n' r])
              | _, _ => stop s
              end
          end
      | _, _ => (s, [])
      end
  | OProcess => match k_phase s with PInputs => (set_phase POutputs s, []) | _ => (s, []) end
  | ONext =>
      match k_phase s, k_node s with
      | POutputs, Some n =>
          match step WNext n with
          | Panic _ => stop s
          | Val (n', x) =>
              let s := set_node (Some n') s in
              if emits x then
                match emitted_event x with
                | Some e => (publish e s, [KStep WNext n n' x; KPublished e])
                | None => (s, [KStep WNext n n' x])
                end
              else (set_phase PInputs s, [KStep WNext n n' x])
          end
      | _, _ => (s, [])
      end
  | OFail => match k_node s with Some _ => stop s | None => (s, []) end
  | OCall t c => match k_threads s !! t with None => (become t (TCalled c) s, [KCalled t c]) | Some _ => (s, []) end
  | OThread t => run_thread t s
  | OTimeout t => match k_threads s !! t with Some (TWaiting _ _ _) => return_ t (HErr ETimeout) s | _ => (s, []) end
  | ODrop t => match k_threads s !! t with Some (TFeed _) => return_ t (HOk VUnit) s | _ => (s, []) end
  end.
Fixpoint krun (os : list kop) (s : client) : client * list kitem :=
  match os with
  | [] => (s, [])
  | o :: os' => let '(s1, x) := kstep o s in let '(s2, y) := krun os' s1 in (s2, x ++ y)
  end.
End Client.

(** fsm.rs:562-700 [command]: what the machine of FullModel.v replies. *)
Section Reply.
Context (H : header -> N).
Context (scf : SyncModel.sconf) (P : CbfModel.params) (kcf : kconf) (acf : aconf).
Context (env : nat -> nenv) (wenv_of : nat -> wenv).
Definition node_reply (c : cmd) (s : wstate) : M reply :=
  '(_, _, r) <-- exec H scf P kcf acf env wenv_of c (f_state s) ;; Val r.
End Reply.
