(** Property theorems about calls that wait, receivers and errors (C109), each
    with a concrete case. They hold whatever the node does: [step] and
    [reply_of] are any functions. *)
From Verif Require Import Base RunEx PowModel BlockModel BlockSpec BlockExample BlockProps UtilModel FeeModel AddrModel AddrSpec AddrProps PeerModel PeerSpec PeerMain PeerProps
  PingModel DispModel LoadModel NodeModel NodeSpec NodeProps FullModel FullSpec FullProofs FullProps ClientModel ClientSpec ClientProofs ClientWaits ClientProps.
From Verif Require SyncModel SyncSpec SyncProps CbfModel CbfSpec CbfProps InvModel.
Open Scope N_scope.

(** ** C109 *)

(** A call that waits for events listens to them before it sends its command,
    so that no event of the command is missed. *)
Theorem C109_listening H step reply_of os n0 s a b t cm c : krun H step reply_of os (client0 n0) = (s, a ++ KSent t cm :: b) ->
  called t c (a ++ KSent t cm :: b) ->
  match c with HConnect _ | HDisconnect _ | HWaitPeers _ _ | HWaitHeight _ => True | _ => False end ->
  exists es, heard t a = Some es.
Proof.
  intros R C Sc. destruct (run_listens _ _ _ _ _ _ _ R _ _ _ _ eq_refl) as (c' & C' & _ & W).
  assert (c' = c) as -> by (eapply (called_once _ _ _ _ _ _ (run_ginv _ _ _ _ _ _ _ R) t); [apply called_app; by left|exact C]). apply W. by destruct c.
Qed.
Print Assumptions C109_listening.

(** A call that still waits has seen, in order and without a gap, the events
    published since it listens, up to those in its channel; none of them was the
    one it waits for; and it takes the next when it runs. *)
Theorem C109_waiting H step reply_of os n0 s tr t c known seen : krun H step reply_of os (client0 n0) = (s, tr) -> k_threads s !! t = Some (TWaiting c known seen) ->
  called t c tr /\ exists es, heard t tr = Some (seen ++ es) /\
    match c with
    | HConnect ad => forall local l, WvPeer (KoConnected ad local l) ∉ seen
    | HDisconnect ad => forall r, WvPeer (KoDisconnected ad r) ∉ seen
    | HWaitHeight h => forall re hash rv cn, WvNode (EvSync (SyncModel.SoImported re hash h rv cn)) ∉ seen
    | HWait f => forall a b, seen = a ++ b -> a <> [] -> f a = None
    | _ => True
    end /\
    match es with [] => (kstep H step reply_of (OThread t) s).2 = [] | e :: _ => KTook t (ItEvent e) ∈ (kstep H step reply_of (OThread t) s).2 end.
Proof.
  intros R Et. destruct (waiting _ _ _ _ _ _ _ _ _ _ _ R Et) as (C & es & He & Hf & W). split; [done|]. exists es. split; [done|]. split.
  - assert (Nw : forall e, (forall k sn, waits_for c k sn e <> None) -> e ∉ seen).
    { intros e Ne I. apply elem_of_list_split in I as (a & b & ->). destruct (W a e b eq_refl) as (k & Q). by apply (Ne k a). }
    destruct c; try done.
    + intros local l. apply Nw. intros k sn. cbn. unfold same_peer. by rewrite bool_decide_eq_true_2.
    + intros r. apply Nw. intros k sn. cbn. unfold same_peer. by rewrite bool_decide_eq_true_2.
    + intros a b -> Na. destruct a as [|e a _] using rev_ind; [done|]. destruct (W a e b) as (k & Q); [by rewrite <- app_assoc|]. cbn in Q. by destruct (f (a ++ [e])).
    + intros re hash rv cn. apply Nw. intros k sn. cbn. by rewrite N.eqb_refl.
  - cbn [kstep]. unfold run_thread. rewrite Et, Hf. destruct es as [|e es]; [done|]. cbn. destruct (waits_for c known seen e); cbn; by left.
Qed.
Print Assumptions C109_waiting.

(** [wait] returns what its function says of the events since it was called, at
    the first event at which it says something. *)
Theorem C109_wait H step reply_of os n0 s a b t v f : krun H step reply_of os (client0 n0) = (s, a ++ KReturned t (HOk v) :: b) ->
  called t (HWait f) (a ++ KReturned t (HOk v) :: b) ->
  exists es es' n, heard t a = Some (es ++ es') /\ v = VUser n /\ f es = Some n /\ forall u w, es = u ++ w -> u <> [] -> w <> [] -> f u = None.
Proof. exact (waited_user H step reply_of os n0 s a b t v f). Qed.
Print Assumptions C109_wait.

(** The errors: [Disconnected] only if the node has stopped, [NotConnected] and
    the error of [request_filters] only if the node said so in its reply, and a
    timeout only of a call that waits for events. A method that asks and returns
    without error returns the reply. *)
Theorem C109_errors H step reply_of os n0 s a b t r c : krun H step reply_of os (client0 n0) = (s, a ++ KReturned t r :: b) ->
  called t c (a ++ KReturned t r :: b) ->
  match r with
  | HErr EDisconnected => KStopped ∈ a
  | HErr ENotConnected => exists cm n n', c = HAsk cm /\ replied t c n n' (RpSubmit None) a
  | HErr EFilters => exists cm n n', c = HAsk cm /\ replied t c n n' (RpFilters false) a
  | HErr ETimeout => match c with HConnect _ | HDisconnect _ | HWait _ | HWaitPeers _ _ | HWaitHeight _ => True | _ => False end
  | HOk v => forall cm, c = HAsk cm -> has_reply cm = true -> exists rp, v = VReply rp /\ rp <> RpSubmit None /\ rp <> RpFilters false
  | HPanic _ => exists x y, c = HAsk (CmdRequestFilters x y) /\ y < x
  end.
Proof.
  intros R C. destruct r as [v|e|line].
  - intros cm -> Hr. exact (answers _ _ _ _ _ _ _ _ _ _ _ R C Hr).
  - pose proof (errors _ _ _ _ _ _ _ _ _ _ _ R C) as E. destruct e; [by apply E|exact E|exact E|by destruct c].
  - destruct (run_returns _ _ _ _ _ _ _ R) as (_ & _ & W). destruct (W _ _ _ _ eq_refl) as (c' & _ & U & Q). pose proof (U _ C) as Ec. subst c'.
    inversion Q as [n n' r' v Rc Re Wr| | | | | | | ]; subst; [|by eexists _, _]. destruct c; try done.
    + by destruct r' as [| | | | | | | |[]|[l|]|].
    + destruct r'; try done. cbn in Wr. by destruct (lenN l =? count).
    + destruct r'; try done. cbn in Wr. by destruct r.
Qed.
Print Assumptions C109_errors.

(** What each kind of receiver gets: all events, the matching blocks, the
    filters, of those published since it was subscribed. *)
Theorem C109_feeds H step reply_of os n0 s tr t f : krun H step reply_of os (client0 n0) = (s, tr) -> k_threads s !! t = Some (TFeed f) ->
  exists es q, heard t tr = Some es /\ k_feeds s !! t = Some (f, q) /\
  match f with
  | FeedEvents => took t tr ++ q = ItEvent <$> es
  | FeedBlocks => forall b h, ItBlock b h ∈ took t tr ++ q <-> exists fees, WvNode (EvInv (InvModel.IoBlock b h fees)) ∈ es
  | FeedFilters => forall bf b h, ItFilter bf b h ∈ took t tr ++ q <-> exists a, WvNode (EvCbf (CbfModel.CoFilterReceived a b h bf)) ∈ es
  end /\ (length (took t tr ++ q) <= length es)%nat.
Proof.
  intros R Et. destruct (C107_feed _ _ _ _ _ _ _ _ _ R Et) as (_ & es & q & A & B & E). exists es, q. split; [done|]. split; [done|]. rewrite E. clear E. split.
  - destruct f.
    + clear. induction es as [|e es IH]; [done|]. cbn. by rewrite IH.
    + intros b h. rewrite elem_of_list_In, in_flat_map. split.
      * intros (e & I & J). apply elem_of_list_In in I. destruct e as [| | | | |[| | |o|o|o]]; try done. destruct o; try done. destruct J as [[= -> ->]|[]]. by eexists.
      * intros (fees & I). exists (WvNode (EvInv (InvModel.IoBlock b h fees))). split; [by apply elem_of_list_In|]. by left.
    + intros bf b h. rewrite elem_of_list_In, in_flat_map. split.
      * intros (e & I & J). apply elem_of_list_In in I. destruct e as [| | | | |[| | |o|o|o]]; try done. destruct o; try done. destruct J as [[= -> -> ->]|[]]. by eexists.
      * intros (ad & I). exists (WvNode (EvCbf (CbfModel.CoFilterReceived ad b h bf))). split; [by apply elem_of_list_In|]. by left.
  - clear. induction es as [|e es IH]; [done|]. cbn [flat_map]. rewrite app_length. cbn [length]. enough (length (forward f e) <= 1)%nat by lia. destruct f; cbn; repeat case_match; cbn; lia.
Qed.
Print Assumptions C109_feeds.

(** Thread 1 waits until two events have come, thread 2 for Bob to be
    disconnected (who never was connected), thread 3 submits a transaction
    though nobody is there, thread 4 asks after the node has stopped, thread 5
    listens for blocks. *)
Definition cx_tx : tx := Tx 1 11 [(77, 0)] [(50, 7)] 400.
Definition two_events (es : list wev) : option N := if (2 <=? length es)%nat then Some (lenN es) else None.
Definition waits_a_lot (x : tx) : list kop :=
  kboot ++ kcall 1 (HWait two_events) 2 ++ kcall 2 (HDisconnect bob) 3 ++ kcall 3 (HAsk (CmdSubmit x)) 2 ++ kcall 5 (HSubscribe FeedBlocks) 1 ++ kserve ++ kdrain ++ [OThread 3] ++
  meets alice (hi 12 73) ++ repeat (OThread 1) 9 ++ repeat (OThread 2) 2 ++ [OFail] ++ kcall 4 (HAsk CmdGetTip) 2.
Definition told (l : list (N * hresult)) : list (N * N) :=
  (fun p => (p.1, match p.2 with HOk (VUser n) => 10 + n | HErr ENotConnected => 1 | HErr EDisconnected => 2 | _ => 0 end)) <$> l.
Example C109_case : exists n0 s tr es, kx_run (waits_a_lot cx_tx) (client0 n0) = (s, tr) /\ told (returned tr) = [(3, 1); (1, 12); (4, 2)] /\
  called 1 (HWait two_events) tr /\ called 2 (HDisconnect bob) tr /\ called 3 (HAsk (CmdSubmit cx_tx)) tr /\
  match k_threads s !! 2, k_threads s !! 5 with Some (TWaiting (HDisconnect _) _ seen), Some (TFeed FeedBlocks) => length seen = 2%nat | _, _ => False end /\
  heard 2 tr = Some es /\ (3 <= length es)%nat.
Proof.
  destruct (kx_ex (waits_a_lot cx_tx) (fun s tr => told (returned tr) = [(3, 1); (1, 12); (4, 2)] /\
    match k_threads s !! 2, k_threads s !! 5 with Some (TWaiting (HDisconnect _) _ seen), Some (TFeed FeedBlocks) => length seen = 2%nat | _, _ => False end /\
    match heard 2 tr with Some es => (3 <=? length es)%nat = true | None => False end /\
    match omap (fun i => match i with KCalled t c => Some (t, c) | _ => None end) tr with
    | (1, c1) :: (2, c2) :: (3, c3) :: _ => c1 = HWait two_events /\ c2 = HDisconnect bob /\ c3 = HAsk (CmdSubmit cx_tx)
    | _ => False
    end)) as (n0 & s & tr & R & Q1 & Q2 & Q3 & Q4); [vm_compute; repeat split|].
  destruct (heard 2 tr) as [es|] eqn:E; [|done]. exists n0, s, tr, es. split; [exact R|]. split; [exact Q1|].
  assert (K : forall t c, (t, c) ∈ omap (fun i => match i with KCalled t c => Some (t, c) | _ => None end) tr -> called t c tr).
  { intros t c I. apply elem_of_list_omap in I as (i & I & F). destruct i; try done. injection F as -> ->. exact I. }
  destruct (omap _ tr) as [|[t1 c1] [|[t2 c2] [|[t3 c3] l]]]; try done; try (by destruct t1 as [|[]]); try (by destruct t1 as [|[]]; try done; destruct t2 as [|[|[]|]]).
  destruct t1 as [|[]]; try done. destruct t2 as [|[|[]|]]; try done. destruct t3 as [|[[]| |]]; try done. destruct Q4 as (-> & -> & ->).
  split; [apply K; by left|]. split; [apply K; right; by left|]. split; [apply K; right; right; by left|]. split; [exact Q2|]. split; [done|]. by apply Nat.leb_le.
Qed.

(** [submit_transaction] that fails with [NotConnected] has submitted the
    transaction: it is offered to the next peer that connects. *)
Theorem C109_submit_refuted : exists n0 os s tr, kx_run os (client0 n0) = (s, tr) /\ returned tr = [(1, HErr ENotConnected)] /\
  executed tr = [(CmdSubmit cx_tx, 1)] /\ exists i mg, FEmitted i (IoWrite alice (mg, WNode (MInv [InvModel.InvTx (t_id cx_tx)]))) ∈ node_items tr.
Proof.
  set (os := kboot ++ kcall 1 (HAsk (CmdSubmit cx_tx)) 2 ++ kserve ++ kdrain ++ [OThread 1] ++ meets alice (hi 12 73) ++ kinput WTimer).
  destruct (kx_ex os (fun s tr => returned tr = [(1, HErr ENotConnected)] /\ executed tr = [(CmdSubmit cx_tx, 1)] /\
    existsb (fun i => match i with FEmitted _ (IoWrite a (_, WNode (MInv [InvModel.InvTx 1]))) => bool_decide (a = alice) | _ => false end) (node_items tr) = true)) as (n0 & s & tr & R & Q1 & Q2 & Q3); [vm_compute; repeat split|].
  exists n0, os, s, tr. split; [exact R|]. split; [exact Q1|]. split; [exact Q2|]. apply existsb_exists in Q3 as (i & I & F). apply elem_of_list_In in I.
  destruct i as [|c o|]; try done. destruct o as [a [mg m]| | | | ]; try done. destruct m; try done. destruct m; try done. destruct invs as [|[txid|?|?|?|] [|? ?]]; try done; (destruct txid as [|[]]; try done).
  apply bool_decide_eq_true in F as ->. by exists c, mg.
Qed.
Print Assumptions C109_submit_refuted.
