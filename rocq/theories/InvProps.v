(** Property theorems about the inventory manager (C38-C40, C60, C61), each
    followed by a concrete case. *)
From Coq Require Import Sorting.Sorted.
From Verif Require Import Base RunEx FeeModel FeeSpec InvModel InvSpec InvProofs InvTrack InvViews InvMore InvOrigin InvFee.
Open Scope N_scope.

Lemma reach_ok os s outs : inv_reach os s outs -> inv_ok s.
Proof. exact (inv_run_ok os inv0 s outs inv0_ok). Qed.

(** ** C38 *)

(** Whatever one step reports as processed is in ascending height order, and
    it is reported only when no requested block is missing and nothing is
    left waiting. *)
Theorem C38_ascending os s outs o s' x : inv_reach os s outs -> inv_step o s = Val (s', x) ->
  StronglySorted N.lt (map fst (processed x)) /\
  (processed x <> [] -> iv_remaining s' = ∅ /\ iv_received s' = ∅ /\ exists b hof, o = IBlock b hof).
Proof. intros R E. exact (let '(conj A (conj B _)) := step_processed o s s' x (reach_ok _ _ _ R) E in conj A B). Qed.
Print Assumptions C38_ascending.

(** A block is processed at most as often as it was requested. *)
Theorem C38_at_most_once os s outs hash : inv_reach os s outs ->
  (count (processed_hash hash) (concat outs) <= count (requests_hash hash) os)%nat.
Proof. intros R. exact (Nat.le_trans _ _ _ (Nat.le_trans _ _ _ (Nat.le_add_r _ _) (Nat.le_add_r _ _)) (run_once os s outs hash R)). Qed.
Print Assumptions C38_at_most_once.

(** When the last missing block arrives and is on the chain, exactly the
    waiting blocks and this one are reported. *)
Theorem C38_complete os s outs b hof h t s' x : inv_reach os s outs -> inv_step (IBlock b hof) s = Val (s', x) ->
  iv_remaining s = {[b_hash b := t]} -> hof (b_hash b) = Some h ->
  forall h' b', (h', b') ∈ processed x <-> <[h := b]> (iv_received s) !! h' = Some b'.
Proof. exact (last_block_completes os s outs b hof h t s' x). Qed.
Print Assumptions C38_complete.

Definition ex_t1 : tx := Tx 1 11 [(77, 0)] [(50, 7)] 400.
Definition ex_t2 : tx := Tx 2 12 [(78, 0)] [(50, 7)] 400.
Definition ex_b (h : N) (ts : list tx) : block := Block h ts true.
Definition ex_hof (l : list (N * N)) (h : N) : option N := (list_to_map l : gmap N N) !! h.
Definition no_pick (_ : N) (_ : list N) : option N := None.

(** Three blocks requested, delivered in descending order and once twice. *)
Definition ex_out_of_order : list inv_op :=
  let hof := ex_hof [(100, 5); (101, 6); (102, 7)] in
  [IGetBlock 100; IGetBlock 101; IGetBlock 102; IBlock (ex_b 102 []) hof; IBlock (ex_b 102 []) hof;
   IBlock (ex_b 101 [ex_t1]) hof; IBlock (ex_b 100 []) hof].
Example C38_case : exists s outs, inv_reach ex_out_of_order s outs /\
  map processed outs = [[]; []; []; []; []; []; [(5, ex_b 100 []); (6, ex_b 101 [ex_t1]); (7, ex_b 102 [])]].
Proof. apply run_ex. vm_compute. reflexivity. Qed.

(** If the last missing block is no longer on the chain when it arrives, the
    waiting blocks stay unprocessed although nothing is missing. *)
Theorem C38_progress_refuted : exists os s outs, inv_reach os s outs /\
  iv_remaining s = ∅ /\ iv_received s <> ∅ /\ concat (map processed outs) = [] /\
  last os = Some (IBlock (ex_b 101 []) (ex_hof [(100, 5)])).
Proof.
  set (os := [IGetBlock 100; IGetBlock 101; IBlock (ex_b 100 []) (ex_hof [(100, 5)]); IBlock (ex_b 101 []) (ex_hof [(100, 5)])]).
  destruct (run_ex (inv_run os inv0) (fun s outs => map_to_list (iv_remaining s) = [] /\ is_Some (iv_received s !! 5) /\ concat (map processed outs) = []))
    as (s & outs & R & E1 & E2 & E3); [vm_compute; repeat split; by eexists|].
  exists os, s, outs. split; [exact R|]. split; [by apply map_to_list_empty_iff|]. split; [|done].
  intros Z. rewrite Z, lookup_empty in E2. by destruct E2.
Qed.
Print Assumptions C38_progress_refuted.

(** A block that waits in the queue while a re-org removes it from the chain
    is still reported as processed, and its transactions as confirmed. *)
Theorem C38_on_chain_refuted : exists os s outs b hof s' x,
  inv_reach os s outs /\ inv_step (IBlock b hof) s = Val (s', x) /\
  exists h b', (h, b') ∈ processed x /\ hof (b_hash b') = None /\
    IoStatus 1 (StConfirmed (b_hash b') h) ∈ x.
Proof.
  set (os := [IAnnounce ex_t1; IGetBlock 100; IGetBlock 101; IBlock (ex_b 100 [ex_t1]) (ex_hof [(100, 5); (101, 6)]); IReverted [6; 5]]).
  set (op := IBlock (ex_b 101 []) (ex_hof [(101, 6); (103, 5)])).
  destruct (run_ex (inv_run os inv0) (fun s _ => match inv_step op s with
     Val (_, x) => x = [IoStatus 1 (StConfirmed 100 5); IoBlock (ex_b 100 [ex_t1]) 5 None; IoBlock (ex_b 101 []) 6 None] | _ => False end))
    as (s & outs & R & X); [vm_compute; reflexivity|]. apply run_ex in X as (s' & x & E & ->).
  exists os, s, outs, (ex_b 101 []), (ex_hof [(101, 6); (103, 5)]). do 2 eexists. split; [exact R|]. split; [exact E|].
  exists 5, (ex_b 100 [ex_t1]). split; [by left|]. split; [reflexivity|by left].
Qed.
Print Assumptions C38_on_chain_refuted.

(** The body of a block is not compared with its header: transactions that
    are not part of the block are reported as confirmed. *)
Theorem C38_body_refuted : exists os s outs b h, inv_reach os s outs /\
  (h, b) ∈ processed (concat outs) /\ b_merkle_ok b = false /\ IoStatus 1 (StConfirmed (b_hash b) h) ∈ concat outs.
Proof.
  set (os := [IAnnounce ex_t1; IGetBlock 100; IBlock (Block 100 [ex_t1] false) (ex_hof [(100, 5)])]).
  destruct (run_ex (inv_run os inv0) (fun _ outs => outs = [[IoTimer 1000]; [IoTimer 1000];
     [IoStatus 1 (StConfirmed 100 5); IoBlock (Block 100 [ex_t1] false) 5 None]])) as (s & outs & R & ->); [vm_compute; reflexivity|].
  exists os, s. do 3 eexists. split; [exact R|]. cbn. split; [by left|]. split; [done|]. right. right. by left.
Qed.
Print Assumptions C38_body_refuted.

(** ** C39 *)

(** A tracked transaction stays tracked until a processed block includes it. *)
Theorem C39_tracked os s outs os' s' xs w : inv_reach os s outs -> tracked w s -> inv_run os' s = Val (s', xs) ->
  ~ includes w (concat xs) -> tracked w s'.
Proof. intros R. exact (run_tracked os' s s' xs w (reach_ok _ _ _ R)). Qed.
Print Assumptions C39_tracked.

(** Confirmed is reported at most once per submission or reversal, and only
    together with a processed block containing the transaction. *)
Theorem C39_confirmed_once os s outs txid : inv_reach os s outs ->
  (count (confirms txid) (concat outs) <= count (submits txid) os + count (reverts txid) (concat outs))%nat.
Proof. intros R. exact (Nat.le_trans _ _ _ (Nat.le_add_r _ _) (run_confirms os s outs txid R)). Qed.
Print Assumptions C39_confirmed_once.
Theorem C39_confirmed_event os s outs o s' x txid hash h : inv_reach os s outs -> inv_step o s = Val (s', x) ->
  IoStatus txid (StConfirmed hash h) ∈ x ->
  exists b t t', (h, b) ∈ processed x /\ b_hash b = hash /\ t ∈ b_txs b /\ iv_mempool s !! t_wid t = Some t' /\ t_id t' = txid.
Proof. intros R E. exact (x_event _ _ _ _ (step_txfacts o s s' x (reach_ok _ _ _ R) E) txid hash h). Qed.
Print Assumptions C39_confirmed_event.

(** When a processed block includes a tracked transaction it is reported
    confirmed; if that height is reverted later (before it is buried by more
    than 12 blocks) it is reported reverted and tracked again. *)
Theorem C39_reverted os s outs o s1 x w t :
  inv_reach os s outs -> inv_step o s = Val (s1, x) -> iv_mempool s !! w = Some t -> includes w x ->
  iv_mempool s1 !! w = None /\
  exists h b, (h, b) ∈ processed x /\ in_txs w (b_txs b) /\ IoStatus (t_id t) (StConfirmed (b_hash b) h) ∈ x /\
  forall os' s2 xs hs s3 y, inv_run os' s1 = Val (s2, xs) -> Forall (keeps_height h) os' -> h ∈ hs ->
    inv_step (IReverted hs) s2 = Val (s3, y) -> IoStatus (t_id t) (StReverted t) ∈ y /\ tracked w s3.
Proof. exact (confirmed_then_reverted os s outs o s1 x w t). Qed.
Print Assumptions C39_reverted.

(** A submitted transaction is announced to every relaying peer, each time
    the timer fires a minute after the last announcement, until the peer
    fetches something or a block includes it; the peer is dropped instead if
    it did not react to three announcements in a row.  What is known of the
    peer is read off the history. *)
Theorem C39_announced os s outs t s1 y a v os' s2 xs now th pick s3 x :
  inv_reach os s outs -> inv_step (IAnnounce t) s = Val (s1, y) ->
  views a os outs None = Some v -> pv_relay v = true ->
  inv_run os' s1 = Val (s2, xs) -> Forall (same_session a) os' ->
  count (acked_by a) (concat xs) = 0%nat -> count (drops a) (concat xs) = 0%nat -> ~ includes (t_wid t) (concat xs) ->
  inv_step (ITimer now th pick) s2 = Val (s3, x) ->
  exists v2, views a (os ++ IAnnounce t :: os') (outs ++ y :: xs) None = Some v2 /\
    (default 0 (pv_last v2) + 60000 <= now ->
      ((3 <= pv_tries v2)%nat /\ IoTimedOut a ∈ x) \/ (pv_tries v2 < 3)%nat /\ exists invs t', iv_mempool s2 !! t_wid t = Some t' /\ IoInv a invs ∈ x /\ (if pv_wtx v2 then InvWTx (t_wid t) else InvTx (t_id t')) ∈ invs).
Proof. exact (submitted_announced os s outs t s1 y a v os' s2 xs now th pick s3 x). Qed.
Print Assumptions C39_announced.

(** So is every tracked transaction to a peer that connects later. *)
Theorem C39_new_peer os s outs a n r wtx w s1 y os' s2 xs now th pick s3 x :
  inv_reach os s outs -> tracked w s -> inv_step (INegotiated a n r wtx) s = Val (s1, y) ->
  inv_run os' s1 = Val (s2, xs) -> Forall (same_session a) os' ->
  count (acked_by a) (concat xs) = 0%nat -> count (drops a) (concat xs) = 0%nat -> ~ includes w (concat xs) ->
  inv_step (ITimer now th pick) s2 = Val (s3, x) ->
  exists v2, views a (os ++ INegotiated a n r wtx :: os') (outs ++ y :: xs) None = Some v2 /\
    (default 0 (pv_last v2) + 60000 <= now ->
      ((3 <= pv_tries v2)%nat /\ IoTimedOut a ∈ x) \/ (pv_tries v2 < 3)%nat /\ exists invs t', iv_mempool s2 !! w = Some t' /\ IoInv a invs ∈ x /\ (if pv_wtx v2 then InvWTx w else InvTx (t_id t')) ∈ invs).
Proof. exact (newpeer_announced os s outs a n r wtx w s1 y os' s2 xs now th pick s3 x). Qed.
Print Assumptions C39_new_peer.

(** Nothing but tracked transactions is announced, by the kind of id that the
    peer has asked for. *)
Theorem C39_announced_only os s outs o s' x a invs i : inv_reach os s outs -> inv_step o s = Val (s', x) ->
  IoInv a invs ∈ x -> i ∈ invs ->
  exists v w t, views a os outs None = Some v /\ iv_mempool s !! w = Some t /\ i = (if pv_wtx v then InvWTx w else InvTx (t_id t)).
Proof. exact (announced_only os s outs o s' x a invs i). Qed.
Print Assumptions C39_announced_only.

(** A peer that asks for transactions is sent tracked transactions that it has
    named, and for every tracked one that it has named it is sent one. *)
Theorem C39_served os s outs a is s' x : inv_reach os s outs -> inv_step (IGetDataMsg a is) s = Val (s', x) ->
  (forall b t, IoTx b t ∈ x -> b = a /\ iv_mempool s !! t_wid t = Some t /\ exists i, i ∈ is /\ names i t) /\
  (forall i w t, i ∈ is -> iv_mempool s !! w = Some t -> names i t -> exists t', IoTx a t' ∈ x /\ names i t').
Proof. exact (served os s outs a is s' x). Qed.
Print Assumptions C39_served.

(** Whatever is tracked, sent, announced or reported is a transaction that the
    user has submitted. *)
Theorem C39_submitted os s outs o s' x : inv_reach os s outs -> inv_step o s = Val (s', x) ->
  (forall w t, iv_mempool s' !! w = Some t -> IAnnounce t ∈ os ++ [o]) /\ Forall (concerns (fun t => IAnnounce t ∈ os ++ [o])) x.
Proof. exact (submitted_only os s outs o s' x). Qed.
Print Assumptions C39_submitted.

(** Submitted, announced twice, confirmed at height 5, reverted, announced
    again. *)
Definition ex_life : list inv_op :=
  [INegotiated 9 true true false; IAnnounce ex_t1; ITimer 100000 4 no_pick; ITimer 160000 4 no_pick;
   IGetBlock 100; IBlock (ex_b 100 [ex_t1]) (ex_hof [(100, 5)]); ITimer 300000 6 no_pick; IReverted [6; 5]; ITimer 400000 6 no_pick].
Example C39_case : exists s outs, inv_reach ex_life s outs /\
  map (List.filter (fun o => match o with IoTimer _ => false | _ => true end)) outs =
    [[]; []; [IoInv 9 [InvTx 1]]; [IoInv 9 [InvTx 1]]; []; [IoStatus 1 (StConfirmed 100 5); IoBlock (ex_b 100 [ex_t1]) 5 None];
     []; [IoStatus 1 (StReverted ex_t1)]; [IoInv 9 [InvTx 1]]].
Proof. apply run_ex. vm_compute. reflexivity. Qed.

(** A processed block is reported after the confirmations of the transactions
    in it, and before those of the next block. *)
Theorem C39_order os s outs b hof s' x : inv_reach os s outs -> inv_step (IBlock b hof) s = Val (s', x) ->
  exists l, x = concat (map told l).
Proof. exact (reports_ordered os s outs b hof s' x). Qed.
Print Assumptions C39_order.

(** A timer of one second is set by everything that leaves something to be
    announced or asked for, one of a minute by every announcement, one of 15
    seconds by every request of a block; and one of 30 seconds by a timer that
    fires 30 seconds after the last one that set it, or with something left to
    do since then. *)
Theorem C39_wakes os s outs o s' x : inv_reach os s outs -> inv_step o s = Val (s', x) ->
  (stirs o x = true -> IoTimer 1000 ∈ x) /\
  (forall now th pick, o = ITimer now th pick ->
     (IoTimer 30000 ∈ x <-> 30000 <= now - default 0 (idled os outs None)) /\
     (forall a invs, IoInv a invs ∈ x -> IoTimer 60000 ∈ x) /\ (forall a h, IoGetData a h ∈ x -> IoTimer 15000 ∈ x)).
Proof. exact (wakes os s outs o s' x). Qed.
Print Assumptions C39_wakes.

(** The life above with its timers; and two blocks, in the order reported. *)
Example C39_wakes_case : exists s outs, inv_reach ex_life s outs /\
  map (List.filter (fun o => match o with IoTimer _ => true | _ => false end)) outs =
    [[IoTimer 1000]; [IoTimer 1000]; [IoTimer 30000; IoTimer 60000]; [IoTimer 30000; IoTimer 60000]; [IoTimer 1000]; []; [IoTimer 30000];
     [IoTimer 1000]; [IoTimer 30000; IoTimer 60000]].
Proof. apply run_ex. vm_compute. reflexivity. Qed.
Example C39_order_case : exists s outs,
  inv_reach [IAnnounce ex_t1; IAnnounce ex_t2; IGetBlock 100; IGetBlock 101; IBlock (ex_b 101 [ex_t2]) (ex_hof [(100, 5); (101, 6)]);
             IBlock (ex_b 100 [ex_t1]) (ex_hof [(100, 5); (101, 6)])] s outs /\
  List.last outs [] = concat (map told [(ex_b 100 [ex_t1], 5, None, [1]); (ex_b 101 [ex_t2], 6, None, [2])]).
Proof. apply run_ex. vm_compute. reflexivity. Qed.

(** A peer that connects after the submission, asks for the transaction by its
    witness id, and is served. *)
Example C39_new_peer_case : exists s outs,
  inv_reach [IAnnounce ex_t1; INegotiated 9 true false true; ITimer 100000 4 no_pick; IGetDataMsg 9 [InvWTx (t_wid ex_t1); InvTx 77; InvTx (t_id ex_t1)]] s outs /\
  views 9 [IAnnounce ex_t1; INegotiated 9 true false true; ITimer 100000 4 no_pick] (firstn 3 outs) None = Some (PView true false true (Some 100000) 1) /\
  map (List.filter (fun o => match o with IoTimer _ => false | _ => true end)) outs =
    [[]; []; [IoInv 9 [InvWTx (t_wid ex_t1)]]; [IoTx 9 ex_t1; IoStatus (t_id ex_t1) (StAcknowledged 9); IoTx 9 ex_t1]].
Proof. apply run_ex. vm_compute. split; reflexivity. Qed.

(** ** C40 *)

(** In one session a peer gets at most three announcements, plus three for
    every transaction it has fetched. *)
Theorem C40_bounded_partial os s outs a n r w s1 y os' s' xs : inv_reach os s outs ->
  inv_step (INegotiated a n r w) s = Val (s1, y) -> inv_run os' s1 = Val (s', xs) -> Forall (same_session a) os' ->
  (count (announces_to a) (concat xs) <= 3 * (1 + count (acked_by a) (concat xs)))%nat.
Proof. exact (session_announces os s outs a n r w s1 y os' s' xs). Qed.
Print Assumptions C40_bounded_partial.

(** Announcements to a peer with no fetched transaction in between are at
    least a minute apart. *)
Theorem C40_spaced_partial os s outs a os' s' xs : inv_reach os s outs -> inv_run os' s = Val (s', xs) -> Forall (same_session a) os' ->
  spaced (announce_logs a os' xs).
Proof. intros R R' F. exact (proj1 (run_spaced a os' s s' xs (reach_ok _ _ _ R) F R')). Qed.
Print Assumptions C40_spaced_partial.

(** An announcement is sent by a timer only, to a connected peer that has been
    sent less than three since it last reacted, the last one at least a minute
    ago; and a peer is dropped only if it has been sent three. *)
Theorem C40_tries os s outs o s' x a : inv_reach os s outs -> inv_step o s = Val (s', x) ->
  (forall invs, IoInv a invs ∈ x -> exists now th pick v, o = ITimer now th pick /\ views a os outs None = Some v /\
     (pv_tries v < 3)%nat /\ default 0 (pv_last v) + 60000 <= now /\ invs <> []) /\
  (IoTimedOut a ∈ x -> exists now th pick v, o = ITimer now th pick /\ views a os outs None = Some v /\
     (3 <= pv_tries v)%nat /\ default 0 (pv_last v) + 60000 <= now).
Proof. exact (tries os s outs o s' x a). Qed.
Print Assumptions C40_tries.

Example C40_case : exists s outs,
  inv_reach [INegotiated 9 true true false; IAnnounce ex_t1; ITimer 100000 4 no_pick; ITimer 130000 4 no_pick; ITimer 160000 4 no_pick;
             ITimer 220000 4 no_pick; ITimer 300000 4 no_pick] s outs /\
  map (count (announces_to 9)) outs = [0; 0; 1; 0; 1; 1; 0]%nat /\ map (count (drops 9)) outs = [0; 0; 0; 0; 0; 0; 1]%nat.
Proof. apply run_ex. vm_compute. split; reflexivity. Qed.

(** The counters belong to the peer, not to the transaction: a peer that
    fetches one transaction is announced another one more than three times,
    and less than a minute apart. *)
Theorem C40_per_transaction_refuted : exists os s outs, inv_reach os s outs /\
  Forall (same_session 9) (tail os) /\
  (4 <= count (fun o => match o with IoInv a is => (a =? 9)%N && existsb (fun i => match i with InvTx 1 => true | _ => false end) is | _ => false end) (concat outs))%nat /\
  exists i j t t' th th' p p', os !! i = Some (ITimer t th p) /\ os !! j = Some (ITimer t' th' p') /\ (i < j)%nat /\ t' < t + 60000 /\
    (0 < count (announces_to 9) (nth i outs []))%nat /\ (0 < count (announces_to 9) (nth j outs []))%nat.
Proof.
  set (os := [INegotiated 9 true true false; IAnnounce ex_t1; IAnnounce ex_t2; ITimer 100000 4 no_pick; IGetDataMsg 9 [InvTx 2]; ITimer 101000 4 no_pick;
    ITimer 161000 4 no_pick; ITimer 221000 4 no_pick]).
  destruct (run_ex (inv_run os inv0) (fun s outs => 
    (4 <=? count (fun o => match o with IoInv a is => (a =? 9)%N && existsb (fun i => match i with InvTx 1 => true | _ => false end) is | _ => false end) (concat outs))%nat = true /\
    count (announces_to 9) (nth 3 outs []) = 1%nat /\ count (announces_to 9) (nth 5 outs []) = 1%nat)) as (s & outs & R & X1 & X2 & X3); [vm_compute; repeat split|].
  exists os, s, outs. split; [exact R|]. split; [repeat constructor|]. split; [by apply Nat.leb_le|].
  exists 3%nat, 5%nat, 100000, 101000, 4, 4, no_pick, no_pick. rewrite X2, X3. repeat split; try lia.
Qed.
Print Assumptions C40_per_transaction_refuted.

(** ** C60 *)

(** The only panic is the assertion of the fee estimator, while a received
    block is processed. *)
Theorem C60_only_panic os s outs o p : inv_reach os s outs -> inv_step o s = Panic p ->
  p = PAssert 169 /\ exists b hof, o = IBlock b hof.
Proof. intros R. exact (inv_panics o s p (reach_ok _ _ _ R)). Qed.
Print Assumptions C60_only_panic.

(** It can be reached by a peer: the second of two requested blocks comes
    with a made-up body that spends an output of the first one. *)
Theorem C60_no_panic_refuted : exists os s outs b hof, inv_reach os s outs /\
  inv_step (IBlock b hof) s = Panic (PAssert 169) /\ b_merkle_ok b = false.
Proof.
  set (os := [IGetBlock 100; IBlock (ex_b 100 [ex_t1]) (ex_hof [(100, 5); (101, 6)]); IGetBlock 101]).
  set (b := Block 101 [Tx 3 13 [(1, 0)] [(51, 7)] 400] false).
  destruct (run_ex (inv_run os inv0) (fun s _ => inv_step (IBlock b (ex_hof [(100, 5); (101, 6)])) s = Panic (PAssert 169))) as (s & outs & R & X);
    [vm_compute; reflexivity|].
  exists os, s, outs, b. eexists. split; [exact R|]. split; [exact X|done].
Qed.
Print Assumptions C60_no_panic_refuted.

(** ** C61 *)

(** Reverting two blocks that were never processed makes the estimator
    forget two blocks that are still on the chain. *)
Theorem C61_unprocessed_revert_refuted : exists os s outs s' x,
  inv_reach os s outs /\ e_height (iv_est s) = 9 /\ is_Some (e_utxos (iv_est s) !! (1, 0)) /\
  inv_step (IReverted [12; 11]) s = Val (s', x) /\
  e_height (iv_est s') = 0 /\ e_utxos (iv_est s') !! (1, 0) = None.
Proof.
  set (hof := ex_hof [(100, 5); (101, 9)]).
  set (os := [IGetBlock 100; IBlock (ex_b 100 [ex_t1]) hof; IGetBlock 101; IBlock (ex_b 101 [ex_t2]) hof]).
  destruct (run_ex (inv_run os inv0) (fun s _ => e_height (iv_est s) = 9 /\ is_Some (e_utxos (iv_est s) !! (1, 0)) /\
    match inv_step (IReverted [12; 11]) s with Val (s', x) => e_height (iv_est s') = 0 /\ e_utxos (iv_est s') !! (1, 0) = None | _ => False end))
    as (s & outs & R & E1 & E2 & X); [vm_compute; repeat split; by eexists|].
  apply run_ex in X as (s' & x & E & X1 & X2). exists os, s, outs, s', x. done.
Qed.
Print Assumptions C61_unprocessed_revert_refuted.

(** Instead it undoes as many processed blocks as blocks are reverted, up to
    twelve. *)
Theorem C61_undoes os e rs bs e' rs' s s' x hs : fee_run os est0 = Val (e, rs) -> above (e_height e) bs -> (length bs <= 12)%nat ->
  fee_run (processing bs) e = Val (e', rs') -> iv_est s = e' -> Forall (fun h => e_height e' < h) hs -> length hs = length bs ->
  inv_step (IReverted hs) s = Val (s', x) -> e_utxos (iv_est s') = e_utxos e /\ e_height (iv_est s') = e_height e.
Proof. exact (reverts_undo os e rs bs e' rs' s s' x hs). Qed.
Print Assumptions C61_undoes.

Example C61_case : exists e rs e' rs' s s' x, fee_run [FProcess [ex_t1] 5] est0 = Val (e, rs) /\ above (e_height e) [(9, [ex_t2])] /\
  fee_run (processing [(9, [ex_t2])]) e = Val (e', rs') /\ iv_est s = e' /\ e_height e' = 9 /\ inv_step (IReverted [12]) s = Val (s', x) /\ e_height e = 5.
Proof.
  destruct (run_ex (fee_run [FProcess [ex_t1] 5] est0) (fun e _ => e_height e = 5 /\
    match fee_run (processing [(9, [ex_t2])]) e with Val (e', _) => e_height e' = 9 /\ match inv_step (IReverted [12]) (set_est e' inv0) with Val (_, _) => True | Panic _ => False end | Panic _ => False end))
    as (e & rs & E & X1 & X2); [vm_compute; repeat split|].
  apply run_ex in X2 as (e' & rs' & E' & X2 & X3). apply (run_ex _ (fun _ _ => True)) in X3 as (s' & x & Es & _).
  exists e, rs, e', rs', (set_est e' inv0), s', x. split; [exact E|]. split; [rewrite X1; repeat split|]. done.
Qed.

(** ** C88 *)

(** A block is asked for by a timer only, if it has been requested and has not
    arrived, at least 15 seconds after it was asked for last, once, and from a
    connected peer that serves blocks. *)
Theorem C88_asked os s outs o s' x a h : inv_reach os s outs -> inv_step o s = Val (s', x) -> IoGetData a h ∈ x ->
  exists now th pick last v, o = ITimer now th pick /\ wants h os outs None = Some last /\ default 0 last + 15000 <= now /\
    views a (os ++ [o]) (outs ++ [x]) None = Some v /\ pv_network v = true /\ count (asks h) x = 1%nat.
Proof. exact (requested os s outs o s' x a h). Qed.
Print Assumptions C88_asked.

(** And it is asked for again by every timer that fires 15 seconds later, as
    long as there is such a peer, until it arrives; the next timer is set. *)
Theorem C88_again os s outs now th pick s' x h last a v : inv_reach os s outs -> inv_step (ITimer now th pick) s = Val (s', x) ->
  wants h os outs None = Some last -> default 0 last + 15000 <= now ->
  views a (os ++ [ITimer now th pick]) (outs ++ [x]) None = Some v -> pv_network v = true ->
  exists b, IoGetData b h ∈ x /\ IoTimer 15000 ∈ x.
Proof. exact (repeated os s outs now th pick s' x h last a v). Qed.
Print Assumptions C88_again.

(** Asked for, asked for again when it does not come, not after it has come;
    the peer that does not serve blocks is never asked. *)
Definition ex_fetch : list inv_op :=
  [INegotiated 8 false true false; IGetBlock 100; ITimer 100000 4 no_pick; INegotiated 9 true true false; ITimer 100001 4 no_pick;
   ITimer 110000 4 no_pick; ITimer 115001 4 no_pick; IBlock (ex_b 100 [ex_t1]) (ex_hof [(100, 5)]); ITimer 200000 4 no_pick].
Example C88_case : exists s outs, inv_reach ex_fetch s outs /\
  map (List.filter (fun o => match o with IoGetData _ _ => true | _ => false end)) outs =
    [[]; []; []; []; [IoGetData 9 100]; []; [IoGetData 9 100]; []; []] /\
  map (fun k => wants 100 (firstn k ex_fetch) (firstn k outs) None) [1; 2; 3; 5; 7; 8]%nat =
    [None; Some None; Some None; Some (Some 100001); Some (Some 115001); None].
Proof. apply run_ex. vm_compute. split; reflexivity. Qed.

(** ** C84 *)

(** The estimates reported along with blocks are those of a fee estimator that
    is given the reported blocks, in that order, and is rolled back to below
    every reverted height. *)
Theorem C84_reported os s outs : inv_reach os s outs ->
  exists e rs, fee_run (fee_history os outs) est0 = Val (e, rs) /\ reported (concat outs) = omap id rs.
Proof. exact (fees_reported os s outs). Qed.
Print Assumptions C84_reported.

(** A block spending an output of the one before; and again after its
    replacement. *)
Definition ex_t3 : tx := Tx 3 13 [(1, 0)] [(10, 7)] 40.
Definition ex_paid : list inv_op :=
  [IGetBlock 100; IBlock (ex_b 100 [ex_t1]) (ex_hof [(100, 5)]); IGetBlock 101; IBlock (ex_b 101 [ex_t3]) (ex_hof [(101, 6)]);
   IReverted [6]; IGetBlock 102; IBlock (ex_b 102 [ex_t3]) (ex_hof [(102, 6)])].
Example C84_reported_case : exists s outs, inv_reach ex_paid s outs /\
  fee_history ex_paid outs = [FProcess [ex_t1] 5; FProcess [ex_t3] 6; FRollback 5; FProcess [ex_t3] 6] /\
  reported (concat outs) = [None; Some (Estimate 4 4 4); Some (Estimate 4 4 4)].
Proof. apply run_ex. vm_compute. split; reflexivity. Qed.
