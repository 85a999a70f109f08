(** Property theorems about outputs and events (C54), received messages (C55)
    and the service (C77), each followed by a concrete case. *)
From Verif Require Import Base RunEx AddrModel PeerModel UtilModel UtilSpec UtilProps DispModel DispSpec DispProofs.
Open Scope N_scope.

(** ** C54 *)

(** In any run that starts with empty outboxes, what a component queued is what
    was emitted for it so far followed by what is still in its outbox, in this
    order; messages are given the magic number of the network and nothing else
    is changed. *)
Theorem C54_in_order {St Msg Ev} (h : comp -> Ev -> St -> M (St * list (comp * io Msg Ev))) magic os st s t :
  frun h magic os (Fsm st (fun _ => [])) = Val (s, t) -> forall c,
  map (wired magic) (queued_by c t) = emitted_by c t ++ map (wired magic) (f_box s c).
Proof. intros R c. exact (frun_order h magic os _ _ _ R c). Qed.
Print Assumptions C54_in_order.

(** There is nothing to emit only if all outboxes are empty. *)
Theorem C54_empty {St Msg Ev} (h : comp -> Ev -> St -> M (St * list (comp * io Msg Ev))) magic s s' l :
  next h magic s = Val (s', l, None) -> s' = s /\ forall c, f_box s c = [].
Proof. intros (E & _ & B)%next_box. exact (conj E B). Qed.
Print Assumptions C54_empty.

(** Every event that is emitted, or passed on internally, was given to every
    manager once, in this order, and nothing else was: the same run with
    managers that keep a diary. As this holds after every step, managers get an
    event before it is emitted and before any later event. *)
Theorem C54_delivered {St Msg Ev} (h : comp -> Ev -> St -> M (St * list (comp * io Msg Ev))) magic os st b s t :
  frun h magic os (Fsm st b) = Val (s, t) ->
  frun (with_diary h) magic (map with_diary_op os) (Fsm (st, []) b) =
  Val (Fsm (f_state s, flat_map (fun e => [(CCbf, e); (CPing, e); (CInv, e); (CSync, e); (CAddr, e); (CPeer, e)]) (announced t))
           (f_box s), t).
Proof. intros R. exact (frun_diary h magic os (Fsm st b) s t [] R). Qed.
Print Assumptions C54_delivered.

(** A small machine: the inventory manager answers the event 1 with a message
    and the event 2, and a connection manager answers the event 2 by closing a
    connection. *)
Definition dp_a : sockaddr := ((true, 7), 8333).
Definition dp_h (c : comp) (e : N) (st : N) : M (N * list (comp * io N N)) :=
  match c, e with
  | CInv, 1 => Val (st + 1, [(CInv, IoWrite dp_a 50); (CInv, IoEvent 2)])
  | CPeer, 2 => Val (st + 10, [(CPeer, IoDisconnect dp_a RTimeout)])
  | _, _ => Val (st, [])
  end.
Example C54_case :
  exists s t, frun dp_h 99 [FInput (fun st => Val (st, [(CPing, IoWrite dp_a 40); (CSync, IoEvent 1)])); FNext; FNext; FNext; FNext; FNext]
                   (Fsm 0 (fun _ => [])) = Val (s, t) /\
    (t = [FQueued CPing (IoWrite dp_a 40); FQueued CSync (IoEvent 1);
          FQueued CInv (IoWrite dp_a 50); FQueued CInv (IoEvent 2); FEmitted CSync (IoEvent 1);
          FEmitted CInv (IoWrite dp_a (99, 50));
          FQueued CPeer (IoDisconnect dp_a RTimeout); FEmitted CInv (IoEvent 2);
          FEmitted CPeer (IoDisconnect dp_a RTimeout); FEmitted CPing (IoWrite dp_a (99, 40))] /\ f_state s = 11).
Proof. apply run_ex. vm_compute. by split. Qed.

(** The order of different components is not kept: in the case above the
    message queued first is emitted last, after the connection is closed. *)
Theorem C54_across_refuted : exists os (s : fsm N N N) t i j k l,
  frun dp_h 99 os (Fsm 0 (fun _ => [])) = Val (s, t) /\
  t !! i = Some (FQueued CPing (IoWrite dp_a 40)) /\ t !! j = Some (FQueued CPeer (IoDisconnect dp_a RTimeout)) /\
  t !! k = Some (FEmitted CPeer (IoDisconnect dp_a RTimeout)) /\ t !! l = Some (FEmitted CPing (IoWrite dp_a (99, 40))) /\
  (i < j)%nat /\ (k < l)%nat.
Proof.
  destruct C54_case as (s & t & R & -> & _). eexists _, s, _, 0%nat, 6%nat, 8%nat, 9%nat.
  split; [exact R|]. repeat split; lia.
Qed.
Print Assumptions C54_across_refuted.

(** ** C55 *)

(** A message with the magic number of another network is given to nobody: the
    sender, if connected, is disconnected, and nothing else changes. *)
Theorem C55_other_network {Rest Msg Ev} (h : comp -> Ev -> pmgr * Rest -> M (pmgr * Rest * list (comp * io Msg Ev)))
    magic hook received a (m : N * Msg) (s : fsm (pmgr * Rest) Msg Ev) c i : m.1 <> magic -> pm_peers (f_state s).1 !! a = Some (Connected c i) ->
  exists s', message_received h magic hook received a m s = Val s' /\
    (f_state s').1 = set_peers (f_state s).1 (<[a := Disconnecting]> (pm_peers (f_state s).1)) /\
    (f_state s').2 = (f_state s).2 /\
    f_box s' CPeer = f_box s CPeer ++ [IoDisconnect a RMagic] /\
    forall c', c' <> CPeer -> f_box s' c' = f_box s c'.
Proof.
  intros N P. unfold message_received. apply N.eqb_neq in N. rewrite N. cbn [negb].
  unfold disconnect, connected_at. rewrite P. eexists. split; [reflexivity|].
  cbn [f_state f_box fst snd do_disconnect flat_map as_io app]. split; [done|]. split; [done|].
  split; [by rewrite queue_box|]. intros c' N'. rewrite queue_box. cbn [flat_map fst snd].
  destruct (decide (CPeer = c')); [congruence|]. by rewrite app_nil_r.
Qed.
Print Assumptions C55_other_network.

(** A message of a peer that is not connected changes nothing, whatever it is. *)
Theorem C55_unknown {Rest Msg Ev} (h : comp -> Ev -> pmgr * Rest -> M (pmgr * Rest * list (comp * io Msg Ev)))
    magic hook received a (m : N * Msg) (s : fsm (pmgr * Rest) Msg Ev) : (forall c i, pm_peers (f_state s).1 !! a <> Some (Connected c i)) ->
  message_received h magic hook received a m s = Val s.
Proof.
  intros P. assert (connected_at (f_state s).1 a = false) as C.
  { unfold connected_at. destruct (pm_peers (f_state s).1 !! a) as [[]|] eqn:E; try done. by destruct (P c i). }
  unfold message_received, disconnect. rewrite C. destruct (negb (m.1 =? magic)); [|done].
  cbn [flat_map queue]. by destruct s as [[]].
Qed.
Print Assumptions C55_unknown.

(** Peer 7 is connected: a message with a foreign magic number disconnects it, a
    message of the network reaches the managers, and peer 8 is ignored. *)
Definition dp_pmgr : pmgr :=
  PMgr None {[ dp_a := Connected (Conn dp_a ((true, 1), 1) Inbound 5) None ]} ∅ ∅.
Definition dp_h' (c : comp) (e : N) (st : pmgr * N) : M (pmgr * N * list (comp * io N N)) :=
  Val (st.1, st.2 + e, match c with CPing => [(CPing, IoWrite dp_a e)] | _ => [] end).
Example C55_case :
  let s := Fsm (dp_pmgr, 0) (fun _ => []) in
  let run a m := message_received dp_h' 99 (fun _ m => m <? 1000) (fun _ m => m) a m s in
  match run dp_a (98, 3) with
  | Val s' => pm_peers (f_state s').1 !! dp_a = Some Disconnecting /\ (f_state s').2 = 0 /\
    f_box s' CPeer = [IoDisconnect dp_a RMagic] /\ f_box s' CPing = []
  | Panic _ => False end /\
  match run dp_a (99, 3) with
  | Val s' => (f_state s').2 = 18 /\ f_box s' CPing = [IoWrite dp_a 3] | Panic _ => False end /\
  match run dp_a (99, 3000) with Val s' => (f_state s').2 = 0 | Panic _ => False end /\
  match run ((true, 8), 8333) (98, 3) with
  | Val s' => (f_state s').2 = 0 /\ f_box s' CPeer = [] | Panic _ => False end.
Proof. vm_compute. by repeat split. Qed.

(** ** C77 *)

(** The bytes of a connection are decoded as one stream, however they are cut
    and whatever other peers do; decoding starts afresh with each connection. *)
Theorem C77_stream {Msg} (parse : list N -> parsed Msg) p a q s cs : streaming parse -> steady a q ->
  srun parse (p ++ SConnected a :: q) ∅ = Val (s, cs) ->
  exists before after buf e, cs = before ++ CallConnected a :: after /\ srun parse p ∅ = Val (buf, before) /\
    (decode_error a after <-> e = true) /\
    if decide (chunks_of a q = []) then messages_of a after = [] /\ e = false
    else exists rest, bytes_received parse [] (concat (chunks_of a q)) = Some (rest, messages_of a after, e).
Proof.
  intros HS St R. apply srun_app in R as (s1 & c1 & c2 & R1 & R2 & ->).
  cbn [srun sstep mbind_M] in R2. destruct (srun parse q (<[a := []]> s1)) as [[s2 c3]|] eqn:R3; cbn [mbind_M] in R2; [|discriminate R2].
  injection R2 as <- <-.
  destruct (srun_stream parse a q St _ _ _ [] R3 ltac:(apply lookup_insert)) as (buf & e & E1 & _ & E3).
  exists c1, c3, s1, e. split; [done|]. split; [exact R1|]. split; [by symmetry|].
  destruct (decide (chunks_of a q = [])) as [N|N].
  - rewrite N in E1. cbn [chunks_received] in E1. injection E1 as _ <- <-. done.
  - destruct (C53_chunking parse [] (chunks_of a q) HS N) as [<- _]. by exists buf.
Qed.
Print Assumptions C77_stream.

(** Bytes of a peer that was never connected, or has been disconnected, are
    ignored. *)
Theorem C77_unknown {Msg} (parse : list N -> parsed Msg) p a q s cs : streaming parse -> steady a q ->
  srun parse (p ++ q) ∅ = Val (s, cs) ->
  p = [] \/ List.last p (SConnected a) = SDisconnected a ->
  exists before after buf, cs = before ++ after /\ srun parse p ∅ = Val (buf, before) /\
    messages_of a after = [] /\ ~ decode_error a after.
Proof.
  intros HS St R L. apply srun_app in R as (s1 & c1 & c2 & R1 & R2 & ->).
  exists c1, c2, s1. split; [done|]. split; [exact R1|].
  assert (s1 !! a = None) as N.
  { destruct L as [->|L]; [cbn [srun] in R1; by injection R1 as <- <-|].
    destruct (exists_last (l:=p)) as (p' & o & ->); [intros ->; discriminate L|].
    rewrite last_last in L. subst o. apply srun_app in R1 as (s2 & c3 & c4 & _ & R1 & _).
    cbn [srun sstep mbind_M] in R1. injection R1 as <- <-. apply lookup_delete. }
  destruct (srun_unknown parse a q St _ _ _ R2 N) as (M1 & D1 & _). done.
Qed.
Print Assumptions C77_unknown.

(** Decoding ends for every sequence of bytes. *)
Theorem C77_no_panic {Msg} (parse : list N -> parsed Msg) os : streaming parse ->
  exists s cs, srun parse os ∅ = Val (s, cs).
Proof. intros HS. exact (srun_total parse HS os ∅). Qed.
Print Assumptions C77_no_panic.

(** Two peers whose messages arrive interleaved in pieces; the second one
    reconnects in the middle of a message. *)
Definition dp_b : sockaddr := ((true, 8), 8333).
Example C77_case :
  let p := [SConnected dp_a; SConnected dp_b; SBytes dp_b (take 10 ex_frame); SBytes dp_a (take 30 ex_stream); SDisconnected dp_b;
            SBytes dp_b (drop 10 ex_frame)] in
  let q := [SBytes dp_a (drop 30 ex_stream); SBytes dp_b (take 1 ex_frame); SBytes dp_b (drop 1 ex_frame); SBytes dp_a []] in
  steady dp_b q /\ streaming ex_parse /\
  match srun ex_parse (p ++ SConnected dp_b :: q) ∅ with
  | Val (s, cs) => cs = [CallConnected dp_a; CallConnected dp_b; CallMessage dp_a 7; CallDisconnected dp_b; CallConnected dp_b;
                         CallMessage dp_a 7; CallMessage dp_b 7] /\ s !! dp_a = Some [7; 7] /\ s !! dp_b = Some []
  | Panic _ => False
  end /\
  match srun ex_parse [SConnected dp_a; SBytes dp_a (take 20 ex_frame ++ [1; 1; 1; 1])] ∅ with
  | Val (_, cs) => cs = [CallConnected dp_a; CallDecodeError dp_a] | Panic _ => False end.
Proof.
  split; [split; intros H; repeat (apply elem_of_cons in H as [H|H]; [discriminate H|]); by apply elem_of_nil in H|].
  split; [apply C53_framing|]. vm_compute. by repeat split.
Qed.
