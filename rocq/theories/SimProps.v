(** C125-C128: the network simulator. *)
From Coq Require Import Sorted.
From Verif Require Import Base RunEx SimModel SimSpec SimProofs SimSpace SimLinks SimFire.
Open Scope N_scope.

(** ** C125: messages between two peers arrive in order *)
Theorem C125_order ws t range fails s log : sim_run ws (sim0 t range fails) = Val (s, log) ->
  forall r a, received r a log `sublist_of` sent a.1 r log.
Proof.
  intros E r a. pose proof (j_order _ _ (run_ok _ _ _ _ [] E (sim0_ok _ _ _)) r a) as O. cbn [app] in O. etransitivity; [|exact O]. by apply sublist_inserts_r.
Qed.
Print Assumptions C125_order.

(** Draws: long and short latencies. *)
Definition dlong : draw := Draw true (fun n => n - 1) 9000 false.
Definition dshort : draw := Draw false (fun n => n - 1) 9001 false.
Definition fives : N * N -> N := fun _ => 5.
Definition never : N * N -> bool := fun _ => false.
Definition idle : list (N * list (sout * draw)) := [(1, []); (2, []); (3, [])].
Definition pop (os : list (sout * draw)) : turn := Turn fives never idle os.
Definition from1 (os : list (sout * draw)) : turn := Turn fives never [(1, os); (2, []); (3, [])] [].
Definition at2 : saddr := (2, 80).
Ltac spaced := repeat (apply Forall_cons; split; [split; [cbn; intros; unfold fives; lia|repeat (apply Forall_cons; split; [split; [intros k K; cbn; lia|first [exact Logic.I|cbn; lia]]|]); apply Forall_nil_2]|]); apply Forall_nil_2.
(** A node dials another, writes to it twice, and is heard. *)
Definition talk : list turn :=
  [from1 [(SConnect at2, dlong)]; pop []; pop [(SWrite at2 7, dlong); (SWrite at2 8, dshort)]; pop []; pop []].
Example C125_case : exists s log, sim_run talk (sim0 1000 (0, 1) false) = Val (s, log) /\
  received 2 (1, 9000) log = [7; 8] /\ sent 1 2 log = [7; 8] /\ is_done s = true.
Proof. apply run_ex. vm_compute. repeat split. Qed.
(** Between two nodes, rather than two addresses, they do not: a node that dials
    a second time changes its address. *)
Definition redial : list turn :=
  [from1 [(SConnect at2, dlong)]; pop []; pop [(SConnect at2, dshort)]; pop [(SWrite at2 7, dlong); (SWrite at2 8, dlong)];
   pop []; pop [(SWrite at2 9, dshort)]; pop []; pop []; pop []].
Theorem C125_nodes_refuted : exists ws t range s log r n, Forall spaced ws /\ sim_run ws (sim0 t range false) = Val (s, log) /\
  is_settled s = true /\ heard r n log <> sent n r log.
Proof.
  destruct (run_ex (sim_run redial (sim0 1000 (0, 1) false)) (fun s log => is_settled s = true /\ heard 2 1 log <> sent 1 2 log)) as (s & log & E1 & E2); [vm_compute; split; [reflexivity|discriminate]|].
  exists redial, 1000, (0, 1), s, log, 2, 1. split; [spaced|exact (conj E1 E2)].
Qed.
Print Assumptions C125_nodes_refuted.
(** Nor does the receiver know that address: it was never told of a connection
    with it. *)
Theorem C125_stranger_refuted : exists ws t range s log r a m time, Forall spaced ws /\ sim_run ws (sim0 t range false) = Val (s, log) /\
  SiCall time r (CReceived a m) ∈ log /\ forall time' local l, SiCall time' r (CConnected a local l) ∉ log.
Proof.
  destruct (run_ex (sim_run redial (sim0 1000 (0, 1) false)) (fun s log => drop 7 log =
    [SiOut 1011 1 (SWrite at2 8); SiOut 1015 1 (SWrite at2 9); SiCall 1019 2 (CReceived (1, 9001) 9); SiCall 1020 2 (CReceived (1, 9000) 7); SiCall 1029 2 (CReceived (1, 9000) 8)] /\
    take 7 log = [SiOut 1000 1 (SConnect at2); SiCall 1001 1 (CAttempted at2); SiCall 1009 2 (CConnected (1, 9000) at2 SInbound); SiCall 1010 1 (CConnected at2 (1, 9000) SOutbound);
      SiOut 1010 1 (SConnect at2); SiCall 1011 1 (CAttempted at2); SiOut 1011 1 (SWrite at2 7)])) as (s & log & E1 & E2 & E3); [vm_compute; split; reflexivity|].
  exists redial, 1000, (0, 1), s, log, 2, (1, 9001), 9, 1019. split; [spaced|]. split; [exact E1|]. rewrite <- (take_drop 7 log), E2, E3. split.
  - apply elem_of_app. right. do 2 apply elem_of_list_further. apply elem_of_list_here.
  - intros time' local l I. cbn [app] in I. repeat (apply elem_of_cons in I; destruct I as [I|I]; [discriminate I|]). by apply elem_of_nil in I.
Qed.
Print Assumptions C125_stranger_refuted.

(** ** C126: without failures every message arrives *)
Theorem C126_complete ws t range s log : Forall spaced ws -> sim_run ws (sim0 t range false) = Val (s, log) -> is_settled s = true ->
  forall n r, heard r n log ≡ₚ sent n r log.
Proof. exact (complete_run ws t range s log). Qed.
Print Assumptions C126_complete.
Example C126_case : exists s log, Forall spaced redial /\ sim_run redial (sim0 1000 (0, 1) false) = Val (s, log) /\ is_settled s = true /\
  heard 2 1 log = [9; 7; 8] /\ sent 1 2 log = [7; 8; 9].
Proof.
  destruct (run_ex (sim_run redial (sim0 1000 (0, 1) false)) (fun s log => is_settled s = true /\ heard 2 1 log = [9; 7; 8] /\ sent 1 2 log = [7; 8; 9])) as (s & log & E1 & E2); [vm_compute; repeat split|].
  exists s, log. split; [spaced|exact (conj E1 E2)].
Qed.
(** With a latency of zero a message is lost to the disconnection of two other
    nodes. *)
Definition nolat : N * N -> N := fun _ => 0.
Definition lost : list turn :=
  [Turn nolat never [(1, [(SConnect at2, dlong)]); (2, []); (3, [])] []; Turn nolat never idle []; Turn nolat never idle [];
   Turn nolat never [(1, [(SWrite at2 7, dlong)]); (2, []); (3, [(SDisconnect at2 0, dlong)])] []].
Theorem C126_instant_refuted : exists ws t range s log n r, sim_run ws (sim0 t range false) = Val (s, log) /\ is_settled s = true /\
  heard r n log = [] /\ sent n r log <> [].
Proof.
  destruct (run_ex (sim_run lost (sim0 1000 (0, 1) false)) (fun s log => is_settled s = true /\ heard 2 1 log = [] /\ sent 1 2 log <> [])) as (s & log & E1 & E2); [vm_compute; repeat split; discriminate|].
  exists lost, 1000, (0, 1), s, log, 1, 2. exact (conj E1 E2).
Qed.
Print Assumptions C126_instant_refuted.
(** That a message is received while connected is false: it may come after the
    disconnection that was asked for after it was sent. *)
Definition late : list turn :=
  [from1 [(SConnect at2, dlong)]; pop []; pop [(SWrite at2 7, dlong); (SDisconnect at2 0, dshort)]; pop []; pop []; pop []].
Theorem C126_connected_refuted : exists ws t range s l1 time r a m l2, Forall spaced ws /\
  sim_run ws (sim0 t range false) = Val (s, l1 ++ SiCall time r (CReceived a m) :: l2) /\ talking r a.1 l1 = false.
Proof.
  destruct (run_ex (sim_run late (sim0 1000 (0, 1) false)) (fun s log => drop 8 log = [SiCall 1019 2 (CReceived (1, 9000) 7)] /\ talking 2 1 (take 8 log) = false)) as (s & log & E1 & E2 & E3); [vm_compute; split; reflexivity|].
  exists late, 1000, (0, 1), s, (take 8 log), 1019, 2, (1, 9000), 7, []. split; [spaced|]. rewrite <- E2, take_drop. exact (conj E1 E3).
Qed.
Print Assumptions C126_connected_refuted.

(** ** C127: connections *)
Theorem C127_fit ws t range fails s log : sim_run ws (sim0 t range fails) = Val (s, log) -> calls_fit log.
Proof. exact (fit_run ws t range fails s log). Qed.
Print Assumptions C127_fit.
Example C127_case : exists s log, sim_run late (sim0 1000 (0, 1) false) = Val (s, log) /\
  List.filter (fun i => match i with SiCall _ _ _ => true | _ => false end) log =
    [SiCall 1001 1 (CAttempted at2); SiCall 1009 2 (CConnected (1, 9000) at2 SInbound); SiCall 1010 1 (CConnected at2 (1, 9000) SOutbound);
     SiCall 1010 1 (CDisconnected at2 (ByNode 0)); SiCall 1014 2 (CDisconnected (1, 9000) ConnectionReset); SiCall 1019 2 (CReceived (1, 9000) 7)] /\
  talking 2 1 log = false /\ attempting 1 2 log = false.
Proof. apply run_ex. vm_compute. repeat split. Qed.
(** Nodes that connect only to each other, and not to themselves, can bring the
    simulator down only where a node is disconnected that is both connected and
    connecting. *)
Theorem C127_panics nodes ws t range fails p : Forall (among nodes) ws -> sim_run ws (sim0 t range fails) = Panic p ->
  p = PAssert 391 \/ (p = PAssert 471 /\ exists w to d, w ∈ ws /\ (SConnect to, d) ∈ tn_react w).
Proof. exact (panics_run nodes ws t range fails p). Qed.
Print Assumptions C127_panics.
Definition both : list turn :=
  [from1 [(SConnect at2, dlong)]; pop []; pop [(SConnect at2, dshort)]; pop [(SDisconnect at2 0, dlong)]; pop []].
(** So it can, though it says that this cannot be. *)
Theorem C127_both_refuted : exists nodes ws t range, Forall (among nodes) ws /\ Forall spaced ws /\ sim_run ws (sim0 t range false) = Panic (PAssert 391).
Proof.
  exists [1; 2; 3], both, 1000, (0, 1). split; [apply amongb_ok; vm_compute; reflexivity|split; [spaced|vm_compute; reflexivity]].
Qed.
Print Assumptions C127_both_refuted.
(** That the simulation is done when it says so is false: a disconnection may be
    left to be told. *)
Definition undone : list turn := [Turn fives (fun _ => true) [(1, [(SConnect at2, Draw true (fun n => n - 1) 9000 true)]); (2, []); (3, [])] [(SDisconnect at2 0, dlong)]].
Theorem C127_done_refuted : exists ws t range s log s' time n a r, sim_run ws (sim0 t range true) = Val (s, log) /\ is_done s = true /\
  sim_step (pop []) s = Val (s', [SiCall time n (CDisconnected a r)]).
Proof.
  destruct (run_ex (sim_run undone (sim0 1000000 (0, 1) true)) (fun s log => is_done s = true /\ exists s', sim_step (pop []) s = Val (s', [SiCall 1000001 1 (CDisconnected at2 (ByNode 0))])))
    as (s & log & E1 & E2 & s' & E3); [vm_compute; split; [reflexivity|eexists; reflexivity]|].
  exists undone, 1000000, (0, 1), s, log, s', 1000001, 1, at2, (ByNode 0). exact (conj E1 (conj E2 E3)).
Qed.
Print Assumptions C127_done_refuted.

(** ** C128: time and timers *)
Theorem C128_time ws t range fails s log : sim_run ws (sim0 t range fails) = Val (s, log) ->
  StronglySorted N.le (item_time <$> log) /\ Forall (fun i => item_time i <= si_time s) log.
Proof. intros E. exact (j_log _ _ (run_ok _ _ _ _ [] E (sim0_ok _ _ _))). Qed.
Print Assumptions C128_time.
(** Every time a node is woken goes with a timer of its own that it set before,
    a different one each time, and is not before that timer. *)
Theorem C128_timers ws t range fails s log : sim_run ws (sim0 t range fails) = Val (s, log) ->
  forall n, exists ps : list (N * N), ps.*1 ⊆+ timers n log /\ ps.*2 ≡ₚ wakes n log /\ Forall (fun p => p.1 <= p.2) ps.
Proof. intros E n. exact (wakes_run ws t range fails s log E n). Qed.
Print Assumptions C128_timers.
Example C128_case : exists s log, sim_run [from1 [(STimer 10, dlong); (STimer 30, dlong)]; pop [(STimer 5, dlong)]; pop []; pop []] (sim0 1000 (0, 1) false) = Val (s, log) /\
  timers 1 log = [1010; 1030; 1035] /\ wakes 1 log = [1010; 1030; 1035] /\ item_time <$> log = [1000; 1000; 1010; 1030; 1030; 1035].
Proof. apply run_ex. vm_compute. repeat split. Qed.
(** With delays of at least a millisecond and without failures, every timer of a
    node has been followed, once the simulation is done, by a wake-up of that
    node, or of another node at exactly its time. *)
Theorem C128_fired ws t range s log : Forall spaced ws -> sim_run ws (sim0 t range false) = Val (s, log) -> is_done s = true ->
  forall n T, T ∈ timers n log -> exists m u, (m = n \/ u = T) /\ T <= u /\ u ∈ wakes m log.
Proof. exact (fired_run ws t range s log). Qed.
Print Assumptions C128_fired.
Definition meeting : list turn := [Turn fives never [(1, [(STimer 10, dlong)]); (2, [(STimer 10, dlong); (STimer 12, dlong)]); (3, [])] []; pop []].
Example C128_fired_case : exists s log, Forall spaced meeting /\ sim_run meeting (sim0 1000 (0, 1) false) = Val (s, log) /\ is_done s = true /\
  timers 2 log = [1010; 1012] /\ wakes 1 log = [1010] /\ wakes 2 log = [1012].
Proof.
  destruct (run_ex (sim_run meeting (sim0 1000 (0, 1) false)) (fun s log => is_done s = true /\ timers 2 log = [1010; 1012] /\ wakes 1 log = [1010] /\ wakes 2 log = [1012])) as (s & log & E1 & E2); [vm_compute; repeat split|].
  exists s, log. split; [spaced|exact (conj E1 E2)].
Qed.
(** Not every timer goes off: one set for the instant of the timer of another
    node is forgotten. *)
Theorem C128_forgotten_refuted : exists ws t range s log n, Forall spaced ws /\ sim_run ws (sim0 t range false) = Val (s, log) /\ is_done s = true /\
  timers n log <> [] /\ wakes n log = [].
Proof.
  set (ws := [Turn fives never [(1, [(STimer 10, dlong)]); (2, [(STimer 10, dlong)]); (3, [])] []; pop []]).
  destruct (run_ex (sim_run ws (sim0 1000 (0, 1) false)) (fun s log => is_done s = true /\ timers 2 log <> [] /\ wakes 2 log = [])) as (s & log & E1 & E2); [vm_compute; repeat split; discriminate|].
  exists ws, 1000, (0, 1), s, log, 2. split; [unfold ws; spaced|exact (conj E1 E2)].
Qed.
Print Assumptions C128_forgotten_refuted.
