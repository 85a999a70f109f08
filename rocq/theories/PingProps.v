(** Property C49, dead peers are detected and live ones kept. *)
From Verif Require Import Base PingModel PingSpec PingProofs.
Open Scope N_scope.

(** A peer is disconnected exactly at a timer at which its ping has been
    unanswered for the timeout. *)
Theorem C49_disconnect T os s xs o a : Forall fair_order os -> fair_order o -> ping_run T os ∅ = (s, xs) ->
  PoDisconnect a ∈ (ping_step T o s).2 <->
  exists now order nonces n since, o = PTimer now order nonces /\ views a os xs Gone = Unanswered n since /\ T <= now - since.
Proof.
  intros F Fo R. pose proof (pings_step T o s a Fo) as X. pose proof (run_views T os ∅ s xs a F R) as V. change (view_of ∅ a) with Gone in V. rewrite <- V.
  destruct (ping_step T o s) as [s' x]. exact (proj1 (proj2 X)).
Qed.
Print Assumptions C49_disconnect.

(** A ping is sent when a peer is negotiated, and otherwise only when no
    ping is outstanding, two minutes after the last answer. *)
Theorem C49_ping T os s xs o a n : Forall fair_order os -> fair_order o -> ping_run T os ∅ = (s, xs) ->
  PoPing a n ∈ (ping_step T o s).2 <->
  (exists now, o = PNegotiated now a n) \/
  exists now order nonces since, o = PTimer now order nonces /\ views a os xs Gone = Answered since /\ 120000 <= now - since /\ n = nonces a.
Proof.
  intros F Fo R. pose proof (pings_step T o s a Fo) as X. pose proof (run_views T os ∅ s xs a F R) as V. change (view_of ∅ a) with Gone in V. rewrite <- V.
  destruct (ping_step T o s) as [s' x]. exact (proj1 (proj2 (proj2 X)) n).
Qed.
Print Assumptions C49_ping.

(** Pings of connected peers are answered with their nonce, others not. *)
Theorem C49_pong T os s xs o a n : Forall fair_order os -> fair_order o -> ping_run T os ∅ = (s, xs) ->
  PoPong a n ∈ (ping_step T o s).2 <-> o = PPing a n /\ views a os xs Gone <> Gone.
Proof.
  intros F Fo R. pose proof (pings_step T o s a Fo) as X. pose proof (run_views T os ∅ s xs a F R) as V. change (view_of ∅ a) with Gone in V. rewrite <- V.
  destruct (ping_step T o s) as [s' x]. exact (proj1 (proj2 (proj2 (proj2 X))) n).
Qed.
Print Assumptions C49_pong.

(** At most one message or disconnect per peer and step. *)
Theorem C49_once T o s a : fair_order o -> (length (List.filter (to_peer a) (ping_step T o s).2) <= 1)%nat.
Proof. intros Fo. pose proof (pings_step T o s a Fo) as X. destruct (ping_step T o s) as [s' x]. exact (proj2 (proj2 (proj2 (proj2 X)))). Qed.
Print Assumptions C49_once.

(** The latencies kept for a connected peer are the last 64 round trip times. *)
Theorem C49_latency T os s xs a p : Forall fair_order os -> ping_run T os ∅ = (s, xs) -> s !! a = Some p ->
  pp_latencies p = take 64 (trips a os xs Gone []).
Proof. intros F R E. pose proof (run_lats T os ∅ s xs a [] F R eq_refl) as L. unfold lats in L. by rewrite E in L. Qed.
Print Assumptions C49_latency.
Example C49_latency_case :
  let os := [PNegotiated 1000 1 77; PPong 1300 1 77; PTimer 122000 (fun l => l) (fun _ => 78); PPong 122050 1 77; PPong 122100 1 78; PNegotiated 123000 2 79] in
  let '(s, xs) := ping_run 30000 os ∅ in pp_latencies <$> s !! 1 = Some [100; 300] /\ trips 1 os xs Gone [] = [100; 300].
Proof. vm_compute. split; reflexivity. Qed.

(** Two peers: one answers with the right nonce (after a wrong one), the other not. *)
Example C49_case :
  let os := [PNegotiated 1000 1 77; PNegotiated 2000 2 78; PPong 3000 1 76; PPong 4000 1 77; PPing 2 5] in
  let '(s, xs) := ping_run 30000 os ∅ in
  xs = [[PoPing 1 77]; [PoPing 2 78]; []; []; [PoPong 2 5]] /\
  views 1 os xs Gone = Answered 4000 /\ views 2 os xs Gone = Unanswered 78 2000 /\
  (ping_step 30000 (PTimer 31999 (fun l => l) (fun _ => 9)) s).2 = [] /\
  (ping_step 30000 (PTimer 32000 (fun l => l) (fun _ => 9)) s).2 = [PoDisconnect 2] /\
  (ping_step 30000 (PTimer 124000 (fun l => rev l) (fun _ => 9)) s).2 = [PoDisconnect 2; PoPing 1 9; PoTimer 30000; PoTimer 120000].
Proof. vm_compute. repeat split. Qed.

(** With every ping that is sent at a timer, a timer is set for its timeout,
    and another for the next ping. *)
Theorem C49_timer T now order nonces s a n : PoPing a n ∈ (ping_step T (PTimer now order nonces) s).2 ->
  PoTimer T ∈ (ping_step T (PTimer now order nonces) s).2 /\ PoTimer 120000 ∈ (ping_step T (PTimer now order nonces) s).2.
Proof. exact (ping_sets_timers T now order nonces s a n). Qed.
Print Assumptions C49_timer.
(** The first ping, sent when a peer is negotiated, sets none: that it is not
    answered is noticed only when a timer of something else goes off. *)
Theorem C49_first_refuted : exists os s xs, ping_run 30000 os ∅ = (s, xs) /\
  views 1 os xs Gone = Unanswered 77 1000 /\ Forall (Forall (fun y => match y with PoTimer _ => False | _ => True end)) xs.
Proof.
  exists [PNegotiated 1000 1 77], (ping_step 30000 (PNegotiated 1000 1 77) ∅).1, [[PoPing 1 77]]. split; [reflexivity|]. split; [reflexivity|].
  by repeat constructor.
Qed.
Print Assumptions C49_first_refuted.
