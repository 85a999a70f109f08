(** The network simulator: net/src/simulator.rs.

    The simulated nodes are not modelled: what they put out is given with each
    step, so that everything shown holds for all nodes. Messages, reasons and
    events are numbers, the simulator does not look into them. Times are in
    milliseconds and do not overflow (u128). Random numbers are given. Logging
    is left out. *)
From Verif Require Import Base.
Open Scope N_scope.

(** [net::SocketAddr]: IP address and port; a [NodeId] is an IP address, lines
    22-24. *)
Notation saddr := (N * N)%type.
Inductive slink := SInbound | SOutbound.
(** Reasons of a disconnection: that of the node, or an error, lines 496-500
    and 563-567. *)
Inductive sreason := ByNode (r : N) | UnexpectedEof | ConnectionReset.

(** What a node puts out, net/src/lib.rs:41-52 [Io]. *)
Inductive sout :=
| SWrite (to : saddr) (m : N)
| SConnect (to : saddr)
| SDisconnect (from : saddr) (r : N)
| STimer (d : N)
| SEvent (e : N).

(** Lines 38-61 [Input]. *)
Inductive sinput :=
| InConnecting (a : saddr)
| InConnected (a local : saddr) (l : slink)
| InDisconnected (a : saddr) (r : sreason)
| InReceived (a : saddr) (m : N)
| InWake.
(** Lines 63-73 [Scheduled]. *)
Record sched := Sched { sd_node : N; sd_remote : saddr; sd_input : sinput }.
(** Lines 106-111 [Inbox]: in the order of the times, which are distinct. *)
Notation inbox := (list (N * sched)).
(** Lines 172-195 [Simulation], without the start time and the source of random
    numbers; [si_range] and [si_fails] are the options (lines 145-151): the
    latencies, and whether the rate of failures is above zero. *)
Record sim := Sim {
  si_inbox : inbox;
  si_events : gmap N (list N);
  si_priority : list sched;
  si_lat : gmap (N * N) N;
  si_part : gset (N * N);
  si_conns : gmap (N * N) N;
  si_atts : gset (N * N);
  si_time : N;
  si_range : N * N;
  si_fails : bool;
}.
(** Lines 200-218 [new]. *)
Definition sim0 (time : N) (range : N * N) (fails : bool) : sim := Sim [] ∅ [] ∅ ∅ ∅ ∅ time range fails.
Definition set_inbox (l : inbox) (s : sim) : sim := Sim l (si_events s) (si_priority s) (si_lat s) (si_part s) (si_conns s) (si_atts s) (si_time s) (si_range s) (si_fails s).

(** Lines 114-122 [insert]: the first time from [t] on that is not taken; the
    times of the map are gone through in their order. *)
Fixpoint put (t : N) (x : sched) (l : inbox) : inbox :=
  match l with
  | [] => [(t, x)]
  | (t', y) :: l' =>
      if t <? t' then (t, x) :: l
      else if t =? t' then (t', y) :: put (t + 1) x l'
      else (t', y) :: put t x l'
  end.
(** [BTreeMap::remove], line 358. *)
Definition take_out (t : N) (l : inbox) : inbox := List.filter (fun p => negb (p.1 =? t)) l.
(** [BTreeMap::get], line 578. *)
Definition get (t : N) (l : inbox) : option sched := snd <$> List.find (fun p => p.1 =? t) l.
(** Lines 132-142 [last]: its time. *)
Definition last_between (node : N) (remote : saddr) (l : inbox) : option N :=
  fst <$> last (List.filter (fun p => (sd_node p.2 =? node) && bool_decide (sd_remote p.2 = remote)) l).

(** Random numbers: coins, numbers below a bound, ports. *)
Record draw := Draw { dr_coin : bool; dr_below : N -> N; dr_port : N; dr_hangs : bool }.
(** Lines 243-267 [latency]. *)
Definition latency (d : draw) (from to : N) (s : sim) : N :=
  match si_lat s !! (from, to) with
  | Some l => if l <=? 1 then l else if dr_coin d then l + dr_below d l else l - dr_below d (l / 2)
  | None => 1
  end.
(** Lines 611-614 [is_partitioned]. *)
Definition is_partitioned (a b : N) (s : sim) : bool := bool_decide ((a, b) ∈ si_part s) || bool_decide ((b, a) ∈ si_part s).
(** Line 20 [MAX_EVENTS]. *)
Definition max_events : N := 2048.

(** Lines 415-604 [schedule]. *)
Definition schedule (d : draw) (node : N) (o : sout) (s : sim) : M sim :=
  match o with
  | SWrite to m =>
      Val (match si_conns s !! (node, to.1) with
           | None => s
           | Some port =>
               let sender := (node, port) in
               if is_partitioned node to.1 s then s
               else
                 let time := default (si_time s) (last_between to.1 sender (si_inbox s)) + latency d node to.1 s in
                 set_inbox (put time (Sched to.1 sender (InReceived sender m)) (si_inbox s)) s
           end)
  | SConnect to =>
      assertM (negb (to.1 =? node)) 471
       (let local := (node, dr_port d) in
        let lat := latency d node to.1 s in
        let l := put (si_time s + 1) (Sched node to (InConnecting to)) (si_inbox s) in
        Val (if is_partitioned node to.1 s then
               set_inbox (if dr_hangs d then l else put (si_time s + 1) (Sched node to (InDisconnected to UnexpectedEof)) l) s
             else
               let l := put (si_time s + lat) (Sched to.1 local (InConnected local to SInbound)) l in
               set_inbox (put (si_time s + lat) (Sched node to (InConnected to local SOutbound)) l) s))
  | SDisconnect from r =>
      let s := Sim (si_inbox s) (si_events s) (si_priority s ++ [Sched node from (InDisconnected from (ByNode r))]) (si_lat s) (si_part s)
                   (si_conns s) (si_atts s) (si_time s) (si_range s) (si_fails s) in
      Val (match si_conns s !! (node, from.1) with
           | None => s
           | Some port =>
               let local := (node, port) in
               set_inbox (put (si_time s + latency d node from.1 s) (Sched from.1 local (InDisconnected local ConnectionReset)) (si_inbox s)) s
           end)
  | STimer dur =>
      let time := si_time s + dur in
      Val (match get time (si_inbox s) with
           | Some (Sched _ _ InWake) => s
           | _ => set_inbox (put time (Sched node (0, 0) InWake) (si_inbox s)) s
           end)
  | SEvent e =>
      let es := default [] (si_events s !! node) in
      Val (Sim (si_inbox s) (<[node := if max_events <=? lenN es then es else es ++ [e]]> (si_events s)) (si_priority s) (si_lat s) (si_part s)
               (si_conns s) (si_atts s) (si_time s) (si_range s) (si_fails s))
  end.

(** What the simulator tells a node, and what it is told, with the time. *)
Inductive scall :=
| CAttempted (a : saddr)
| CConnected (a local : saddr) (l : slink)
| CDisconnected (a : saddr) (r : sreason)
| CTimer
| CReceived (a : saddr) (m : N).
Inductive sitem :=
| SiOut (t node : N) (o : sout)
| SiCall (t node : N) (c : scall).

Fixpoint schedule_all (node : N) (os : list (sout * draw)) (s : sim) : M (sim * list sitem) :=
  match os with
  | [] => Val (s, [])
  | (o, d) :: os' =>
      s1 <-- schedule d node o s ;;
      '(s2, x) <-- schedule_all node os' s1 ;;
      Val (s2, SiOut (si_time s) node o :: x)
  end.
(** Lines 335-341: what is in the pipes. *)
Fixpoint schedule_pipes (l : list (N * list (sout * draw))) (s : sim) : M (sim * list sitem) :=
  match l with
  | [] => Val (s, [])
  | (node, os) :: l' =>
      '(s, x) <-- schedule_all node os s ;;
      '(s, y) <-- schedule_pipes l' s ;;
      Val (s, x ++ y)
  end.

(** Pairs of distinct nodes, as the loops of lines 303-304 and 323-324. *)
Fixpoint pairs_of (l : list N) : list (N * N) :=
  match l with [] => [] | x :: l' => map (pair x) l' ++ pairs_of l' end.
Definition or_insert (k : N * N) (v : N) (m : gmap (N * N) N) : gmap (N * N) N :=
  match m !! k with Some _ => m | None => <[k := v]> m end.
(** Lines 301-315. *)
Definition configure (lat : N * N -> N) (nodes : list N) (s : sim) : sim :=
  if (si_range s).1 <? (si_range s).2 then
    Sim (si_inbox s) (si_events s) (si_priority s)
        (foldl (fun m p => or_insert (p.2, p.1) (lat p) (or_insert p (lat p) m)) (si_lat s) (pairs_of nodes))
        (si_part s) (si_conns s) (si_atts s) (si_time s) (si_range s) (si_fails s)
  else s.
(** Lines 322-332, and 606-609 [is_fallible]. *)
Definition divide (fail : N * N -> bool) (nodes : list N) (s : sim) : sim :=
  if (si_time s / 1000) mod 10 =? 0 then
    Sim (si_inbox s) (si_events s) (si_priority s) (si_lat s)
        (foldl (fun m p => if si_fails s && fail p then m ∪ {[p]} else m ∖ {[p]}) (si_part s) (pairs_of nodes))
        (si_conns s) (si_atts s) (si_time s) (si_range s) (si_fails s)
  else s.

(** Line 343 and 345: the next input, with its time. *)
Definition next_input (s : sim) : option (N * sched * sim) :=
  match si_priority s with
  | x :: ps => Some (si_time s, x, Sim (si_inbox s) (si_events s) ps (si_lat s) (si_part s) (si_conns s) (si_atts s) (si_time s) (si_range s) (si_fails s))
  | [] => match si_inbox s with (t, x) :: _ => Some (t, x, s) | [] => None end
  end.
Definition with_links (conns : gmap (N * N) N) (atts : gset (N * N)) (s : sim) : sim :=
  Sim (si_inbox s) (si_events s) (si_priority s) (si_lat s) (si_part s) conns atts (si_time s) (si_range s) (si_fails s).
(** Lines 365-401: what the node is told. *)
Definition give (x : sched) (s : sim) : M (sim * option scall) :=
  match sd_input x with
  | InConnecting a =>
      let k := (sd_node x, a.1) in
      Val (with_links (si_conns s) (si_atts s ∪ {[k]}) s, if bool_decide (k ∈ si_atts s) then None else Some (CAttempted a))
  | InConnected a local l =>
      let k := (sd_node x, a.1) in
      let out := match l with SOutbound => true | SInbound => false end in
      let atts := if out then si_atts s ∖ {[k]} else si_atts s in
      if negb out || bool_decide (k ∈ si_atts s) then
        Val (with_links (<[k := local.2]> (si_conns s)) atts s, match si_conns s !! k with None => Some (CConnected a local l) | Some _ => None end)
      else Val (with_links (si_conns s) atts s, None)
  | InDisconnected a r =>
      let k := (sd_node x, a.1) in
      let attempt := bool_decide (k ∈ si_atts s) in
      let connection := bool_decide (is_Some (si_conns s !! k)) in
      assertM (negb (attempt && connection)) 391
       (Val (with_links (delete k (si_conns s)) (si_atts s ∖ {[k]}) s, if attempt || connection then Some (CDisconnected a r) else None))
  | InWake => Val (s, Some CTimer)
  | InReceived a m => Val (s, Some (CReceived a m))
  end.

(** One call of [step_], lines 300-413: random numbers, the nodes with what is
    in their pipes, and what the node put out that was told something. *)
Record turn := Turn { tn_lat : N * N -> N; tn_fail : N * N -> bool; tn_pipes : list (N * list (sout * draw)); tn_react : list (sout * draw) }.
Definition sim_step (w : turn) (s : sim) : M (sim * list sitem) :=
  let nodes := (tn_pipes w).*1 in
  let s := divide (tn_fail w) nodes (configure (tn_lat w) nodes s) in
  '(s, x) <-- schedule_pipes (tn_pipes w) s ;;
  match next_input s with
  | None => Val (s, x)
  | Some (t, n, s) =>
      assertM (si_time s <=? t) 355
       (let s := Sim (take_out t (si_inbox s)) (si_events s) (si_priority s) (si_lat s) (si_part s) (si_conns s) (si_atts s) t (si_range s) (si_fails s) in
        if existsb (N.eqb (sd_node n)) nodes then
          '(s, c) <-- give n s ;;
          '(s, y) <-- schedule_all (sd_node n) (tn_react w) s ;;
          Val (s, x ++ match c with Some c => [SiCall t (sd_node n) c] | None => [] end ++ y)
        else Panic (PAssert 406))
  end.
Fixpoint sim_run (ws : list turn) (s : sim) : M (sim * list sitem) :=
  match ws with
  | [] => Val (s, [])
  | w :: ws' => '(s, x) <-- sim_step w s ;; '(s, y) <-- sim_run ws' s ;; Val (s, x ++ y)
  end.
(** Lines 219-222 [is_done] and 231-237 [is_settled]. *)
Definition is_done (s : sim) : bool := match si_inbox s with [] => true | _ => false end.
Definition is_settled (s : sim) : bool := forallb (fun p => match sd_input p.2 with InWake => true | _ => false end) (si_inbox s).
