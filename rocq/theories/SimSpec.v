(** What a run of the simulator means, told from its log. *)
From Verif Require Import Base SimModel.
Open Scope N_scope.

(** Whether a node was told that it is connected to a node, and not since that
    it no longer is. *)
Definition talks (n r : N) (b : bool) (i : sitem) : bool :=
  match i with
  | SiCall _ n' (CConnected a _ _) => if (n' =? n) && (a.1 =? r) then true else b
  | SiCall _ n' (CDisconnected a _) => if (n' =? n) && (a.1 =? r) then false else b
  | _ => b
  end.
Definition talking (n r : N) (l : list sitem) : bool := foldl (talks n r) false l.
(** The messages that a node wrote to another while connected to it. *)
Definition writes_to (n r : N) (b : bool) (i : sitem) : list N :=
  match i with SiOut _ n' (SWrite to m) => if (n' =? n) && (to.1 =? r) && b then [m] else [] | _ => [] end.
Fixpoint sent_from (n r : N) (b : bool) (l : list sitem) : list N :=
  match l with [] => [] | i :: l' => writes_to n r b i ++ sent_from n r (talks n r b i) l' end.
Definition sent (n r : N) (l : list sitem) : list N := sent_from n r false l.
(** The messages that a node was told it received from an address, or from any
    address of a node. *)
Definition received_from (r : N) (p : saddr -> bool) (l : list sitem) : list N :=
  omap (fun i => match i with SiCall _ n (CReceived a m) => if (n =? r) && p a then Some m else None | _ => None end) l.
Definition received (r : N) (a : saddr) (l : list sitem) : list N := received_from r (fun b => bool_decide (b = a)) l.
Definition heard (r n : N) (l : list sitem) : list N := received_from r (fun b => b.1 =? n) l.
(** When the timers of a node are due, and when it was woken. *)
Definition timers (n : N) (l : list sitem) : list N :=
  omap (fun i => match i with SiOut t n' (STimer d) => if n' =? n then Some (t + d) else None | _ => None end) l.
Definition wakes (n : N) (l : list sitem) : list N :=
  omap (fun i => match i with SiCall t n' CTimer => if n' =? n then Some t else None | _ => None end) l.
Definition item_time (i : sitem) : N := match i with SiOut t _ _ => t | SiCall t _ _ => t end.

(** Random numbers are below their bounds. *)
Definition fair_draw (d : draw) : Prop := forall n, 0 < n -> dr_below d n < n.
Definition all_outs (w : turn) : list (sout * draw) := concat (tn_pipes w).*2 ++ tn_react w.
(** Nothing happens at the same instant: latencies and timers are at least a
    millisecond. *)
Definition spaced (w : turn) : Prop :=
  (forall p, 1 <= tn_lat w p) /\ Forall (fun x => fair_draw x.2 /\ match x.1 with STimer d => 1 <= d | _ => True end) (all_outs w).
(** Whether a node was told that it attempts a connection to a node, and since
    neither that the connection is there nor that it is lost. *)
Definition attempts (n r : N) (b : bool) (i : sitem) : bool :=
  match i with
  | SiCall _ n' (CAttempted a) => if (n' =? n) && (a.1 =? r) then true else b
  | SiCall _ n' (CConnected a _ SOutbound) | SiCall _ n' (CDisconnected a _) => if (n' =? n) && (a.1 =? r) then false else b
  | _ => b
  end.
Definition attempting (n r : N) (l : list sitem) : bool := foldl (attempts n r) false l.
(** A connection is told when there is none, if outbound then after an attempt;
    a disconnection when there is a connection or an attempt. *)
Definition call_fits (l : list sitem) (i : sitem) : Prop :=
  match i with
  | SiCall _ n (CConnected a _ SInbound) => talking n a.1 l = false
  | SiCall _ n (CConnected a _ SOutbound) => talking n a.1 l = false /\ attempting n a.1 l = true
  | SiCall _ n (CDisconnected a _) => talking n a.1 l = true \/ attempting n a.1 l = true
  | _ => True
  end.
Definition calls_fit (l : list sitem) : Prop := forall l1 i l2, l = l1 ++ i :: l2 -> call_fits l1 i.
(** The simulation is always given these nodes, and they connect to each other
    only. *)
Definition among (nodes : list N) (w : turn) : Prop :=
  (tn_pipes w).*1 = nodes /\
  (forall n os o d, (n, os) ∈ tn_pipes w -> (o, d) ∈ os -> match o with SConnect to => to.1 ∈ nodes /\ to.1 <> n | _ => True end) /\
  (forall o d, (o, d) ∈ tn_react w -> match o with SConnect to => to.1 ∈ nodes | _ => True end).
