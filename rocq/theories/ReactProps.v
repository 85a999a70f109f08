(** Property theorems about the reactor (C78 - C82), each followed by a concrete
    case. *)
From Verif Require Import Base RunEx AddrModel PeerModel UtilModel UtilSpec UtilProps NetModel NetSpec ReactModel ReactSpec ReactProofs.
Open Scope N_scope.

(** ** C78 *)

(** As long as no address has two connections, the reactor never panics,
    whatever the network does and the service asks for. *)
Theorem C78_no_panic sort os s t o : rrun sort os r_new = Val (Some s, t) -> each fresh_op t -> honest_op o ->
  exists r, rstep sort o s = Val r.
Proof.
  intros R F H. destruct (rrun_new sort os _ _ R F) as [I _]. exact (rstep_no_panic sort o s _ _ (I s eq_refl) H).
Qed.
Print Assumptions C78_no_panic.

(** ** C79 *)

(** What the system took on a connection followed by what is still buffered is
    what the service asked to send on it, in order; so nothing is lost,
    repeated, or carried over to another connection. *)
Theorem C79_sent sort os s t a : rrun sort os r_new = Val (Some s, t) -> each fresh_op t ->
  match wire_of a t with
  | NoWire => r_peers s !! a = None
  | Wire _ asked sent => exists so, r_peers s !! a = Some so /\ asked = sent ++ so_buffer so
  end.
Proof.
  intros R F. destruct (rrun_new sort os _ _ R F) as [I _]. destruct (I s eq_refl) as [_ V].
  destruct (V a) as [(_ & E & P & _)|(so & l & x & y & P & E & X & _)]; unfold wires in E; rewrite E; [done|by exists so].
Qed.
Print Assumptions C79_sent.

(** ** C80 *)

(** The service is told of a connection in order: of the attempt or the incoming
    connection, of its success, of bytes, of its end, and never of anything
    about an address that has no connection. *)
Theorem C80_notes sort os s t a : rrun sort os r_new = Val (s, t) -> each fresh_op t -> each eager_op t ->
  all_expected a Closed (t ≫= snd).
Proof. intros R F E. exact (proj2 (rrun_new sort os _ _ R F) E a). Qed.
Print Assumptions C80_notes.

(** The reactor has a socket for exactly the connections the service knows of. *)
Theorem C80_known sort os s t a : rrun sort os r_new = Val (Some s, t) -> each fresh_op t ->
  (state_of a t = Closed <-> r_peers s !! a = None) /\ (state_of a t = Dialing <-> a ∈ r_connecting s).
Proof.
  intros R F. destruct (rrun_new sort os _ _ R F) as [I _]. destruct (I s eq_refl) as [_ V].
  destruct (V a) as [(E & _ & P & C & _)|(so & l & x & y & P & _ & _ & _ & _ & [(E & _ & C)|(E & C)])];
    unfold states in E; rewrite E, P; split; split; intros; try done; congruence.
Qed.
Print Assumptions C80_known.

(** ** C81 *)

(** Unsent bytes are not forgotten: as long as there are any, the reactor asks
    to be told when the socket is writable, unless the system has declared the
    socket invalid. *)
Theorem C81_waited_for sort os s t a so : rrun sort os r_new = Val (Some s, t) -> each fresh_op t ->
  r_peers s !! a = Some so -> so_buffer so <> [] ->
  (a, true) ∈ r_sources s \/ exists asked sent, wire_of a t = Wire true asked sent.
Proof.
  intros R F P B. destruct (rrun_new sort os _ _ R F) as [I _]. destruct (I s eq_refl) as [_ V].
  destruct (view_open _ _ _ _ _ (V a) P) as (lost & x & y & E & _ & _ & H & _). unfold wires in E.
  destruct lost; [right; by exists x, y|left; by apply H].
Qed.
Print Assumptions C81_waited_for.

(** Witness: a run with a dialled and an accepted peer. *)
Fixpoint each_from (P : rop -> rtrace -> Prop) (p t : rtrace) : Prop :=
  match t with
  | [] => True
  | (o, n) :: q => P o p /\ each_from P (p ++ [(o, n)]) q
  end.
Lemma each_from_each P t : each_from P [] t -> each P t.
Proof.
  assert (forall t p, each_from P p t -> forall p' o n q, t = p' ++ (o, n) :: q -> P o (p ++ p')) as H.
  { clear t. induction t as [|[o n] t IH]; intros p E p' o' n' q Eq; [by destruct p'|].
    destruct E as [E1 E2]. destruct p' as [|x p']; cbn in Eq.
    - injection Eq as <- <- <-. by rewrite app_nil_r.
    - injection Eq as <- ->. specialize (IH _ E2 p' o' n' q eq_refl). by rewrite <- app_assoc in IH. }
  intros E p o n q Eq. exact (H t [] E p o n q Eq).
Qed.
Definition rc_a : sockaddr := ((true, 7), 8333).
Definition rc_b : sockaddr := ((true, 8), 50000).
(** Two bytes are taken, then the socket blocks. *)
Definition rc_two : answers := Answers true (fun k _ => match k with O => WOk 2 | _ => WErr would_block end) None (ROk [1; 2; 3]).
Definition rc_all : answers := Answers true (fun _ b => WOk (lenN b)) None (RErr would_block).
Definition rc_gone : answers := Answers true (fun _ _ => WErr 32) None (ROk []).
Definition rc_ops : list rop :=
  [ROut 0 DialOk (OConnect rc_a); ROut 0 DialOk (OWrite rc_a [5; 6]); RAccept rc_b true; ROut 0 DialOk (OTimer 500);
   RPoll 10 [rc_b; rc_a]; RReady rc_b false false true rc_two; RReady rc_a false true true rc_two;
   ROut 10 DialOk (OWrite rc_a [7; 8; 9]); RPoll 20 [rc_a]; RReady rc_a false true false rc_two].
Definition rc_sort : timers unit -> timers unit := ex_sort.

Lemma rc_run : exists s t, rrun rc_sort rc_ops r_new = Val (Some s, t) /\
  (t ≫= snd = [NAttempted rc_a; NConnected rc_b Inbound; NTick 10; NBytes rc_b [1; 2; 3]; NConnected rc_a Outbound; NSent rc_a [5; 6];
               NBytes rc_a [1; 2; 3]; NTick 20; NSent rc_a [7; 8]] /\
   each_from fresh_op [] t /\ each_from eager_op [] t /\ wire_of rc_a t = Wire false [5; 6; 7; 8; 9] [5; 6; 7; 8] /\
   r_peers s !! rc_a = Some (Sock [9] Outbound) /\ r_sources s = [(rc_a, true); (rc_b, true)]).
Proof.
  assert (match rrun rc_sort rc_ops r_new with
    | Val (Some s, t) => (t ≫= snd = [NAttempted rc_a; NConnected rc_b Inbound; NTick 10; NBytes rc_b [1; 2; 3]; NConnected rc_a Outbound; NSent rc_a [5; 6];
               NBytes rc_a [1; 2; 3]; NTick 20; NSent rc_a [7; 8]] /\
       each_from fresh_op [] t /\ each_from eager_op [] t /\ wire_of rc_a t = Wire false [5; 6; 7; 8; 9] [5; 6; 7; 8] /\
       r_peers s !! rc_a = Some (Sock [9] Outbound) /\ r_sources s = [(rc_a, true); (rc_b, true)])
    | _ => False end) as H by (vm_compute; repeat split; intros; discriminate).
  destruct (rrun rc_sort rc_ops r_new) as [[[s|] t]|]; [|done..]. exists s, t. split; [done|exact H].
Qed.
(** The run meets the hypotheses of the theorems above. *)
Example C79_case : exists s t, rrun rc_sort rc_ops r_new = Val (Some s, t) /\ each fresh_op t /\ each eager_op t /\
  wire_of rc_a t = Wire false [5; 6; 7; 8; 9] [5; 6; 7; 8] /\ state_of rc_a t = Open /\
  r_peers s !! rc_a = Some (Sock [9] Outbound) /\ (rc_a, true) ∈ r_sources s.
Proof.
  destruct rc_run as (s & t & R & N & F & E & W & P & S). exists s, t. split; [exact R|].
  split; [by apply each_from_each|]. split; [by apply each_from_each|]. split; [exact W|].
  split; [unfold state_of; rewrite N; vm_compute; reflexivity|]. split; [exact P|]. rewrite S. by left.
Qed.

(** With two connections of one address the claim fails: a peer that connects
    from the address it is being dialled at, and resets the connection, can stop
    the program (if the descriptor of the socket that was replaced is in use
    again, so that it is not reported as invalid). *)
Theorem C78_duplicate_refuted : exists os s t o,
  rrun rc_sort os r_new = Val (Some s, t) /\ each eager_op t /\ honest_op o /\ rstep rc_sort o s = Panic (PAssert 416).
Proof.
  set (os := [ROut 0 DialOk (OConnect rc_a); RAccept rc_a true; RPoll 10 [rc_a; rc_a]; RReady rc_a false false true rc_gone]).
  assert (match rrun rc_sort os r_new with
    | Val (Some s, t) => each_from eager_op [] t /\ rstep rc_sort (RReady rc_a false true true rc_gone) s = Panic (PAssert 416)
    | _ => False end) as H.
  { vm_compute. repeat split. intros. discriminate. }
  destruct (rrun rc_sort os r_new) as [[[s|] t]|] eqn:R; [|done..]. destruct H as [H1 H2].
  exists os, s, t, (RReady rc_a false true true rc_gone). split; [exact R|]. split; [by apply each_from_each|].
  split; [|exact H2]. intros k b n E. discriminate E.
Qed.
Print Assumptions C78_duplicate_refuted.

(** And the service can be told twice that the same incoming connection is there. *)
Theorem C80_twice_refuted : exists os s t,
  rrun rc_sort os r_new = Val (Some s, t) /\ each eager_op t /\
  t ≫= snd = [NAttempted rc_a; NConnected rc_a Inbound; NTick 10; NConnected rc_a Inbound; NSent rc_a []].
Proof.
  set (os := [ROut 0 DialOk (OConnect rc_a); RAccept rc_a true; RPoll 10 [rc_a]; RReady rc_a false true true rc_all]).
  assert (match rrun rc_sort os r_new with
    | Val (Some s, t) => each_from eager_op [] t /\
        t ≫= snd = [NAttempted rc_a; NConnected rc_a Inbound; NTick 10; NConnected rc_a Inbound; NSent rc_a []]
    | _ => False end) as H.
  { vm_compute. repeat split. }
  destruct (rrun rc_sort os r_new) as [[[s|] t]|] eqn:R; [|done..]. destruct H as [H1 H2].
  exists os, s, t. split; [exact R|]. split; [by apply each_from_each|exact H2].
Qed.
Print Assumptions C80_twice_refuted.

(** ** C82 *)

(** When the poll times out the service is woken if and only if a timer is due,
    and exactly the timers that are due are removed. *)
Theorem C82_woken sort os s t now s' n : sorts sort -> rrun sort os r_new = Val (Some s, t) ->
  rstep sort (RIdle now) s = Val (Goes s' n) ->
  (NTimer ∈ n <-> exists e, e ∈ r_timers s /\ e.2 <= now) /\
  (forall e, e ∈ r_timers s' <-> e ∈ r_timers s /\ now < e.2).
Proof. intros HS. exact (idle_wakes sort HS os s t now s' n). Qed.
Print Assumptions C82_woken.

(** Rounds in which a peer has sent something. *)
Definition rc_busy (i k : nat) : list rop :=
  concat (map (fun j => [RPoll (1000 + N.of_nat j) [rc_b]; RReady rc_b false false true rc_two]) (seq i k)).
Definition rc_calm (e : rop * list note) : Prop :=
  (exists now l, e = (RPoll now l, [NTick now])) \/ e = (RReady rc_b false false true rc_two, [NBytes rc_b [1; 2; 3]]).
Lemma rc_busy_run (k : nat) : forall (i : nat) (s : reactor), r_ready s = [] -> r_sources s = [(rc_b, true)] ->
  r_peers s !! rc_b = Some (Sock [] Inbound) ->
  exists t : rtrace, rrun rc_sort (rc_busy i k) s = Val (Some s, t) /\ Forall rc_calm t /\
    forall j, (i <= j < i + k)%nat -> NTick (1000 + N.of_nat j) ∈ (t ≫= snd).
Proof.
  induction k as [|k IH]; intros i s Rd Sr P.
  - exists []. split; [done|]. split; [by apply Forall_nil|lia].
  - destruct s as [ps cn sr tm rd]. cbn [r_ready r_sources r_peers] in Rd, Sr, P. subst rd sr.
    destruct (IH (S i) (Reactor ps cn [(rc_b, true)] tm []) eq_refl eq_refl P) as (t & R & F & T).
    exists ((RPoll (1000 + N.of_nat i) [rc_b], [NTick (1000 + N.of_nat i)]) :: (RReady rc_b false false true rc_two, [NBytes rc_b [1; 2; 3]]) :: t).
    split; [|split].
    + change (rc_busy i (S k)) with (RPoll (1000 + N.of_nat i) [rc_b] :: RReady rc_b false false true rc_two :: rc_busy (S i) k).
      cbn [rrun rstep r_ready r_sources fmap list_fmap fst].
      destruct (decide ([rc_b] ⊆+ [rc_b])) as [_|X]; [|by destruct X]. cbn [mbind_M rrun rstep r_ready with_ready].
      rewrite bool_decide_true by done. cbn [negb mbind_M]. unfold handle_readable. cbn [r_peers with_ready]. rewrite P.
      cbn [an_read rc_two mbind_M app r_connecting r_sources r_timers].
      match goal with |- context [rrun rc_sort (rc_busy (S i) k) ?s] => change s with (Reactor ps cn [(rc_b, true)] tm []) end.
      rewrite R. done.
    + apply Forall_cons. split; [left; by eexists _, _|]. apply Forall_cons. split; [by right|done].
    + intros j Hj. cbn [mbind list_bind snd app]. destruct (decide (j = i)) as [->|Nj]; [by left|].
      right. right. apply T. lia.
Qed.
Lemma rc_calm_notes t : Forall rc_calm t -> NTimer ∉ (t ≫= snd) /\ forall p o n q, t = p ++ (o, n) :: q ->
  rc_calm (o, n) /\ forall c, foldl (after_note rc_b) c (p ≫= snd) = c.
Proof.
  intros F. split.
  - intros (e & H1 & H2)%elem_of_list_bind. apply (proj1 (Forall_forall _ _) F) in H2.
    destruct H2 as [(now & l & ->)| ->]; apply elem_of_list_singleton in H1; discriminate H1.
  - intros p o n q ->. apply Forall_app in F as [F1 [F2 _]%Forall_cons]. split; [done|].
    clear F2. induction F1 as [|e p [(now & l & ->)| ->] _ IH]; intros c; [done|apply IH..].
Qed.

(** Polls that return data keep timers from being looked at: however long a
    timer is overdue, there is a run in which the service has not been woken. A
    peer that always has something to send delays all timers. *)
Theorem C82_starved_refuted : forall k : nat, exists os s t,
  rrun rc_sort os r_new = Val (Some s, t) /\ each fresh_op t /\ each eager_op t /\
  os !! 1%nat = Some (ROut 0 DialOk (OTimer 500)) /\ NTimer ∉ (t ≫= snd) /\
  forall j, (j < k)%nat -> NTick (1000 + N.of_nat j) ∈ (t ≫= snd).
Proof.
  intros k.
  set (s0 := Reactor (<[rc_b := Sock [] Inbound]> ∅) ∅ [(rc_b, true)] [(tt, 500)] []).
  destruct (rc_busy_run k 0 s0 eq_refl eq_refl (lookup_insert _ _ _)) as (t & R & F & T).
  apply rc_calm_notes in F as [N F].
  set (t' := (RAccept rc_b true, [NConnected rc_b Inbound]) :: (ROut 0 DialOk (OTimer 500), []) :: t).
  exists (RAccept rc_b true :: ROut 0 DialOk (OTimer 500) :: rc_busy 0 k), s0, t'.
  split; [|split; [|split; [|split; [done|split]]]].
  - cbn [rrun rstep mbind_M r_ready register_peer r_new process].
    match goal with |- context [rrun rc_sort (rc_busy 0 k) ?s] => change s with s0 end. rewrite R. done.
  - intros [|e1 [|e2 p]] o n q E; injection E.
    + by intros _ <- <-.
    + by intros _ <- <- <-.
    + intros E' <- <-. destruct (F p o n q E') as [[(now & l & H)|H] _]; by injection H as -> _.
  - intros [|e1 [|e2 p]] o n q E; injection E.
    + by intros _ <- <-.
    + by intros _ <- <- <-.
    + intros E' <- <-. destruct (F p o n q E') as [[(now & l & H)|H] C]; injection H as -> _; [done|].
      unfold eager_op, state_of. cbn [mbind list_bind snd app foldl after_note].
      destruct (decide (rc_b = rc_b)); [|done]. rewrite C. discriminate.
  - unfold t'. cbn [mbind list_bind snd app]. intros [H|H]%elem_of_cons; [discriminate H|done].
  - intros j Hj. unfold t'. cbn [mbind list_bind snd app]. right. apply T. lia.
Qed.
Print Assumptions C82_starved_refuted.

(** A timer that is asked for up to a second after another one is dropped, and
    the service is only woken before the time it asked for. *)
Theorem C82_early_refuted : exists s t,
  rrun rc_sort [ROut 0 DialOk (OTimer 5000); ROut 0 DialOk (OTimer 5900); RIdle 5000; RIdle 5900; RIdle 10000] r_new = Val (Some s, t) /\
  t ≫= snd = [NTick 5000; NTimer; NTick 5900; NTick 10000] /\ r_timers s = [].
Proof.
  assert (match rrun rc_sort [ROut 0 DialOk (OTimer 5000); ROut 0 DialOk (OTimer 5900); RIdle 5000; RIdle 5900; RIdle 10000] r_new with
    | Val (Some s, t) => t ≫= snd = [NTick 5000; NTimer; NTick 5900; NTick 10000] /\ r_timers s = []
    | _ => False end) as H by (vm_compute; by split).
  destruct (rrun _ _ _) as [[[s|] t]|]; [|done..]. exists s, t. by split.
Qed.
Print Assumptions C82_early_refuted.

(** Two timers of which one is due. *)
Example C82_case : sorts rc_sort /\ exists s t s' n,
  rrun rc_sort [ROut 0 DialOk (OTimer 5000); ROut 100 DialOk (OTimer 2000)] r_new = Val (Some s, t) /\
  rstep rc_sort (RIdle 2100) s = Val (Goes s' n) /\ n = [NTick 2100; NTimer] /\ r_timers s' = [(tt, 5000)].
Proof.
  split; [exact ex_sort_sorts|].
  assert (match rrun rc_sort [ROut 0 DialOk (OTimer 5000); ROut 100 DialOk (OTimer 2000)] r_new with
    | Val (Some s, t) => match rstep rc_sort (RIdle 2100) s with
        | Val (Goes s' n) => n = [NTick 2100; NTimer] /\ r_timers s' = [(tt, 5000)] | _ => False end
    | _ => False end) as H by (vm_compute; by split).
  destruct (rrun _ _ _) as [[[s|] t]|]; [|done..]. destruct (rstep _ _ _) as [[| |s' n]|] eqn:E; [done..| |done].
  exists s, t, s', n. by split.
Qed.
