(** Proofs about the reactor. *)
From Verif Require Import Base AddrModel PeerModel UtilModel UtilSpec UtilProps NetModel NetSpec NetProofs ReactModel ReactSpec.
Open Scope N_scope.

(** ** Sources *)
Lemma src_set_keys a w l : (src_set a w l).*1 = l.*1.
Proof. induction l as [|[b x] l IH]; [done|]. cbn. destruct (decide (b = a)) as [->|]; [done|]. cbn. by rewrite IH. Qed.
Lemma src_set_in a w l b x : NoDup (l.*1) -> a ∈ l.*1 ->
  (b, x) ∈ src_set a w l <-> (b = a /\ x = w) \/ (b <> a /\ (b, x) ∈ l).
Proof.
  induction l as [|[c y] l IH]; cbn; [intros _ []%elem_of_nil|]. intros [N1 N2]%NoDup_cons Ha.
  destruct (decide (c = a)) as [->|Nc].
  - rewrite !elem_of_cons. split.
    + intros [[= -> ->]|H]; [by left|]. right. split; [|by right]. intros ->. apply N1. by apply (elem_of_list_fmap_1 fst) in H.
    + intros [[-> ->]|[Nb [[= -> ->]|H]]]; [by left|done|by right].
  - apply elem_of_cons in Ha as [->|Ha]; [done|]. rewrite !elem_of_cons, IH by done. split.
    + intros [[= -> ->]|[H|[H1 H2]]]; [right; split; [done|by left]|by left|right; split; [done|by right]].
    + intros [H|[H1 [H2|H2]]]; [right; by left|by left|right; by right].
Qed.
Lemma src_remove_in a l b x : NoDup (l.*1) -> (b, x) ∈ src_remove a l <-> b <> a /\ (b, x) ∈ l.
Proof.
  induction l as [|[c y] l IH]; cbn; [intros _; split; [intros []%elem_of_nil|intros [_ []%elem_of_nil]]|].
  intros [N1 N2]%NoDup_cons. destruct (decide (c = a)) as [->|Nc].
  - rewrite elem_of_cons. split.
    + intros H. split; [|by right]. intros ->. apply N1. by apply (elem_of_list_fmap_1 fst) in H.
    + intros [Nb [[= -> ->]|H]]; done.
  - rewrite !elem_of_cons, IH by done. split.
    + intros [[= -> ->]|[H1 H2]]; [split; [done|by left]|split; [done|by right]].
    + intros [H1 [H2|H2]]; [by left|right; by split].
Qed.
Lemma keys_in (l : list (sockaddr * bool)) b : b ∈ l.*1 <-> exists x, (b, x) ∈ l.
Proof.
  rewrite elem_of_list_fmap. split; [intros ([c x] & -> & H); by exists x|intros [x H]; by exists (b, x)].
Qed.
Lemma src_remove_keys a l b : NoDup (l.*1) -> b ∈ (src_remove a l).*1 <-> b <> a /\ b ∈ l.*1.
Proof.
  intros N. rewrite !keys_in. split.
  - intros [x [H1 H2]%src_remove_in]; [|done]. split; [done|by exists x].
  - intros [H1 [x H2]]. exists x. by apply src_remove_in.
Qed.
Lemma src_remove_NoDup a l : NoDup (l.*1) -> NoDup ((src_remove a l).*1).
Proof.
  induction l as [|[c y] l IH]; cbn; [done|]. intros [N1 N2]%NoDup_cons.
  destruct (decide (c = a)) as [->|Nc]; [done|]. cbn. apply NoDup_cons. split; [|by apply IH].
  intros [_ H]%src_remove_keys; done.
Qed.
Lemma src_has_true a l : src_has a l = true <-> a ∈ l.*1.
Proof. unfold src_has. by rewrite bool_decide_eq_true. Qed.
Lemma src_has_false a l : src_has a l = false <-> a ∉ l.*1.
Proof. unfold src_has. by rewrite bool_decide_eq_false. Qed.

(** ** Invariant *)

(** Everything about one address. *)
Definition view (a : sockaddr) (s : reactor) (c : cstate) (w : wire) : Prop :=
  (c = Closed /\ w = NoWire /\ r_peers s !! a = None /\ a ∉ r_connecting s /\ a ∉ (r_sources s).*1) \/
  (exists so lost x y, r_peers s !! a = Some so /\ w = Wire lost x y /\ x = y ++ so_buffer so /\
     (lost = true <-> a ∉ (r_sources s).*1) /\
     (so_buffer so <> [] -> lost = false -> (a, true) ∈ r_sources s) /\
     ((c = Dialing /\ so_link so = Outbound /\ a ∈ r_connecting s) \/ (c = Open /\ a ∉ r_connecting s))).

Record tidy (s : reactor) : Prop := {
  td_sources : NoDup ((r_sources s).*1);
  td_ready : NoDup (r_ready s);
  td_known : forall a, a ∈ r_ready s -> a ∈ (r_sources s).*1;
}.

Lemma view_other a s s' c w : r_peers s' !! a = r_peers s !! a -> (a ∈ r_connecting s' <-> a ∈ r_connecting s) ->
  (forall x, (a, x) ∈ r_sources s' <-> (a, x) ∈ r_sources s) -> view a s c w -> view a s' c w.
Proof.
  intros P C S V. assert (a ∈ (r_sources s').*1 <-> a ∈ (r_sources s).*1) as K.
  { rewrite !keys_in. split; intros [x H]; exists x; by apply S. }
  unfold view. rewrite P. setoid_rewrite C. setoid_rewrite K. setoid_rewrite S. exact V.
Qed.

Lemma state_notes_other a c ns : Forall (fun n => match n with
    | NAttempted a' | NConnected a' _ | NDisconnected a' _ => a' <> a | _ => True end) ns ->
  foldl (after_note a) c ns = c.
Proof.
  intros F. revert c. induction F as [|n ns H _ IH]; intros c; [done|]. cbn [foldl]. rewrite <- (IH c) at 2. f_equal.
  destruct n; cbn; try done; by rewrite decide_False.
Qed.

(** ** Primitive steps *)
Lemma unregister_view a0 r s : tidy s ->
  let s' := (unregister_peer a0 r s).1 in
  (forall a c w, a <> a0 -> view a s c w -> view a s' c w) /\ view a0 s' Closed NoWire /\
  NoDup ((r_sources s').*1) /\ r_ready s' = r_ready s /\
  (forall a, a ∈ (r_sources s').*1 <-> a <> a0 /\ a ∈ (r_sources s).*1).
Proof.
  intros T. pose proof (td_sources _ T) as ND. cbn [unregister_peer fst]. split; [|split; [|split; [|split]]].
  - intros a c w N. apply view_other; cbn; [by rewrite lookup_delete_ne|set_solver|].
    intros x. rewrite src_remove_in by done. tauto.
  - left. cbn. split; [done|]. split; [done|]. split; [apply lookup_delete|]. split; [set_solver|].
    rewrite src_remove_keys by done. tauto.
  - cbn. by apply src_remove_NoDup.
  - done.
  - intros a. cbn. by rewrite src_remove_keys.
Qed.

Lemma register_view a0 l s : tidy s -> r_peers s !! a0 = None -> a0 ∉ r_connecting s -> a0 ∉ (r_sources s).*1 ->
  let s' := register_peer a0 l s in
  (forall a c w, a <> a0 -> view a s c w -> view a s' c w) /\ view a0 s' Open (Wire false [] []) /\ tidy s'.
Proof.
  intros T P C S. cbn. split; [|split].
  - intros a c w N. apply view_other; cbn; [by rewrite lookup_insert_ne|done|].
    intros x. rewrite elem_of_app, elem_of_list_singleton. split; [intros [H|[= -> _]]; done|by left].
  - right. eexists _, false, [], []. cbn. split; [apply lookup_insert|]. split; [done|]. split; [done|].
    split; [|split; [done|by right]]. split; [done|]. intros H. exfalso. apply H.
    rewrite fmap_app. apply elem_of_app. right. by left.
  - destruct T as [T1 T2 T3]. split; cbn; [|done|].
    + rewrite fmap_app. apply NoDup_app. split; [done|]. split; [|apply NoDup_singleton].
      intros a H ->%elem_of_list_singleton. done.
    + intros a H. rewrite fmap_app. apply elem_of_app. left. by apply T3.
Qed.

Section Step.
Context (sort : timers unit -> timers unit).

Definition upd_state (cs : sockaddr -> cstate) (n : list note) (a : sockaddr) : cstate := foldl (after_note a) (cs a) n.
Definition upd_wire (ws : sockaddr -> wire) (o : rop) (n : list note) (a : sockaddr) : wire :=
  foldl (wire_note a) (wire_op a (ws a) o) n.

Definition INV (s : reactor) (cs : sockaddr -> cstate) (ws : sockaddr -> wire) : Prop :=
  tidy s /\ forall a, view a s (cs a) (ws a).

Lemma view_closed a s c w : view a s c w -> c = Closed ->
  w = NoWire /\ r_peers s !! a = None /\ a ∉ r_connecting s /\ a ∉ (r_sources s).*1.
Proof. intros [(_ & H)|(so & l & x & y & _ & _ & _ & _ & _ & [[-> _]|[-> _]])]; [done|discriminate..]. Qed.
Lemma view_open a s c w so : view a s c w -> r_peers s !! a = Some so ->
  exists lost x y, w = Wire lost x y /\ x = y ++ so_buffer so /\
     (lost = true <-> a ∉ (r_sources s).*1) /\
     (so_buffer so <> [] -> lost = false -> (a, true) ∈ r_sources s) /\
     ((c = Dialing /\ so_link so = Outbound /\ a ∈ r_connecting s) \/ (c = Open /\ a ∉ r_connecting s)).
Proof.
  intros [(_ & _ & H & _)|(so' & l & x & y & H & R)] P; [congruence|]. assert (so' = so) as -> by congruence. by exists l, x, y.
Qed.

(** Notes and operations about other addresses change nothing. *)
Definition note_addr (n : note) : option sockaddr :=
  match n with
  | NAttempted a | NConnected a _ | NDisconnected a _ | NBytes a _ | NSent a _ => Some a
  | _ => None
  end.
Definition only (a0 : sockaddr) (ns : list note) : Prop := Forall (fun n => note_addr n = Some a0 \/ note_addr n = None) ns.

Lemma only_state a0 a c ns : only a0 ns -> a <> a0 -> foldl (after_note a) c ns = c.
Proof.
  intros F N. apply state_notes_other. eapply Forall_impl; [exact F|].
  intros [] [H|H]; cbn in H; try done; injection H as ->; congruence.
Qed.
Lemma only_wire a0 a w ns : only a0 ns -> a <> a0 -> foldl (wire_note a) w ns = w.
Proof.
  intros F N. revert w. induction F as [|n ns H _ IH]; intros w; [done|]. cbn [foldl]. rewrite <- (IH w) at 2. f_equal.
  destruct n as [| |a'|a' []|a'|a'|a' b|]; cbn in H |- *; try done; destruct H as [H|H]; try done; injection H as ->;
    try (by rewrite decide_False by congruence). destruct w; [done|]. by rewrite decide_False by congruence.
Qed.
Lemma only_expected a0 a c ns : only a0 ns -> a <> a0 -> all_expected a c ns.
Proof.
  intros F N. revert c. induction F as [|n ns H _ IH]; intros c; [done|]. split; [|apply IH].
  destruct n as [| |a'|a' []|a' []|a'|a' b|]; cbn in H |- *; try done; destruct H as [H|H]; try done; injection H as ->; congruence.
Qed.

(** One step, for the address it is about. *)
Lemma fold_view a0 s s' cs ws o n :
  (forall a c w, a <> a0 -> view a s c w -> view a s' c w) ->
  (forall a, a <> a0 -> wire_op a (ws a) o = ws a) -> only a0 n -> tidy s' ->
  view a0 s' (foldl (after_note a0) (cs a0) n) (foldl (wire_note a0) (wire_op a0 (ws a0) o) n) ->
  (forall a, view a s (cs a) (ws a)) -> INV s' (upd_state cs n) (upd_wire ws o n).
Proof.
  intros Oth W On T V0 V. split; [done|]. intros a. unfold upd_state, upd_wire.
  destruct (decide (a = a0)) as [->|N]; [done|].
  rewrite (only_state a0), (only_wire a0), W by done. by apply Oth.
Qed.

Lemma process_step now d o s s' n cs ws : INV s cs ws -> r_ready s = [] ->
  (forall a, o = OConnect a -> cs a = Closed) -> process sort now d o s = (s', n) ->
  INV s' (upd_state cs n) (upd_wire ws (ROut now d o) n) /\ forall a, all_expected a (cs a) n.
Proof.
  intros [T V] Rd Fr R. pose proof T as [T1 T2 T3]. destruct o as [a0 b|a0|a0 r|t|]; cbn [process] in R.
  - destruct (r_peers s !! a0) as [so|] eqn:P.
    + destruct (src_has a0 (r_sources s)) eqn:SH.
      * injection R as <- <-. apply src_has_true in SH. split; [|done].
        apply (fold_view a0 s); [..|exact V].
        -- intros a c w N. apply view_other; cbn; [by rewrite lookup_insert_ne|done|].
           intros x. rewrite src_set_in by done. tauto.
        -- intros a N. cbn. destruct (ws a) as [|[]]; try done. by rewrite decide_False by congruence.
        -- by apply Forall_nil.
        -- split; cbn; [by rewrite src_set_keys|done|]. intros a Ha. rewrite src_set_keys. by apply T3.
        -- cbn [foldl wire_op]. destruct (view_open _ _ _ _ _ (V a0) P) as (lost & x & y & E & E1 & E2 & E3 & E4).
           rewrite E. destruct lost; [exfalso; by apply (proj1 E2)|]. destruct (decide (a0 = a0)); [|done].
           right. eexists _, false, _, _. cbn. split; [apply lookup_insert|]. split; [done|]. cbn.
           split; [unfold sk_push; by rewrite E1, app_assoc|]. rewrite src_set_keys. split; [done|]. split; [|done].
           intros _ _. apply src_set_in; [done|done|by left].
      * injection R as <- <-. apply src_has_false in SH. split; [|done].
        apply (fold_view a0 s); [done| |by apply Forall_nil|done| |exact V].
        -- intros a N. cbn. destruct (ws a) as [|[]]; try done. by rewrite decide_False by congruence.
        -- cbn [foldl wire_op]. destruct (view_open _ _ _ _ _ (V a0) P) as (lost & x & y & E & E1 & E2 & E3 & E4).
           destruct lost; [|by apply E2 in SH]. pose proof (V a0) as V0. rewrite E in *. exact V0.
    + injection R as <- <-. split; [|done]. apply (fold_view a0 s); [done| |by apply Forall_nil|done| |exact V].
      * intros a N. cbn. destruct (ws a) as [|[]]; try done. by rewrite decide_False by congruence.
      * pose proof (V a0) as V0. cbn [foldl wire_op]. destruct (V a0) as [(_ & E & _)|(so & _ & _ & _ & P' & _)]; [|congruence].
        by rewrite E in *.
  - destruct (view_closed _ _ _ _ (V a0) (Fr a0 eq_refl)) as (W0 & P & C & S).
    destruct d; injection R as <- <-.
    + destruct (register_view a0 Outbound s T P C S) as (O1 & V1 & T'). split.
      * apply (fold_view a0 s); [..|exact V].
        -- intros a c w N H. eapply (view_other a (register_peer a0 Outbound s)); [done| |done|by apply O1]. cbn. set_solver.
        -- done.
        -- apply Forall_cons. split; [by left|by apply Forall_nil].
        -- destruct T' as [U1 U2 U3]. split; [exact U1|exact U2|exact U3].
        -- cbn [foldl after_note wire_note wire_op]. destruct (decide (a0 = a0)); [|done].
           right. eexists _, false, [], []. cbn. split; [apply lookup_insert|]. split; [done|]. split; [done|].
           split; [|split; [done|left; split; [done|]; split; [done|set_solver]]]. split; [done|]. intros H. exfalso. apply H.
           rewrite fmap_app. apply elem_of_app. right. by left.
      * intros a. split; [|done]. cbn. intros <-. by apply Fr.
    + split; [|done]. apply (fold_view a0 s); [done|done|by apply Forall_nil|done|apply V|exact V].
    + split.
      * apply (fold_view a0 s); [done|done| |done| |exact V].
        -- apply Forall_cons. split; [by left|by apply Forall_nil].
        -- cbn [foldl after_note wire_note wire_op]. destruct (decide (a0 = a0)); [|done].
           pose proof (V a0) as V0. rewrite (Fr a0 eq_refl), W0 in V0. exact V0.
      * intros a. split; [|done]. cbn. intros <-. by apply Fr.
  - destruct (r_peers s !! a0) as [so|] eqn:P.
    + destruct (unregister_view a0 (WhyService r) s T) as (O1 & V1 & ND & RR & K). rewrite R in *. cbn [fst] in *.
      unfold unregister_peer in R. injection R as _ <-. split.
      * apply (fold_view a0 s); [exact O1|done| | | |exact V].
        -- apply Forall_cons. split; [by left|by apply Forall_nil].
        -- split; [done|by rewrite RR|]. rewrite RR, Rd. intros a []%elem_of_nil.
        -- cbn [foldl after_note wire_note wire_op]. destruct (decide (a0 = a0)); [|done]. exact V1.
      * intros a. split; [|done]. cbn. intros <-. destruct (view_open _ _ _ _ _ (V a0) P) as (? & ? & ? & ? & ? & ? & ? & [[-> _]|[-> _]]); done.
    + injection R as <- <-. split; [|done]. apply (fold_view a0 s); [done|done|by apply Forall_nil|done|apply V|exact V].
  - injection R as <- <-. split; [|done]. split; [by split|]. intros a. exact (V a).
  - injection R as <- <-. split; [|done]. split; [by split|]. intros a. exact (V a).
Qed.

Definition keeps (a0 : sockaddr) (s s' : reactor) : Prop :=
  tidy s' /\ r_ready s' = r_ready s /\ forall a c w, a <> a0 -> view a s c w -> view a s' c w.

Lemma unregister_keeps a0 r s : tidy s -> a0 ∉ r_ready s ->
  keeps a0 s (unregister_peer a0 r s).1 /\ view a0 (unregister_peer a0 r s).1 Closed NoWire.
Proof.
  intros T N. destruct (unregister_view a0 r s T) as (O1 & V1 & ND & RR & K). split; [|done].
  split; [|by split]. destruct T as [T1 T2 T3]. split; [done|by rewrite RR|].
  rewrite RR. intros a Ha. apply K. split; [congruence|by apply T3].
Qed.

Lemma view_ready a s l c w : view a (with_ready s l) c w <-> view a s c w.
Proof. done. Qed.

(** The connection attempt has succeeded or there was none. *)
Lemma settle_view a0 s c w so : view a0 s c w -> r_peers s !! a0 = Some so -> 
  view a0 (with_connecting s (r_connecting s ∖ {[ a0 ]})) Open w.
Proof.
  intros V P. destruct (view_open _ _ _ _ _ V P) as (lost & x & y & E & E1 & E2 & E3 & E4).
  right. exists so, lost, x, y. cbn. repeat (split; [done|]). right. split; [done|set_solver].
Qed.

Lemma flush_view a0 s so buf sent w b : tidy s -> view a0 s Open w -> r_peers s !! a0 = Some so -> a0 ∈ (r_sources s).*1 ->
  sent ++ buf = so_buffer so -> (buf <> [] -> b = true) ->
  let s' := with_sources (with_socks s (<[a0 := Sock buf (so_link so)]> (r_peers s))) (src_set a0 b (r_sources s)) in
  keeps a0 s s' /\ view a0 s' Open (wire_note a0 w (NSent a0 sent)).
Proof.
  intros T V P K E B. destruct (view_open _ _ _ _ _ V P) as (lost & x & y & -> & E1 & E2 & E3 & E4).
  destruct T as [T1 T2 T3]. cbn. split; [split; [|split]|].
  - split; cbn; [by rewrite src_set_keys|done|]. intros a Ha. rewrite src_set_keys. by apply T3.
  - done.
  - intros a c w N. apply view_other; cbn; [by rewrite lookup_insert_ne|done|].
    intros z. rewrite src_set_in by done. tauto.
  - destruct (decide (a0 = a0)); [|done]. right. eexists _, lost, x, (y ++ sent). cbn. split; [apply lookup_insert|].
    split; [done|]. cbn. rewrite src_set_keys. split; [by rewrite <- app_assoc, E|]. split; [done|].
    split; [intros Nb _; apply src_set_in; [done|done|left; split; [done|symmetry; by apply B]]|].
    destruct E4 as [(E4 & _)|(_ & E4)]; [discriminate E4|by right].
Qed.

Lemma writable_step a0 an s r n c w : tidy s -> a0 ∉ r_ready s -> view a0 s c w ->
  handle_writable a0 an s = Val (r, n) ->
  only a0 n /\ all_expected a0 c n /\
  match r with
  | None => True
  | Some s' => keeps a0 s s' /\ view a0 s' (foldl (after_note a0) c n) (foldl (wire_note a0) w n) /\
      foldl (after_note a0) c n <> Dialing
  end.
Proof.
  intros T N V. unfold handle_writable. destruct (src_has a0 (r_sources s)) eqn:SH; cbn [negb]; [|done].
  apply src_has_true in SH. destruct (r_peers s !! a0) as [so|] eqn:P; [|done].
  destruct (bool_decide (a0 ∈ r_connecting s) && negb (an_local an)) eqn:L.
  { intros E. injection E as <- <-. split; [by apply Forall_nil|done]. }
  destruct (sk_flush _ _ _) as [[[buf sent] e]|] eqn:F; cbn [mbind_M]; [|done].
  destruct (sk_flush_any _ _ _ _ _ _ F) as (F1 & F2 & F3).
  set (s1 := with_connecting s (r_connecting s ∖ {[ a0 ]})).
  pose proof (settle_view _ _ _ _ _ V P) as V1. fold s1 in V1.
  assert (tidy s1) as T1 by (by destruct T as [? ? ?]; split).
  assert (keeps a0 s s1) as K1.
  { split; [done|]. split; [done|]. intros a c' w' Na. apply view_other; cbn; [done|set_solver|done]. }
  set (n1 := if bool_decide (a0 ∈ r_connecting s) then [NConnected a0 (so_link so)] else []).
  assert (only a0 n1 /\ all_expected a0 c n1 /\ foldl (after_note a0) c n1 = Open /\ foldl (wire_note a0) w n1 = w) as (O1 & X1 & A1 & W1).
  { destruct (view_open _ _ _ _ _ V P) as (lost & x & y & E & E1 & E2 & E3 & E4). unfold n1.
    destruct E4 as [(-> & E5 & E6)|(-> & E6)].
    - rewrite bool_decide_true by done. rewrite E5. cbn. destruct (decide (a0 = a0)); [|done].
      split; [apply Forall_cons; split; [by left|by apply Forall_nil]|]. done.
    - rewrite bool_decide_false by done. cbn. split; [by apply Forall_nil|]. done. }
  assert (forall m, only a0 m -> only a0 ((n1 ++ [NSent a0 sent]) ++ m)) as O2.
  { intros m Hm. apply Forall_app. split; [apply Forall_app; split; [done|]|done]. apply Forall_cons. split; [by left|by apply Forall_nil]. }
  assert (forall l c' m, all_expected a0 c' (l ++ m) <-> all_expected a0 c' l /\ all_expected a0 (foldl (after_note a0) c' l) m) as XA.
  { intros l. induction l as [|x l IH]; intros c' m; cbn; [tauto|]. rewrite IH. tauto. }
  set (s2 := with_socks s1 (<[a0 := Sock buf (so_link so)]> (r_peers s1))).
  assert (forall b, (buf <> [] -> b = true) ->
    keeps a0 s (with_sources s2 (src_set a0 b (r_sources s2))) /\
    view a0 (with_sources s2 (src_set a0 b (r_sources s2))) Open (wire_note a0 w (NSent a0 sent))) as FV.
  { intros b Hb. destruct (flush_view a0 s1 so buf sent w b T1 V1 P SH F1 Hb) as [(K2 & K3 & K4) V2]. split; [|exact V2].
    split; [exact K2|]. split; [exact K3|]. intros a c' w' Na Va. apply K4; [done|]. by apply K1. }
  assert (all_expected a0 c (n1 ++ [NSent a0 sent])) as X2. { apply XA. rewrite A1. split; [done|]. by split. }
  assert (foldl (after_note a0) c (n1 ++ [NSent a0 sent]) = Open) as A2 by (rewrite foldl_app, A1; done).
  assert (foldl (wire_note a0) w (n1 ++ [NSent a0 sent]) = wire_note a0 w (NSent a0 sent)) as W2 by (rewrite foldl_app, W1; done).
  destruct e as [e|].
  - destruct ((e =? would_block) || (e =? write_zero)).
    + intros E. injection E as <- <-. specialize (O2 [] ltac:(by apply Forall_nil)). rewrite app_nil_r in O2.
      split; [exact O2|]. split; [exact X2|]. rewrite A2, W2. destruct (FV true ltac:(done)). done.
    + destruct (FV true ltac:(done)) as [[K2 [K3 K4]] V2].
      destruct (unregister_keeps a0 WhyConnection s2) as [[U1 [U2 U3]] U4].
      { destruct K2 as [U1 U2 U3]. cbn in U1, U2, U3. rewrite src_set_keys in U1. split; [exact U1|exact U2|].
        intros a Ha. specialize (U3 a Ha). by rewrite src_set_keys in U3. }
      { done. }
      unfold unregister_peer at 1. intros E. injection E as <- <-.
      split; [apply O2; apply Forall_cons; split; [by left|by apply Forall_nil]|].
      split; [apply XA; split; [exact X2|]; rewrite A2; by split|].
      rewrite !foldl_app, A1, W1. cbn [foldl after_note wire_note]. destruct (decide (a0 = a0)); [|done].
      split; [|split; [exact U4|done]]. split; [exact U1|]. split; [exact U2|]. intros a c' w' Na Va.
      apply U3; [done|]. apply (view_other a s1); [|done|done|by apply K1]. cbn. by rewrite lookup_insert_ne.
  - intros E. injection E as <- <-. specialize (O2 [] ltac:(by apply Forall_nil)). rewrite app_nil_r in O2.
    split; [exact O2|]. split; [exact X2|]. rewrite A2, W2.
    destruct (FV false) as [K2 V2]; [|by split]. intros Nb. exfalso. by apply F3.
Qed.

Lemma readable_step a0 an s s' n c w : tidy s -> a0 ∉ r_ready s -> view a0 s c w ->
  handle_readable a0 an s = (s', n) ->
  only a0 n /\ (c <> Dialing -> all_expected a0 c n) /\ keeps a0 s s' /\
  view a0 s' (foldl (after_note a0) c n) (foldl (wire_note a0) w n).
Proof.
  intros T N V. unfold handle_readable. 
  assert (only a0 [] /\ (c <> Dialing -> all_expected a0 c []) /\ keeps a0 s s /\ view a0 s c w) as Same.
  { split; [by apply Forall_nil|]. split; [done|]. split; [|done]. split; [done|]. by split. }
  destruct (r_peers s !! a0) as [so|] eqn:P; [|intros E; injection E as <- <-; exact Same].
  assert (c <> Closed) as Nc.
  { destruct (view_open _ _ _ _ _ V P) as (? & ? & ? & ? & ? & ? & ? & [[-> _]|[-> _]]); done. }
  assert (forall s' n, unregister_peer a0 WhyConnection s = (s', n) -> only a0 n /\ (c <> Dialing -> all_expected a0 c n) /\
    keeps a0 s s' /\ view a0 s' (foldl (after_note a0) c n) (foldl (wire_note a0) w n)) as Un.
  { intros s1 n1 E. destruct (unregister_keeps a0 WhyConnection s T N) as [U1 U2]. rewrite E in U1, U2. cbn [fst] in U1, U2.
    unfold unregister_peer in E. injection E as _ <-. cbn [foldl after_note wire_note]. destruct (decide (a0 = a0)); [|done].
    split; [apply Forall_cons; split; [by left|by apply Forall_nil]|]. split; [intros _; split; [intros _; exact Nc|exact I]|]. by split. }
  destruct (an_read an) as [[|x b]|e].
  - apply Un.
  - intros E. injection E as <- <-. destruct Same as (_ & _ & S3 & S4).
    split; [apply Forall_cons; split; [by left|by apply Forall_nil]|]. split; [|by split].
    intros Nd. split; [|done]. intros _. by destruct c.
  - destruct (e =? would_block); [|apply Un]. intros E. injection E as <- <-. exact Same.
Qed.

Lemma rstep_inv o s s' n cs ws : INV s cs ws -> rstep sort o s = Val (Goes s' n) ->
  (forall a now d, o = ROut now d (OConnect a) -> cs a = Closed) -> (forall a ok, o = RAccept a ok -> cs a = Closed) ->
  INV s' (upd_state cs n) (upd_wire ws o n) /\
  ((forall a w an, o = RReady a false w true an -> cs a = Dialing -> w = true) -> forall a, all_expected a (cs a) n).
Proof.
  intros [T V] R F1 F2. pose proof T as [T1 T2 T3]. destruct o as [now ready|a0 inv wr rd an|a0 ok|now|now d o|]; cbn [rstep] in R.
  - destruct (r_ready s) eqn:Rd; [|discriminate R]. destruct (decide _) as [Sub|]; [|discriminate R]. injection R as <- <-.
    split; [|intros _ a; by split]. split; [|intros a; apply V]. split; cbn; [done| |].
    + apply submseteq_Permutation in Sub as [k Sub]. rewrite Sub in T1. by apply NoDup_app in T1 as [? _].
    + intros a Ha. by eapply elem_of_submseteq.
  - destruct (r_ready s) as [|a' rest] eqn:Rd; [discriminate R|]. destruct (bool_decide (a' = a0)) eqn:Ea; cbn [negb] in R; [|discriminate R].
    apply bool_decide_eq_true in Ea as ->. apply NoDup_cons in T2 as [N2 T2].
    set (s0 := with_ready s rest) in *.
    assert (tidy s0) as T0. { split; cbn; [done|done|]. intros a Ha. apply T3. by right. }
    assert (a0 ∉ r_ready s0) as N0 by done.
    assert (forall a w, a <> a0 -> wire_op a w (RReady a0 inv wr rd an) = w) as WO.
    { intros a w Na. cbn. destruct inv, w; try done. by rewrite decide_False by congruence. }
    destruct inv.
    + injection R as <- <-. split; [|done]. apply (fold_view a0 s); [..|exact V].
      * intros a c w Na. apply view_other; cbn; [done|done|]. intros x. rewrite src_remove_in by done. tauto.
      * intros a Na. by apply WO.
      * by apply Forall_nil.
      * split; cbn; [by apply src_remove_NoDup|done|]. intros a Ha. apply src_remove_keys; [done|].
        split; [intros ->; done|]. apply T3. by right.
      * cbn [foldl wire_op]. destruct (V a0) as [(H1 & H2 & H3 & H4 & H5)|(so & lost & x & y & H1 & H2 & H3 & H4 & H5 & H6)].
        -- rewrite H1, H2. left. cbn. repeat (split; [done|]). rewrite src_remove_keys by done. tauto.
        -- rewrite H2. destruct (decide (a0 = a0)); [|done]. right. exists so, true, x, y. cbn. repeat (split; [done|]).
           split; [|split; [done|done]]. rewrite src_remove_keys by done. split; [intros _; tauto|done].
    + destruct (if wr then handle_writable a0 an s0 else Val (Some s0, [])) as [[[s1|] n1]|] eqn:W; cbn [mbind_M] in R; [|discriminate R..].
      assert (only a0 n1 /\ all_expected a0 (cs a0) n1 /\ keeps a0 s0 s1 /\
        view a0 s1 (foldl (after_note a0) (cs a0) n1) (foldl (wire_note a0) (ws a0) n1) /\
        ((cs a0 = Dialing -> wr = true) -> foldl (after_note a0) (cs a0) n1 <> Dialing)) as (O1 & X1 & K1 & V1 & D1).
      { destruct wr.
        - destruct (writable_step a0 an s0 _ _ _ _ T0 N0 (V a0) W) as (O1 & X1 & K1 & V1 & D1). done.
        - injection W as <- <-. split; [by apply Forall_nil|]. split; [done|]. split; [split; [done|by split]|]. split; [apply V|].
          cbn [foldl]. intros H E. by specialize (H E). }
      assert (exists n2, n = n1 ++ n2 /\ only a0 n2 /\
        ((rd = true -> foldl (after_note a0) (cs a0) n1 <> Dialing) -> all_expected a0 (foldl (after_note a0) (cs a0) n1) n2) /\
        keeps a0 s1 s' /\ view a0 s' (foldl (after_note a0) (cs a0) n) (foldl (wire_note a0) (ws a0) n)) as (n2 & -> & O2 & X2 & K2 & V2).
      { destruct K1 as (T1' & R1 & K1). destruct rd.
        - destruct (handle_readable a0 an s1) as [s2 n2] eqn:H. injection R as <- <-.
          destruct (readable_step a0 an s1 s2 n2 _ _ T1' ltac:(by rewrite R1) V1 H) as (O2 & X2 & K2 & V2).
          exists n2. split; [done|]. split; [done|]. split; [intros Hd; apply X2; by apply Hd|]. split; [done|]. by rewrite !foldl_app.
        - injection R as <- <-. exists []. rewrite app_nil_r. split; [done|]. split; [by apply Forall_nil|]. split; [done|].
          split; [|done]. split; [done|]. by split. }
      assert (only a0 (n1 ++ n2)) as O3 by (by apply Forall_app).
      split.
      * apply (fold_view a0 s); [..|exact V].
        -- intros a c w Na Va. apply K2; [done|]. by apply K1.
        -- intros a Na. by apply WO.
        -- done.
        -- apply K2.
        -- cbn [wire_op]. exact V2.
      * intros Eg a. destruct (decide (a = a0)) as [->|Na]; [|by apply (only_expected a0)].
        assert (forall l c' m, all_expected a0 c' (l ++ m) <-> all_expected a0 c' l /\ all_expected a0 (foldl (after_note a0) c' l) m) as XA.
        { intros l. induction l as [|x l IH]; intros c' m; cbn; [tauto|]. rewrite IH. tauto. }
        apply XA. split; [done|]. apply X2. intros ->. apply D1. by apply (Eg a0 wr an).
  - destruct ok; [|discriminate R]. injection R as <- <-. specialize (F2 _ _ eq_refl).
    destruct (view_closed _ _ _ _ (V a0) F2) as (W0 & P & C & S).
    destruct (register_view a0 Inbound s T P C S) as (O1 & V1 & T'). split.
    + apply (fold_view a0 s); [exact O1|done| |exact T'| |exact V].
      * apply Forall_cons. split; [by left|by apply Forall_nil].
      * cbn [foldl after_note wire_note wire_op]. destruct (decide (a0 = a0)); [|done]. exact V1.
    + intros _ a. split; [|done]. cbn. by intros <-.
  - destruct (r_ready s) eqn:Rd; [|discriminate R]. destruct (tm_wake now (r_timers s)) as [ts woken]. injection R as <- <-.
    assert (forall c a, foldl (after_note a) c (NTick now :: match woken with [] => [] | _ :: _ => [NTimer] end) = c) as A by (by destruct woken).
    assert (forall c a, foldl (wire_note a) c (NTick now :: match woken with [] => [] | _ :: _ => [NTimer] end) = c) as W by (by destruct woken).
    split; [|intros _ a; destruct woken; by repeat split]. split; [by split; cbn; rewrite ?Rd|]. intros a. unfold upd_state, upd_wire.
    rewrite A, W. apply V.
  - destruct (r_ready s) eqn:Rd; [|discriminate R]. destruct (process sort now d o s) as [s1 n1] eqn:Pr. injection R as <- <-.
    destruct (process_step now d o s s1 n1 cs ws) as [I X]; [by split|done| |done|by split].
    intros a ->. by apply (F1 a now d).
  - discriminate R.
Qed.

Lemma rstep_no_panic o s cs ws : INV s cs ws -> honest_op o -> exists r, rstep sort o s = Val r.
Proof.
  intros [T V] H. pose proof T as [T1 T2 T3]. destruct o as [now ready|a0 inv wr rd an|a0 ok|now|now d o|]; cbn [rstep].
  - destruct (r_ready s); [|by eexists]. destruct (decide _); by eexists.
  - destruct (r_ready s) as [|a' rest] eqn:Rd; [by eexists|]. destruct (bool_decide (a' = a0)) eqn:Ea; cbn [negb]; [|by eexists].
    apply bool_decide_eq_true in Ea as ->. destruct inv; [by eexists|].
    assert (exists r n, (if wr then handle_writable a0 an (with_ready s rest) else Val (Some (with_ready s rest), [])) = Val (r, n)) as (r & n & ->).
    { destruct wr; [|by eexists _, _]. unfold handle_writable. cbn [r_sources with_ready r_peers].
      assert (a0 ∈ (r_sources s).*1) as K by (apply T3; by left). rewrite (proj2 (src_has_true _ _) K). cbn [negb].
      destruct (V a0) as [(_ & _ & _ & _ & H5)|(so & _ & _ & _ & -> & _)]; [done|].
      destruct (_ && _); [by eexists _, _|].
      destruct (sk_flush_ok (an_write an) (an_flush an) (so_buffer so) H) as (b & w & e & ->). cbn [mbind_M].
      destruct e as [e|]; [|by eexists _, _]. destruct (_ || _); by eexists _, _. }
    cbn [mbind_M]. destruct r as [s1|]; [|by eexists]. destruct rd; [|by eexists]. destruct (handle_readable a0 an s1). by eexists.
  - destruct ok; by eexists.
  - destruct (r_ready s); [|by eexists]. destruct (tm_wake now (r_timers s)). by eexists.
  - destruct (r_ready s); [|by eexists]. destruct (process sort now d o s). by eexists.
  - by eexists.
Qed.

(** ** Runs *)
Definition states (t : rtrace) (a : sockaddr) : cstate := state_of a t.
Definition wires (t : rtrace) (a : sockaddr) : wire := wire_of a t.

Lemma state_of_snoc a t o n : state_of a (t ++ [(o, n)]) = foldl (after_note a) (state_of a t) n.
Proof. unfold state_of. rewrite bind_app, foldl_app. cbn. by rewrite app_nil_r. Qed.
Lemma wire_of_snoc a t o n : wire_of a (t ++ [(o, n)]) = foldl (wire_note a) (wire_op a (wire_of a t) o) n.
Proof. unfold wire_of. by rewrite foldl_app. Qed.

Lemma INV_ext s cs cs' ws ws' : (forall a, cs a = cs' a) -> (forall a, ws a = ws' a) -> INV s cs ws -> INV s cs' ws'.
Proof. intros E1 E2 [T V]. split; [done|]. intros a. rewrite <- E1, <- E2. apply V. Qed.

Lemma each_app P (p t : rtrace) o n q : each P (p ++ (o, n) :: q) -> P o p.
Proof. intros H. by apply (H p o n q). Qed.

Lemma rrun_inv os : forall s s' p t, INV s (states p) (wires p) -> rrun sort os s = Val (s', t) ->
  each fresh_op (p ++ t) -> 
  (forall s1, s' = Some s1 -> INV s1 (states (p ++ t)) (wires (p ++ t))) /\
  (each eager_op (p ++ t) -> forall a, all_expected a (state_of a p) (t ≫= snd)).
Proof.
  induction os as [|o os IH]; intros s s' p t I R Fr; cbn [rrun] in R.
  - injection R as <- <-. rewrite app_nil_r. split; [|done]. by intros s1 [= <-].
  - destruct (rstep sort o s) as [[|n|s1 n]|] eqn:St; cbn [mbind_M] in R; [by eapply IH| | |discriminate R].
    + injection R as <- <-. split; [done|]. intros _ a. cbn. rewrite app_nil_r.
      destruct o as [now ready|a0 inv wr rd an|a0 ok|now|now d o|]; cbn [rstep] in St.
      * destruct (r_ready s); [|discriminate St]. by destruct (decide _).
      * destruct (r_ready s) as [|a' rest] eqn:Rd; [discriminate St|]. destruct (bool_decide (a' = a0)) eqn:Ea; cbn [negb] in St; [|discriminate St].
        apply bool_decide_eq_true in Ea as ->. destruct inv; [discriminate St|].
        destruct I as [T V]. pose proof T as [T1 T2 T3]. rewrite Rd in T2. apply NoDup_cons in T2 as [N2 T2].
        destruct wr; cbn [mbind_M] in St; [|destruct rd; [|discriminate St]; by destruct (handle_readable a0 an _)].
        destruct (handle_writable a0 an (with_ready s rest)) as [[[s1|] n1]|] eqn:W; cbn [mbind_M] in St; [| |discriminate St].
        { destruct rd; [|discriminate St]. by destruct (handle_readable a0 an s1). }
        injection St as <-.
        destruct (writable_step a0 an (with_ready s rest) _ _ _ _ ltac:(split; cbn; [done|done|]; intros b Hb; apply T3; rewrite Rd; by right) N2 (V a0) W) as (O1 & X1 & _).
        destruct (decide (a = a0)) as [->|Na]; [done|by apply (only_expected a0)].
      * destruct ok; [discriminate St|]. by injection St as <-.
      * destruct (r_ready s); [|discriminate St]. by destruct (tm_wake now (r_timers s)).
      * destruct (r_ready s); [|discriminate St]. by destruct (process sort now d o s).
      * by injection St as <-.
    + destruct (rrun sort os s1) as [[s2 t2]|] eqn:R2; cbn [mbind_M] in R; [|discriminate R]. injection R as <- <-.
      replace (p ++ (o, n) :: t2) with ((p ++ [(o, n)]) ++ t2) in * by (by rewrite <- app_assoc).
      assert (fresh_op o p) as F by exact (Fr p o n t2 ltac:(by rewrite <- app_assoc)).
      destruct (rstep_inv _ _ _ _ _ _ I St) as [I1 X1].
      { intros a now d ->. exact F. }
      { intros a ok ->. exact F. }
      destruct (IH s1 s2 (p ++ [(o, n)]) t2) as [I2 X2]; [|exact R2|exact Fr|].
      { eapply INV_ext; [..|exact I1]; intros a; unfold upd_state, upd_wire, states, wires; by rewrite ?state_of_snoc, ?wire_of_snoc. }
      split; [exact I2|]. intros Eg a. cbn.
      assert (forall l c' m, all_expected a c' (l ++ m) <-> all_expected a c' l /\ all_expected a (foldl (after_note a) c' l) m) as XA.
      { intros l. induction l as [|x l IHl]; intros c' m; cbn; [tauto|]. rewrite IHl. tauto. }
      apply XA. split.
      * apply X1. intros a0 w an ->. exact (Eg p _ n t2 ltac:(by rewrite <- app_assoc)).
      * rewrite <- (state_of_snoc a p o n). by apply X2.
Qed.

Lemma inv_new : INV r_new (states []) (wires []).
Proof.
  split; [split; cbn; [constructor|constructor|intros a []%elem_of_nil]|]. intros a. left. split; [done|]. split; [done|].
  split; [apply lookup_empty|]. split; [set_solver|]. intros []%elem_of_nil.
Qed.

Lemma rrun_new os s t : rrun sort os r_new = Val (s, t) -> each fresh_op t ->
  (forall s1, s = Some s1 -> INV s1 (states t) (wires t)) /\
  (each eager_op t -> forall a, all_expected a Closed (t ≫= snd)).
Proof. intros R F. exact (rrun_inv os r_new s [] t inv_new R F). Qed.

(** ** Timers *)
Lemma rstep_timers o s s' n : rstep sort o s = Val (Goes s' n) ->
  exists tos rs, tm_run sort 1000 (r_timers s) tos = (r_timers s', rs).
Proof.
  assert (forall t, exists tos rs, tm_run sort 1000 t tos = (t, rs)) as Same by (intros t; by exists [], []).
  destruct o as [now ready|a0 inv wr rd an|a0 ok|now|now d o|]; cbn [rstep]; intros R.
  - destruct (r_ready s); [|discriminate R]. destruct (decide _); [|discriminate R]. injection R as <- <-. apply Same.
  - destruct (r_ready s) as [|a' rest]; [discriminate R|]. destruct (negb _); [discriminate R|].
    destruct inv; [injection R as <- <-; apply Same|].
    assert (forall r n', (if wr then handle_writable a0 an (with_ready s rest) else Val (Some (with_ready s rest), [])) = Val (Some r, n') ->
      r_timers r = r_timers s) as W.
    { intros r n'. destruct wr; [|intros E; by injection E as <- _]. unfold handle_writable.
      destruct (negb _); [done|]. destruct (r_peers _ !! a0) as [so|]; [|done]. destruct (_ && _); [done|].
      destruct (sk_flush _ _ _) as [[[b w] e]|]; cbn [mbind_M]; [|done].
      destruct e as [e|]; [|intros E; by injection E as <- _]. destruct (_ || _); intros E; by injection E as <- _. }
    destruct (if wr then _ else _) as [[[s1|] n1]|]; cbn [mbind_M] in R; [|discriminate R..]. specialize (W _ _ eq_refl).
    destruct rd; [|injection R as <- <-; rewrite W; apply Same].
    destruct (handle_readable a0 an s1) as [s2 n2] eqn:Hr. injection R as <- <-.
    assert (r_timers s2 = r_timers s1) as E.
    { unfold handle_readable in Hr. destruct (r_peers s1 !! a0); [|by injection Hr as <- _].
      destruct (an_read an) as [[|]|e]; [by injection Hr as <- _..|]. destruct (e =? would_block); by injection Hr as <- _. }
    rewrite E, W. apply Same.
  - destruct ok; [|discriminate R]. injection R as <- <-. apply Same.
  - destruct (r_ready s); [|discriminate R]. destruct (tm_wake now (r_timers s)) as [ts woken] eqn:W. injection R as <- <-.
    exists [TWake now]. cbn [tm_run tm_step]. rewrite W. by eexists.
  - destruct (r_ready s); [|discriminate R]. destruct (process sort now d o s) as [s1 n1] eqn:P. injection R as <- <-.
    destruct o as [a b|a|a r|t|]; cbn [process] in P.
    + destruct (r_peers s !! a); [|injection P as <- <-; apply Same].
      destruct (src_has a (r_sources s)); injection P as <- <-; apply Same.
    + destruct d; injection P as <- <-; apply Same.
    + destruct (r_peers s !! a); [|injection P as <- <-; apply Same]. injection P as <- <-. apply Same.
    + injection P as <- <-. exists [TRegister tt (now + t)]. cbn [tm_run tm_step r_timers with_timers].
      destruct (tm_register sort 1000 tt (now + t) (r_timers s)). by eexists.
    + injection P as <- <-. apply Same.
  - discriminate R.
Qed.

Lemma tm_run_app tos tos' : forall ts ts' rs ts'' rs', tm_run sort 1000 ts tos = (ts', rs) -> tm_run sort 1000 ts' tos' = (ts'', rs') ->
  tm_run sort 1000 ts (tos ++ tos') = (ts'', rs ++ rs').
Proof.
  induction tos as [|o tos IH]; intros ts ts' rs ts'' rs' R R'; cbn [tm_run app] in R |- *.
  - by injection R as <- <-.
  - destruct (tm_step sort 1000 ts o) as [t1 r]. destruct (tm_run sort 1000 t1 tos) as [t2 r2] eqn:E. injection R as <- <-.
    by rewrite (IH _ _ _ _ _ E R').
Qed.

Lemma rrun_timers os : forall s s' t tos rs, tm_run sort 1000 [] tos = (r_timers s, rs) -> rrun sort os s = Val (Some s', t) ->
  exists tos' rs', tm_run sort 1000 [] tos' = (r_timers s', rs').
Proof.
  induction os as [|o os IH]; intros s s' t tos rs T R; cbn [rrun] in R.
  - injection R as <- <-. by eexists _, _.
  - destruct (rstep sort o s) as [[|n|s1 n]|] eqn:St; cbn [mbind_M] in R; [by eapply IH|discriminate R| |discriminate R].
    destruct (rrun sort os s1) as [[s2 t2]|] eqn:R2; cbn [mbind_M] in R; [|discriminate R]. injection R as -> <-.
    destruct (rstep_timers _ _ _ _ St) as (tos1 & rs1 & E). pose proof (tm_run_app _ _ _ _ _ _ _ T E) as T'.
    by eapply IH.
Qed.

Lemma idle_wakes (HS : sorts sort) os s t now s' n : rrun sort os r_new = Val (Some s, t) ->
  rstep sort (RIdle now) s = Val (Goes s' n) ->
  (NTimer ∈ n <-> exists e, e ∈ r_timers s /\ e.2 <= now) /\
  (forall e, e ∈ r_timers s' <-> e ∈ r_timers s /\ now < e.2).
Proof.
  intros R St. destruct (rrun_timers os r_new s t [] [] eq_refl R) as (tos & rs & T).
  cbn [rstep] in St. destruct (r_ready s); [|discriminate St].
  destruct (tm_wake now (r_timers s)) as [ts woken] eqn:W. injection St as <- <-.
  destruct (C52_wake sort 1000 tos _ rs now ts woken HS T W) as (E & due & Pd & Ew & _). split.
  - assert (woken = [] <-> ~ exists e, e ∈ r_timers s /\ e.2 <= now) as H.
    { rewrite Ew. split.
      - intros E0%fmap_nil_inv [e [H1 H2]]. rewrite E0 in Pd.
        assert (e ∈ @nil (unit * N)) as []%elem_of_nil. rewrite Pd. apply elem_of_list_In, filter_In.
        split; [by apply elem_of_list_In|]. by apply N.leb_le.
      - intros Ne. destruct due as [|e due]; [done|]. exfalso. apply Ne. exists e.
        assert (e ∈ e :: due) as He by left. rewrite Pd in He. apply elem_of_list_In, filter_In in He as [H1 H2].
        split; [by apply elem_of_list_In|by apply N.leb_le]. }
    destruct woken as [|[] woken].
    + split; [intros [H1|[]%elem_of_nil]%elem_of_cons; discriminate H1|]. intros Hx. by apply H in Hx.
    + split; [intros _|intros _; right; by left].
      destruct due as [|e due]; [discriminate Ew|]. exists e.
      assert (e ∈ e :: due) as He by left. rewrite Pd in He. apply elem_of_list_In, filter_In in He as [H1 H2].
      split; [by apply elem_of_list_In|by apply N.leb_le].
  - intros e. cbn [r_timers with_timers]. rewrite E, elem_of_list_In, filter_In, <- elem_of_list_In, N.ltb_lt. done.
Qed.
End Step.
