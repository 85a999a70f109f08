(** Proofs about the timers of the simulator when nothing happens at the same
    instant. *)
From Coq Require Import Sorted.
From Verif Require Import Base SimModel SimSpec SimProofs SimSpace.
Open Scope N_scope.

(** A timer of a node was or will be followed by a wake-up: of that node, or of
    another at exactly its time. *)
Definition due (n T : N) (log : list sitem) (l : inbox) : Prop :=
  exists m t, (m = n \/ t = T) /\ T <= t /\ (t ∈ wakes m log \/ t ∈ pendw m l).
Definition fires (s : sim) (log : list sitem) : Prop := forall n T, T ∈ timers n log -> due n T log (si_inbox s).
Lemma pendw_elem m t l : t ∈ pendw m l <-> exists e, (t, e) ∈ l /\ sd_input e = InWake /\ sd_node e = m.
Proof.
  unfold pendw. rewrite elem_of_list_omap. split.
  - intros ([u e] & I & E). cbn in E. destruct (sd_input e) eqn:Ei; try done. destruct (N.eqb_spec (sd_node e) m); [|done]. injection E as ->. by exists e.
  - intros (e & I & Ei & <-). exists (t, e). split; [done|]. cbn. by rewrite Ei, N.eqb_refl.
Qed.
Lemma due_mono n T log l log' l' : due n T log l -> (forall m t, t ∈ wakes m log \/ t ∈ pendw m l -> t ∈ wakes m log' \/ t ∈ pendw m l') -> due n T log' l'.
Proof. intros (m & t & A & B & C) H. exists m, t. auto. Qed.
Lemma put_keeps t x l p : sorted l -> p ∈ l -> p ∈ put t x l.
Proof. intros S. destruct (put_spec t x l S) as (t' & l1 & l2 & E1 & E2 & _). rewrite E1, E2, !elem_of_app, elem_of_cons. tauto. Qed.
Lemma put_new t x l : sorted l -> exists t', t <= t' /\ (t', x) ∈ put t x l.
Proof. intros S. destruct (put_spec t x l S) as (t' & l1 & l2 & E1 & E2 & L & _). exists t'. split; [done|]. rewrite E1. apply elem_of_app. right. by left. Qed.
Lemma put_sorted t x l : sorted l -> sorted (put t x l).
Proof. intros S. by destruct (put_spec t x l S) as (_ & _ & _ & _ & _ & _ & S' & _). Qed.
Lemma schedule_keeps d n o s s' p : sorted (si_inbox s) -> schedule d n o s = Val s' -> p ∈ si_inbox s -> p ∈ si_inbox s'.
Proof.
  intros S E I. destruct o as [to m|to|from r|t|e]; cbn [schedule] in E.
  - injection E as <-. destruct (si_conns s !! _); [|done]. destruct (is_partitioned _ _ _); [done|]. by apply put_keeps.
  - unfold assertM in E. destruct (negb _); [|done]. injection E as <-. destruct (is_partitioned _ _ _); cbn [set_inbox si_inbox].
    + destruct (dr_hangs d); [by apply put_keeps|]. apply put_keeps; [by apply put_sorted|by apply put_keeps].
    + apply put_keeps; [by do 2 apply put_sorted|]. apply put_keeps; [by apply put_sorted|by apply put_keeps].
  - injection E as <-. cbn [si_conns]. destruct (si_conns s !! _); [|done]. cbn [set_inbox si_inbox]. by apply put_keeps.
  - injection E as <-. destruct (get _ _) as [[? ? []]|]; try (cbn [set_inbox si_inbox]; by apply put_keeps). done.
  - by injection E as <-.
Qed.
Lemma schedule_fires d n o s s' log : ok s log -> schedule d n o s = Val s' -> fires s log -> fires s' (log ++ [SiOut (si_time s) n o]).
Proof.
  intros O E F k T I. pose proof (j_sorted _ _ O) as S. unfold timers in I. rewrite omap_app in I. apply elem_of_app in I as [I|I].
  - eapply due_mono; [exact (F k T I)|]. intros m t [J|J]; [left; by rewrite wakes_out|right]. apply pendw_elem in J as (e & J & Je). apply pendw_elem. exists e. split; [by eapply schedule_keeps|done].
  - cbn in I. destruct o as [| | |d0|]; try by apply elem_of_nil in I. destruct (N.eqb_spec n k) as [->|]; [|by apply elem_of_nil in I]. apply elem_of_list_singleton in I as ->. cbn [schedule] in E. injection E as <-.
    set (T := si_time s + d0). assert (New : due k T (log ++ [SiOut (si_time s) k (STimer d0)]) (put T (Sched k (0, 0) InWake) (si_inbox s))).
    { destruct (put_new T (Sched k (0, 0) InWake) _ S) as (t' & L & J). exists k, t'. split; [by left|]. split; [done|]. right. apply pendw_elem. by eexists. }
    destruct (get T (si_inbox s)) as [[nd rm inp]|] eqn:Eg; [|exact New]. destruct inp; try exact New. unfold get in Eg. destruct (List.find _ _) as [[u e]|] eqn:Ef; [|done]. injection Eg as ->. apply find_some in Ef as [J Eu]. apply N.eqb_eq in Eu. cbn in Eu. subst u.
    exists nd, T. split; [by right|]. split; [lia|]. right. apply pendw_elem. eexists. split; [apply elem_of_list_In; exact J|done].
Qed.
Lemma schedule_all_fires n os s s' x log : ok s log -> schedule_all n os s = Val (s', x) -> fires s log -> fires s' (log ++ x).
Proof.
  revert s x log. induction os as [|[o d] os IH]; intros s x log O E F; cbn [schedule_all] in E; [injection E as <- <-; by rewrite app_nil_r|].
  destruct (schedule d n o s) as [s1|] eqn:E1; [|done]. cbn [mbind_M] in E. destruct (schedule_all n os s1) as [[s2 y]|] eqn:E2; [|done]. cbn [mbind_M] in E. injection E as <- <-.
  pose proof (IH _ _ _ (proj2 (schedule_ok _ _ _ _ _ _ E1 O)) E2 (schedule_fires _ _ _ _ _ _ O E1 F)) as F2. by rewrite <- app_assoc in F2.
Qed.
Lemma schedule_pipes_fires l s s' x log : ok s log -> schedule_pipes l s = Val (s', x) -> fires s log -> fires s' (log ++ x).
Proof.
  revert s x log. induction l as [|[n os] l IH]; intros s x log O E F; cbn [schedule_pipes] in E; [injection E as <- <-; by rewrite app_nil_r|].
  destruct (schedule_all n os s) as [[s1 x1]|] eqn:E1; [|done]. cbn [mbind_M] in E. destruct (schedule_pipes l s1) as [[s2 y]|] eqn:E2; [|done]. cbn [mbind_M] in E. injection E as <- <-.
  pose proof (IH _ _ _ (proj2 (schedule_all_ok _ _ _ _ _ _ E1 O)) E2 (schedule_all_fires _ _ _ _ _ _ O E1 F)) as F2. by rewrite <- app_assoc in F2.
Qed.
Lemma told_timers n t k c log : timers n (log ++ told t k c) = timers n log.
Proof. destruct c; cbn [told]; [apply timers_call|by rewrite app_nil_r]. Qed.
Lemma told_wakes n t k c log u : u ∈ wakes n log -> u ∈ wakes n (log ++ told t k c).
Proof. unfold wakes. rewrite omap_app, elem_of_app. tauto. Qed.
Lemma give_fires e t s s2 s3 c log : good s log -> next_input s = Some (t, e, s2) -> give e (popped t s2) = Val (s3, c) -> fires s log -> fires s3 (log ++ told t (sd_node e) c).
Proof.
  intros G En Eg F n T I. pose proof G as [A B _ _ _ _]. rewrite told_timers in I. destruct (give_fields _ _ _ _ Eg) as (F1 & _). rewrite F1. cbn [popped si_inbox]. eapply due_mono; [exact (F n T I)|].
  intros m u [J|J]; [left; by apply told_wakes|]. destruct (next_ok _ _ _ _ _ A En) as (Lt & Et & Ei & O2 & [(P & Ett & _)|(l & El & _ & ->)]).
  - right. rewrite Ei, take_none; [done|]. by rewrite Ett.
  - rewrite El in *. rewrite take_head by (rewrite <- El; by destruct A). apply pendw_elem in J as (x & J & Jx). apply elem_of_cons in J as [J|J].
    + injection J as -> ->. destruct Jx as [Jx <-]. left. unfold give in Eg. rewrite Jx in Eg. injection Eg as _ <-. cbn [told]. rewrite wakes_call, N.eqb_refl. apply elem_of_app. right. by left.
    + right. apply pendw_elem. by exists x.
Qed.
Lemma step_fires w s s' x log : spaced w -> sim_step w s = Val (s', x) -> good s log -> fires s log -> fires s' (log ++ x).
Proof.
  intros [Sl So] E G F. unfold all_outs in So. apply Forall_app in So as [So1 So2]. destruct (sim_step_inv _ _ _ _ E) as (s1 & x1 & Ep & H).
  pose proof (divide_good (tn_fail w) (tn_pipes w).*1 _ _ (configure_good _ (tn_pipes w).*1 _ _ Sl G)) as G0.
  pose proof (schedule_pipes_good _ _ _ _ log So1 Ep G0) as G1.
  assert (F1 : fires s1 (log ++ x1)). { eapply schedule_pipes_fires; [exact (g_ok _ _ G0)|exact Ep|]. unfold fires. replace (si_inbox (divide _ _ _)) with (si_inbox s); [exact F|]. unfold divide, configure. destruct (_ <? _); destruct (_ =? _); done. }
  destruct H as [(_ & -> & ->)|(t & e & s2 & s3 & c & y & En & L & Eg & Ea & ->)]; [done|].
  pose proof (give_good _ _ _ _ _ _ _ G1 En Eg) as G3. pose proof (give_fires _ _ _ _ _ _ _ G1 En Eg F1) as F3. pose proof (schedule_all_fires _ _ _ _ _ _ (g_ok _ _ G3) Ea F3) as F4. by rewrite <- !app_assoc in F4.
Qed.
Lemma run_fires ws s s' x log : Forall spaced ws -> sim_run ws s = Val (s', x) -> good s log -> fires s log -> fires s' (log ++ x).
Proof.
  revert s x log. induction ws as [|w ws IH]; intros s x log Fw E O F; cbn [sim_run] in E; [injection E as <- <-; by rewrite app_nil_r|]. apply Forall_cons in Fw as [F1 F2].
  destruct (sim_step w s) as [[s1 x1]|] eqn:E1; [|done]. cbn [mbind_M] in E. destruct (sim_run ws s1) as [[s2 y]|] eqn:E2; [|done]. cbn [mbind_M] in E. injection E as <- <-.
  pose proof (IH _ _ _ F2 E2 (step_good _ _ _ _ _ F1 E1 O) (step_fires _ _ _ _ _ F1 E1 O F)) as O2. by rewrite <- app_assoc in O2.
Qed.
Lemma fired_run ws t range s log : Forall spaced ws -> sim_run ws (sim0 t range false) = Val (s, log) -> is_done s = true ->
  forall n T, T ∈ timers n log -> exists m u, (m = n \/ u = T) /\ T <= u /\ u ∈ wakes m log.
Proof.
  intros Fw E D n T I. assert (F0 : fires (sim0 t range false) []) by (intros k T' I'; by apply elem_of_nil in I').
  pose proof (run_fires _ _ _ _ [] Fw E (sim0_good t range) F0) as F. cbn [app] in F. destruct (F n T I) as (m & u & A & B & C). exists m, u. split; [done|]. split; [done|].
  destruct C as [C|C]; [done|]. unfold is_done in D. destruct (si_inbox s); [by apply elem_of_nil in C|done].
Qed.
