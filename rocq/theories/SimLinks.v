(** Proofs about the connections of the simulated nodes, and about panics. *)
From Coq Require Import Sorted.
From Verif Require Import Base SimModel SimSpec SimProofs SimSpace.
Open Scope N_scope.

Lemma attempting_snoc n r l i : attempting n r (l ++ [i]) = attempts n r (attempting n r l) i.
Proof. unfold attempting. by rewrite foldl_app. Qed.
Lemma fit_snoc l i : calls_fit l -> call_fits l i -> calls_fit (l ++ [i]).
Proof.
  intros F Fi l1 j l2 E. destruct (decide (l2 = [])) as [->|Ne].
  - apply app_inj_tail in E as [-> ->]. done.
  - destruct (exists_last Ne) as (l3 & k & ->). rewrite app_comm_cons, app_assoc in E. apply app_inj_tail in E as [E _]. by apply (F l1 j l3).
Qed.
Record linked (s : sim) (log : list sitem) : Prop := {
  k_att : forall n r, (n, r) ∈ si_atts s -> attempting n r log = true;
  k_fit : calls_fit log;
}.
Lemma schedule_fields d n o s s' : schedule d n o s = Val s' -> si_atts s' = si_atts s /\ si_conns s' = si_conns s.
Proof.
  destruct o as [to m|to|from r|t|e]; cbn [schedule]; intros E.
  - injection E as <-. destruct (si_conns s !! _); [|done]. by destruct (is_partitioned _ _ _).
  - unfold assertM in E. destruct (negb _); [|done]. injection E as <-. by destruct (is_partitioned _ _ _).
  - injection E as <-. by destruct (_ !! _).
  - injection E as <-. destruct (get _ _) as [[? ? []]|]; done.
  - by injection E as <-.
Qed.
Lemma linked_out s s' log t n o : linked s log -> si_atts s' = si_atts s -> linked s' (log ++ [SiOut t n o]).
Proof. intros [A B] E. constructor; [|by apply fit_snoc]. intros k r. rewrite E, attempting_snoc. apply A. Qed.
Lemma schedule_all_linked n os s s' x log : schedule_all n os s = Val (s', x) -> linked s log -> linked s' (log ++ x).
Proof.
  revert s x log. induction os as [|[o d] os IH]; intros s x log E O; cbn [schedule_all] in E; [injection E as <- <-; by rewrite app_nil_r|].
  destruct (schedule d n o s) as [s1|] eqn:E1; [|done]. cbn [mbind_M] in E. destruct (schedule_all n os s1) as [[s2 y]|] eqn:E2; [|done]. cbn [mbind_M] in E. injection E as <- <-.
  destruct (schedule_fields _ _ _ _ _ E1) as [Ea _]. pose proof (IH _ _ _ E2 (linked_out _ _ _ (si_time s) n o O Ea)) as O2. by rewrite <- app_assoc in O2.
Qed.
Lemma schedule_pipes_linked l s s' x log : schedule_pipes l s = Val (s', x) -> linked s log -> linked s' (log ++ x).
Proof.
  revert s x log. induction l as [|[n os] l IH]; intros s x log E O; cbn [schedule_pipes] in E; [injection E as <- <-; by rewrite app_nil_r|].
  destruct (schedule_all n os s) as [[s1 x1]|] eqn:E1; [|done]. cbn [mbind_M] in E. destruct (schedule_pipes l s1) as [[s2 y]|] eqn:E2; [|done]. cbn [mbind_M] in E. injection E as <- <-.
  pose proof (schedule_all_linked _ _ _ _ _ _ E1 O) as O1. pose proof (IH _ _ _ E2 O1) as O2. by rewrite <- app_assoc in O2.
Qed.
Lemma eqb_pair (a b c d : N) : (a =? c) && (b =? d) = bool_decide ((a, b) = (c, d)).
Proof. destruct (N.eqb_spec a c), (N.eqb_spec b d); cbn; symmetry; apply bool_decide_eq_true || apply bool_decide_eq_false; congruence. Qed.
Lemma give_linked e s s' c t log : (forall n r, is_Some (si_conns s !! (n, r)) <-> talking n r log = true) -> give e s = Val (s', c) -> linked s log -> linked s' (log ++ told t (sd_node e) c).
Proof.
  intros Cn E [A B]. unfold give in E. destruct (sd_input e) as [a|a local l|a r|a m|].
  - injection E as <- <-. destruct (bool_decide_reflect ((sd_node e, a.1) ∈ si_atts s)) as [I|I]; cbn [told].
    + rewrite app_nil_r. constructor; [|done]. cbn [with_links si_atts]. intros n r [J|J]%elem_of_union; [by apply A|]. apply elem_of_singleton in J. rewrite <- J in I. by apply A.
    + constructor; [|by apply fit_snoc]. cbn [with_links si_atts]. intros n r J. rewrite attempting_snoc. cbn [attempts]. rewrite eqb_pair. case_bool_decide as D; [done|]. apply elem_of_union in J as [J|J]; [by apply A|]. apply elem_of_singleton in J. congruence.
  - assert (NT : si_conns s !! (sd_node e, a.1) = None -> talking (sd_node e) a.1 log = false).
    { intros Eq. destruct (talking (sd_node e) a.1 log) eqn:Tk; [|done]. apply Cn in Tk as [? Tk]. congruence. }
    destruct l; cbn [negb orb] in E.
    + injection E as <- <-. destruct (si_conns s !! (sd_node e, a.1)) as [pp|] eqn:Eq; cbn [told]; [rewrite app_nil_r; by constructor|].
      constructor; [|apply fit_snoc; [done|exact (NT eq_refl)]]. cbn [with_links si_atts]. intros n r J. rewrite attempting_snoc. by apply A.
    + destruct (bool_decide_reflect ((sd_node e, a.1) ∈ si_atts s)) as [I|I].
      * injection E as <- <-. destruct (si_conns s !! (sd_node e, a.1)) as [pp|] eqn:Eq; cbn [told].
        -- rewrite app_nil_r. constructor; [|done]. cbn [with_links si_atts]. intros n r [J _]%elem_of_difference. by apply A.
        -- constructor; [|apply fit_snoc; [done|split; [exact (NT eq_refl)|by apply A]]]. cbn [with_links si_atts]. intros n r [J Nj]%elem_of_difference. rewrite attempting_snoc. cbn [attempts]. rewrite eqb_pair. case_bool_decide as D; [|by apply A].
           exfalso. apply Nj. apply elem_of_singleton. congruence.
      * injection E as <- <-. cbn [told]. rewrite app_nil_r. constructor; [|done]. cbn [with_links si_atts]. intros n r [J _]%elem_of_difference. by apply A.
  - unfold assertM in E. destruct (negb _); [|done]. injection E as <- <-. destruct (_ || _) eqn:Eb; cbn [told].
    + constructor.
      * cbn [with_links si_atts]. intros n q [J Nj]%elem_of_difference. rewrite attempting_snoc. cbn [attempts]. rewrite eqb_pair. rewrite bool_decide_false; [by apply A|]. intros D. apply Nj. apply elem_of_singleton. congruence.
      * apply fit_snoc; [done|]. apply orb_true_elim in Eb as [Eb|Eb]; apply bool_decide_eq_true in Eb; [right; by apply A|left; by apply Cn].
    + rewrite app_nil_r. constructor; [|done]. cbn [with_links si_atts]. intros n q [J _]%elem_of_difference. by apply A.
  - injection E as <- <-. constructor; [|by apply fit_snoc]. intros n q J. cbn [told]. rewrite attempting_snoc. by apply A.
  - injection E as <- <-. constructor; [|by apply fit_snoc]. intros n q J. cbn [told]. rewrite attempting_snoc. by apply A.
Qed.
Lemma linked_same s s' log : linked s log -> si_atts s' = si_atts s -> linked s' log.
Proof. intros [A B] E. constructor; [|done]. rewrite E. exact A. Qed.
Lemma step_linked w s s' x log : sim_step w s = Val (s', x) -> ok s log -> linked s log -> linked s' (log ++ x).
Proof.
  intros E O G. destruct (sim_step_inv _ _ _ _ E) as (s1 & x1 & Ep & H).
  destruct (schedule_pipes_ok _ _ _ _ log Ep) as [_ O1]; [by apply divide_ok, configure_ok|].
  assert (G1 : linked s1 (log ++ x1)). { eapply schedule_pipes_linked; [exact Ep|]. apply (linked_same s); [done|]. unfold divide, configure. destruct (_ <? _); destruct (_ =? _); done. }
  destruct H as [(_ & -> & ->)|(t & e & s2 & s3 & c & y & En & L & Eg & Ea & ->)]; [done|].
  destruct (next_ok _ _ _ _ _ O1 En) as (_ & _ & _ & O2 & _).
  assert (G2 : linked (popped t s2) (log ++ x1)). { apply (linked_same s1); [done|]. unfold next_input in En. destruct (si_priority s1); [destruct (si_inbox s1) as [|[? ?] ?]; [done|]|]; by injection En as <- <- <-. }
  pose proof (give_linked _ _ _ _ t _ (fun n r => j_conn _ _ O2 n r : is_Some (si_conns (popped t s2) !! (n, r)) <-> _) Eg G2) as G3. pose proof (schedule_all_linked _ _ _ _ _ _ Ea G3) as G4. by rewrite <- !app_assoc in G4.
Qed.
Lemma run_linked ws s s' x log : sim_run ws s = Val (s', x) -> ok s log -> linked s log -> linked s' (log ++ x).
Proof.
  revert s x log. induction ws as [|w ws IH]; intros s x log E O G; cbn [sim_run] in E; [injection E as <- <-; by rewrite app_nil_r|].
  destruct (sim_step w s) as [[s1 x1]|] eqn:E1; [|done]. cbn [mbind_M] in E. destruct (sim_run ws s1) as [[s2 y]|] eqn:E2; [|done]. cbn [mbind_M] in E. injection E as <- <-.
  destruct (step_ok _ _ _ _ _ E1 O) as [_ O1]. pose proof (IH _ _ _ E2 O1 (step_linked _ _ _ _ _ E1 O G)) as O2. by rewrite <- app_assoc in O2.
Qed.
Lemma fit_run ws t range fails s log : sim_run ws (sim0 t range fails) = Val (s, log) -> calls_fit log.
Proof.
  intros E. assert (G : linked (sim0 t range fails) []). { constructor; [intros n r I; cbn in I; set_solver|]. intros l1 i l2 E'. by destruct l1. }
  pose proof (run_linked _ _ _ _ [] E (sim0_ok _ _ _) G) as [_ F]. exact F.
Qed.

(** ** Panics *)
Section among.
Context (nodes : list N).
Definition known (p : sched) : Prop :=
  sd_node p ∈ nodes /\ match sd_input p with InConnecting a | InConnected a _ _ => a.1 ∈ nodes | _ => True end.
Record closed (s : sim) : Prop := {
  c_inbox : Forall (fun p => known p.2) (si_inbox s);
  c_prio : Forall known (si_priority s);
  c_conn : forall n r, is_Some (si_conns s !! (n, r)) -> r ∈ nodes;
}.
Lemma closed_put s t x : sorted (si_inbox s) -> closed s -> known x -> closed (set_inbox (put t x (si_inbox s)) s).
Proof. intros S [A B C] K. constructor; try done. cbn [set_inbox si_inbox]. rewrite Forall_forall in *. intros p [[_ ->]|I]%put_elem; [done|by apply A|done]. Qed.
Definition fine_out (n : N) (o : sout) : Prop := match o with SConnect to => to.1 ∈ nodes /\ to.1 <> n | _ => True end.
Lemma schedule_closed d n o s log : ok s log -> n ∈ nodes -> fine_out n o -> closed s -> exists s', schedule d n o s = Val s' /\ closed s'.
Proof.
  intros O In Fo Cl. pose proof (j_sorted _ _ O) as S. destruct o as [to m|to|from r|t|e]; cbn [schedule].
  - eexists. split; [reflexivity|]. destruct (si_conns s !! (n, to.1)) as [port|] eqn:Ec; [|done]. destruct (is_partitioned _ _ _); [done|]. apply closed_put; [done|done|]. split; [|done]. apply (c_conn _ Cl n). by eexists.
  - destruct Fo as [F1 F2]. unfold assertM. destruct (N.eqb_spec to.1 n) as [|_]; [done|]. cbn [negb]. eexists. split; [reflexivity|].
    set (t1 := si_time s + 1). set (x1 := Sched n to (InConnecting to)). assert (C1 : closed (set_inbox (put t1 x1 (si_inbox s)) s)) by (by apply closed_put).
    destruct (put_spec t1 x1 _ S) as (_ & _ & _ & _ & _ & _ & S1 & _).
    destruct (is_partitioned _ _ _).
    + destruct (dr_hangs d); [exact C1|]. by apply (closed_put (set_inbox (put t1 x1 (si_inbox s)) s) t1 (Sched n to (InDisconnected to UnexpectedEof))).
    + set (t2 := si_time s + latency d n to.1 s). set (x2 := Sched to.1 _ _). assert (C2 : closed (set_inbox (put t2 x2 (put t1 x1 (si_inbox s))) s)).
      { apply (closed_put (set_inbox (put t1 x1 (si_inbox s)) s) t2 x2); [done|done|]. done. }
      destruct (put_spec t2 x2 _ S1) as (_ & _ & _ & _ & _ & _ & S2 & _).
      by apply (closed_put (set_inbox (put t2 x2 (put t1 x1 (si_inbox s))) s) t2 (Sched n to (InConnected to (n, dr_port d) SOutbound))).
  - eexists. split; [reflexivity|]. set (s1 := Sim _ _ _ _ _ _ _ _ _ _). assert (C1 : closed s1). { destruct Cl as [A B C]. constructor; try done. apply Forall_app. split; [done|]. apply Forall_singleton. done. }
    cbn [si_conns s1]. destruct (si_conns s !! (n, from.1)) as [port|] eqn:Ec; [|exact C1]. apply (closed_put s1); [done|done|]. split; [|done]. apply (c_conn _ Cl n). by eexists.
  - eexists. split; [reflexivity|]. assert (C1 : closed (set_inbox (put (si_time s + t) (Sched n (0, 0) InWake) (si_inbox s)) s)) by (by apply closed_put). destruct (get _ _) as [[? ? []]|]; done.
  - eexists. split; [reflexivity|]. destruct Cl. by constructor.
Qed.
Lemma schedule_all_closed n os s log : ok s log -> n ∈ nodes -> (forall o d, (o, d) ∈ os -> fine_out n o) -> closed s -> exists s' x, schedule_all n os s = Val (s', x) /\ closed s' /\ ok s' (log ++ x).
Proof.
  revert s log. induction os as [|[o d] os IH]; intros s log O In Fo Cl; cbn [schedule_all]; [exists s, []; by rewrite app_nil_r|].
  destruct (schedule_closed d n o s log O In (Fo o d ltac:(by left)) Cl) as (s1 & E1 & C1). rewrite E1. cbn [mbind_M]. destruct (schedule_ok _ _ _ _ _ _ E1 O) as [_ O1].
  destruct (IH s1 _ O1 In (fun o' d' I => Fo o' d' ltac:(by right)) C1) as (s2 & y & E2 & C2 & O2). rewrite E2. cbn [mbind_M]. eexists _, _. split; [reflexivity|]. split; [done|]. by rewrite <- app_assoc in O2.
Qed.
Lemma schedule_pipes_closed l s log : ok s log -> (forall n os, (n, os) ∈ l -> n ∈ nodes /\ forall o d, (o, d) ∈ os -> fine_out n o) -> closed s -> exists s' x, schedule_pipes l s = Val (s', x) /\ closed s' /\ ok s' (log ++ x).
Proof.
  revert s log. induction l as [|[n os] l IH]; intros s log O Fo Cl; cbn [schedule_pipes]; [exists s, []; by rewrite app_nil_r|].
  destruct (Fo n os ltac:(by left)) as [In Fn]. destruct (schedule_all_closed n os s log O In Fn Cl) as (s1 & x & E1 & C1 & O1). rewrite E1. cbn [mbind_M].
  destruct (IH s1 _ O1 (fun n' os' I => Fo n' os' ltac:(by right)) C1) as (s2 & y & E2 & C2 & O2). rewrite E2. cbn [mbind_M]. eexists _, _. split; [reflexivity|]. split; [done|]. by rewrite <- app_assoc in O2.
Qed.
Lemma schedule_all_any n os s log : ok s log -> n ∈ nodes -> (forall o d, (o, d) ∈ os -> match o with SConnect to => to.1 ∈ nodes | _ => True end) -> closed s ->
  (exists s' x, schedule_all n os s = Val (s', x) /\ closed s' /\ ok s' (log ++ x)) \/ (schedule_all n os s = Panic (PAssert 471) /\ exists to d, (SConnect to, d) ∈ os /\ to.1 = n).
Proof.
  revert s log. induction os as [|[o d] os IH]; intros s log O In Fo Cl; cbn [schedule_all]; [left; exists s, []; by rewrite app_nil_r|].
  assert (Cases : fine_out n o \/ exists to, o = SConnect to /\ to.1 = n). { pose proof (Fo o d ltac:(by left)) as Fo1. destruct o as [| to| | |]; auto. destruct (decide (to.1 = n)); [right; by exists to|left; done]. }
  destruct Cases as [F1|(to & -> & En)].
  2:{ right. split; [|exists to, d; split; [by left|done]]. cbn [schedule]. unfold assertM. rewrite En, N.eqb_refl. reflexivity. }
  destruct (schedule_closed d n o s log O In F1 Cl) as (s1 & E1 & C1). rewrite E1. cbn [mbind_M]. destruct (schedule_ok _ _ _ _ _ _ E1 O) as [_ O1].
  destruct (IH s1 _ O1 In (fun o' d' I => Fo o' d' ltac:(by right)) C1) as [(s2 & y & E2 & C2 & O2)|(E2 & to & d' & I & En)]; rewrite E2; cbn [mbind_M].
  - left. eexists _, _. split; [reflexivity|]. split; [done|]. by rewrite <- app_assoc in O2.
  - right. split; [reflexivity|]. exists to, d'. split; [by right|done].
Qed.
Lemma give_closed e s : known e -> closed s -> (exists s' c, give e s = Val (s', c) /\ closed s') \/ give e s = Panic (PAssert 391).
Proof.
  intros [K1 K2] [A B C]. unfold give. destruct (sd_input e) as [a|a local l|a r|a m|].
  - left. eexists _, _. split; [reflexivity|]. by constructor.
  - left. destruct (_ || _); eexists _, _; (split; [reflexivity|]); constructor; try done. cbn [with_links si_conns]. intros n r [? [[Eq _]|[_ Eq]]%lookup_insert_Some]; [congruence|]. apply (C n). by eexists.
  - unfold assertM. destruct (negb _); [|by right]. left. eexists _, _. split; [reflexivity|]. constructor; try done. cbn [with_links si_conns]. intros n q [? [_ Eq]%lookup_delete_Some]. apply (C n). by eexists.
  - left. eexists _, _. split; [reflexivity|]. by constructor.
  - left. eexists _, _. split; [reflexivity|]. by constructor.
Qed.
Lemma closed_fields s s' : closed s -> si_inbox s' = si_inbox s -> si_priority s' = si_priority s -> si_conns s' = si_conns s -> closed s'.
Proof. intros [A B C] E1 E2 E3. constructor; rewrite ?E1, ?E2, ?E3; done. Qed.
Lemma step_closed w s log : among nodes w -> ok s log -> closed s ->
  (exists s' x, sim_step w s = Val (s', x) /\ closed s' /\ ok s' (log ++ x)) \/ sim_step w s = Panic (PAssert 391) \/
  (sim_step w s = Panic (PAssert 471) /\ exists to d, (SConnect to, d) ∈ tn_react w).
Proof.
  intros (Ew & Fp & Fr) O Cl. destruct (sim_step w s) as [[s' x]|p] eqn:E.
  { left. exists s', x. split; [done|]. split; [|by eapply step_ok]. revert E. unfold sim_step.
    destruct (schedule_pipes_closed (tn_pipes w) (divide (tn_fail w) (tn_pipes w).*1 (configure (tn_lat w) (tn_pipes w).*1 s)) log) as (s1 & x1 & E1 & C1 & O1).
    { by apply divide_ok, configure_ok. }
    { intros n os I. split; [rewrite <- Ew; apply elem_of_list_fmap; by exists (n, os)|]. intros o d J. exact (Fp n os o d I J). }
    { apply (closed_fields s); [done| | |]; unfold divide, configure; destruct (_ <? _); destruct (_ =? _); done. }
    rewrite E1. cbn [mbind_M]. destruct (next_input s1) as [[[t e] s2]|] eqn:En; [|intros E; by injection E as <- <-]. destruct (next_ok _ _ _ _ _ O1 En) as (Lt & Et & Ei & O2 & Hn).
    unfold assertM. destruct (si_time s2 <=? t); [|done]. destruct (existsb _ _); [|done]. fold (popped t s2). intros E.
    assert (K : known e /\ closed (popped t s2)).
    { destruct C1 as [A B C]. destruct Hn as [(_ & _ & _ & Ep)|(l & El & Ep & ->)].
      - rewrite Ep in B. apply Forall_cons in B as [B1 B2]. split; [done|]. constructor; cbn [popped si_inbox si_priority si_conns].
        + rewrite Ei. rewrite Forall_forall in *. intros q I. apply A. eapply elem_sub; [apply take_sub|exact I].
        + done.
        + unfold next_input in En. rewrite Ep in En. apply (f_equal (fmap (fun z => si_conns z.2))) in En. cbn in En. injection En as <-. exact C.
      - rewrite El in A. split; [by apply Forall_cons in A as [A _]|]. constructor; cbn [popped si_inbox si_priority si_conns]; try done. rewrite <- El in A. rewrite Forall_forall in *. intros q I. apply A. eapply elem_sub; [apply take_sub|exact I]. }
    destruct K as [K1 K2]. destruct (give_closed e _ K1 K2) as [(s3 & c & Eg & C3)|Eg]; rewrite Eg in E; [|done]. cbn [mbind_M] in E.
    destruct (give_ok _ _ _ _ _ _ _ O1 En Eg) as [_ O3].
    destruct (schedule_all_any (sd_node e) (tn_react w) s3 _ O3 (proj1 K1) Fr C3) as [(s4 & y & E4 & C4 & O4)|(E4 & _)]; rewrite E4 in E; [|done]. cbn [mbind_M] in E. by injection E as <- <-. }
  right. revert E. unfold sim_step.
  destruct (schedule_pipes_closed (tn_pipes w) (divide (tn_fail w) (tn_pipes w).*1 (configure (tn_lat w) (tn_pipes w).*1 s)) log) as (s1 & x1 & E1 & C1 & O1).
  { by apply divide_ok, configure_ok. }
  { intros n os I. split; [rewrite <- Ew; apply elem_of_list_fmap; by exists (n, os)|]. intros o d J. exact (Fp n os o d I J). }
  { apply (closed_fields s); [done| | |]; unfold divide, configure; destruct (_ <? _); destruct (_ =? _); done. }
  rewrite E1. cbn [mbind_M]. destruct (next_input s1) as [[[t e] s2]|] eqn:En; [|intros E; done]. destruct (next_ok _ _ _ _ _ O1 En) as (Lt & Et & Ei & O2 & Hn).
  assert (K : known e /\ closed (popped t s2)).
  { destruct C1 as [A B C]. destruct Hn as [(_ & _ & _ & Ep)|(l & El & Ep & ->)].
    - rewrite Ep in B. apply Forall_cons in B as [B1 B2]. split; [done|]. constructor; cbn [popped si_inbox si_priority si_conns].
      + rewrite Ei. rewrite Forall_forall in *. intros q I. apply A. eapply elem_sub; [apply take_sub|exact I].
      + done.
      + unfold next_input in En. rewrite Ep in En. apply (f_equal (fmap (fun z => si_conns z.2))) in En. cbn in En. injection En as <-. exact C.
    - rewrite El in A. split; [by apply Forall_cons in A as [A _]|]. constructor; cbn [popped si_inbox si_priority si_conns]; try done. rewrite <- El in A. rewrite Forall_forall in *. intros q I. apply A. eapply elem_sub; [apply take_sub|exact I]. }
  destruct K as [K1 K2]. unfold assertM. destruct (N.leb_spec (si_time s2) t) as [_|]; [|lia].
  assert (Ex : existsb (N.eqb (sd_node e)) (tn_pipes w).*1 = true). { apply existsb_exists. exists (sd_node e). split; [|apply N.eqb_refl]. rewrite Ew. apply elem_of_list_In. apply K1. }
  rewrite Ex. fold (popped t s2). destruct (give_closed e _ K1 K2) as [(s3 & c & Eg & C3)|Eg]; rewrite Eg; cbn [mbind_M]; [|intros E; left; symmetry; exact E].
  destruct (give_ok _ _ _ _ _ _ _ O1 En Eg) as [_ O3].
  destruct (schedule_all_any (sd_node e) (tn_react w) s3 _ O3 (proj1 K1) Fr C3) as [(s4 & y & E4 & C4 & O4)|(E4 & to & d & I & _)]; rewrite E4; cbn [mbind_M]; [done|]. intros E. right. split; [symmetry; exact E|by exists to, d].
Qed.
Lemma run_closed ws s log : Forall (among nodes) ws -> ok s log -> closed s -> forall p, sim_run ws s = Panic p ->
  p = PAssert 391 \/ (p = PAssert 471 /\ exists w to d, w ∈ ws /\ (SConnect to, d) ∈ tn_react w).
Proof.
  revert s log. induction ws as [|w ws IH]; intros s log F O Cl p E; cbn [sim_run] in E; [done|]. apply Forall_cons in F as [F1 F2].
  destruct (step_closed w s log F1 O Cl) as [(s1 & x & E1 & C1 & O1)|[E1|(E1 & to & d & I)]]; rewrite E1 in E; cbn [mbind_M] in E.
  - destruct (sim_run ws s1) as [[s2 y]|q] eqn:E2; [done|]. cbn [mbind_M] in E. injection E as <-. destruct (IH s1 _ F2 O1 C1 q E2) as [->|(-> & w' & to & d & I1 & I2)]; [by left|right]. split; [done|]. exists w', to, d. split; [by right|done].
  - injection E as <-. by left.
  - injection E as <-. right. split; [done|]. exists w, to, d. split; [by left|done].
Qed.
End among.
Lemma panics_run nodes ws t range fails p : Forall (among nodes) ws -> sim_run ws (sim0 t range fails) = Panic p ->
  p = PAssert 391 \/ (p = PAssert 471 /\ exists w to d, w ∈ ws /\ (SConnect to, d) ∈ tn_react w).
Proof.
  intros F E. refine (run_closed nodes ws _ [] F (sim0_ok _ _ _) _ p E). constructor; cbn; [apply Forall_nil_2|apply Forall_nil_2|]. intros n r [? Eq]. by rewrite lookup_empty in Eq.
Qed.
(** To compute whether turns are among nodes. *)
Definition amongb (nodes : list N) (w : turn) : bool :=
  bool_decide ((tn_pipes w).*1 = nodes) &&
  forallb (fun p => forallb (fun x => match x.1 with SConnect to => existsb (N.eqb to.1) nodes && negb (to.1 =? p.1) | _ => true end) p.2) (tn_pipes w) &&
  forallb (fun x => match x.1 with SConnect to => existsb (N.eqb to.1) nodes | _ => true end) (tn_react w).
Lemma existsb_in x l : existsb (N.eqb x) l = true -> x ∈ l.
Proof. intros (y & I & E)%existsb_exists. apply N.eqb_eq in E as ->. by apply elem_of_list_In. Qed.
Lemma amongb_ok nodes ws : forallb (amongb nodes) ws = true -> Forall (among nodes) ws.
Proof.
  intros F. apply Forall_forall. intros w I. rewrite forallb_forall in F. specialize (F w (proj1 (elem_of_list_In _ _) I)). unfold amongb in F. apply andb_prop in F as [F F3]. apply andb_prop in F as [F1 F2].
  apply bool_decide_eq_true in F1. rewrite forallb_forall in F2, F3. split; [done|]. split.
  - intros n os o d I1 I2. specialize (F2 _ (proj1 (elem_of_list_In _ _) I1)). cbn [fst snd] in F2. rewrite forallb_forall in F2. specialize (F2 _ (proj1 (elem_of_list_In _ _) I2)). cbn [fst] in F2. destruct o; try done.
    apply andb_prop in F2 as [E1 E2]. split; [by apply existsb_in|]. destruct (N.eqb_spec to.1 n); [done|done].
  - intros o d I2. specialize (F3 _ (proj1 (elem_of_list_In _ _) I2)). cbn [fst] in F3. destruct o; try done. by apply existsb_in.
Qed.
