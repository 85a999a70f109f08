(** Proofs about the simulator when nothing happens at the same instant. *)
From Coq Require Import Sorted.
From Verif Require Import Base SimModel SimSpec SimProofs.
Open Scope N_scope.

Notation from_ip n := (fun b : saddr => b.1 =? n).
Record good (s : sim) (log : list sitem) : Prop := {
  g_ok : ok s log;
  g_time : Forall (fun p => si_time s < p.1) (si_inbox s);
  g_part : si_part s = ∅;
  g_fails : si_fails s = false;
  g_lat : forall k l, si_lat s !! k = Some l -> 1 <= l;
  g_all : forall n r, heard r n log ++ pend r (from_ip n) (si_inbox s) ≡ₚ sent n r log;
}.
Lemma latency_pos d a b s : fair_draw d -> (forall k l, si_lat s !! k = Some l -> 1 <= l) -> 1 <= latency d a b s.
Proof.
  intros Fd G. unfold latency. destruct (si_lat s !! (a, b)) as [l|] eqn:E; [|lia]. specialize (G _ _ E). destruct (N.leb_spec l 1); [done|]. destruct (dr_coin d); [lia|].
  assert (0 < l / 2) by (apply N.div_str_pos; lia). specialize (Fd _ H0). assert (l / 2 <= l) by (apply N.div_le_upper_bound; lia). lia.
Qed.
Lemma good_in s s' log : good s log -> ok s' log -> Forall (fun p => si_time s' < p.1) (si_inbox s') -> si_part s' = si_part s -> si_fails s' = si_fails s -> si_lat s' = si_lat s ->
  (forall n r, pend r (from_ip n) (si_inbox s') = pend r (from_ip n) (si_inbox s)) -> good s' log.
Proof. intros [A B C D E F] O T E1 E2 E3 P. constructor; rewrite ?E1, ?E2, ?E3; try done. intros n r. rewrite P. apply F. Qed.
Lemma writes_nil n r b t k o : match o with SWrite _ _ => False | _ => True end -> writes_to n r b (SiOut t k o) = [].
Proof. by destruct o. Qed.
Lemma all_skip s log n o : match o with SWrite to m => si_conns s !! (n, to.1) = None | _ => True end -> good s log -> good s (log ++ [SiOut (si_time s) n o]).
Proof.
  intros Q [A B C D E F]. constructor; try done; [by apply ok_skip|]. intros k r. unfold heard. rewrite received_out by done. rewrite sent_snoc.
  replace (writes_to k r (talking k r log) (SiOut (si_time s) n o)) with (@nil N); [rewrite app_nil_r; apply F|]. destruct o as [to m|to|from x|t|e]; try done. cbn [writes_to].
  destruct (N.eqb_spec n k) as [->|]; [|done]. destruct (N.eqb_spec to.1 r) as [<-|]; [|done]. cbn [andb]. destruct (talking k to.1 log) eqn:T; [|done]. apply (j_conn _ _ A) in T as [? T]. congruence.
Qed.
Lemma good_put s log t x : good s log -> plain x -> si_time s < t -> good (set_inbox (put t x (si_inbox s)) s) log.
Proof.
  intros G P L. pose proof G as [A B _ _ _ _]. apply (good_in s); try done.
  - apply ok_put; [done|done|lia].
  - cbn [set_inbox si_inbox si_time]. rewrite Forall_forall in *. intros p [[I _]|I]%put_elem; [lia|by apply B|by destruct A].
  - intros n r. exact (proj1 (put_pend t x _ r (from_ip n) (j_sorted _ _ A) P)).
Qed.
Definition spaced_out (o : sout) : Prop := match o with STimer d => 1 <= d | _ => True end.
Lemma schedule_good d n o s s' log : fair_draw d -> spaced_out o -> schedule d n o s = Val s' -> good s log -> good s' (log ++ [SiOut (si_time s) n o]).
Proof.
  intros Fd So E G. pose proof (schedule_ok _ _ _ _ _ _ E (g_ok _ _ G)) as [T O']. pose proof G as [A B C D Gl Ga]. pose proof (fun a b => latency_pos d a b s Fd Gl) as Lp.
  destruct o as [to m|to|from r|t|e]; cbn [schedule] in E; cbn [spaced_out] in So.
  - injection E as <-. destruct (si_conns s !! (n, to.1)) as [port|] eqn:Ec; [|by apply all_skip].
    assert (Pn : is_partitioned n to.1 s = false) by (unfold is_partitioned; rewrite C; by rewrite !bool_decide_false). rewrite Pn in *.
    set (time := default _ _ + _) in *. set (x := Sched _ _ (InReceived _ _)) in *. destruct (put_spec time x _ (j_sorted _ _ A)) as (t' & l1 & l2 & E1 & E2 & E3 & _).
    assert (Lt : si_time s < time).
    { unfold time. specialize (Lp n to.1). destruct (last_between to.1 (n, port) (si_inbox s)) as [u|] eqn:El; unfold default; cbn [from_option id]; [|lia]. unfold last_between in El. destruct (last _) as [q|] eqn:Eq; [|done]. injection El as <-.
      apply last_Some in Eq as (k & Eq). assert (q ∈ si_inbox s) as I. { apply elem_of_list_In. eapply proj1, filter_In. rewrite Eq. apply in_or_app. right. by left. }
      rewrite Forall_forall in B. specialize (B q I). cbn beta in B. lia. }
    constructor; cbn [set_inbox si_inbox si_time si_part si_fails si_lat]; try done.
    + rewrite Forall_forall in *. intros p [[I _]|I]%put_elem; [lia|by apply B|by destruct A].
    + intros k r. unfold heard. rewrite received_out by done. rewrite sent_snoc, <- Ga, E1, E2. unfold heard, pend. rewrite !omap_app. cbn [omap list_omap snd sd_input sd_node x fst writes_to].
      destruct (N.eqb_spec to.1 r) as [<-|]; cbn [andb]; [|rewrite andb_false_r; cbn [andb]; by rewrite app_nil_r]. rewrite andb_true_r. destruct (N.eqb_spec n k) as [<-|]; cbn [andb]; [|by rewrite app_nil_r].
      assert (Tk : talking n to.1 log = true) by (apply (j_conn _ _ A); by eexists). rewrite Tk. solve_Permutation.
  - unfold assertM in E. destruct (negb (to.1 =? n)); [|done]. injection E as <-. assert (Pn : is_partitioned n to.1 s = false) by (unfold is_partitioned; rewrite C; by rewrite !bool_decide_false). rewrite Pn in *.
    assert (G0 := all_skip s log n (SConnect to) Logic.I G). specialize (Lp n to.1).
    assert (G1 := good_put s _ (si_time s + 1) (Sched n to (InConnecting to)) G0 Logic.I ltac:(lia)).
    assert (G2 := good_put _ _ (si_time s + latency d n to.1 s) (Sched to.1 (n, dr_port d) (InConnected (n, dr_port d) to SInbound)) G1 Logic.I ltac:(cbn; lia)).
    refine (good_put _ _ (si_time s + latency d n to.1 s) (Sched n to (InConnected to (n, dr_port d) SOutbound)) G2 Logic.I _). cbn. lia.
  - injection E as <-. assert (G0 := all_skip s log n (SDisconnect from r) Logic.I G). set (s1 := Sim _ _ _ _ _ _ _ _ _ _) in *.
    assert (G1 : good s1 (log ++ [SiOut (si_time s) n (SDisconnect from r)])).
    { apply (good_in s); try done. apply (ok_same s); try done; [by destruct G0|]. apply Forall_app. split; [by destruct A|]. apply Forall_singleton. by eexists _, _. }
    cbn [si_conns s1] in *. destruct (si_conns s !! (n, from.1)) as [port|]; [|exact G1].
    refine (good_put s1 _ (si_time s + latency d n from.1 s1) (Sched from.1 (n, port) (InDisconnected (n, port) ConnectionReset)) G1 Logic.I _). specialize (Lp n from.1). unfold latency in *. cbn in *. lia.
  - injection E as <-. assert (G0 := all_skip s log n (STimer t) Logic.I G).
    assert (G1 : good (set_inbox (put (si_time s + t) (Sched n (0, 0) InWake) (si_inbox s)) s) (log ++ [SiOut (si_time s) n (STimer t)])).
    { apply (good_in s); try done; [by apply ok_timer| |].
      - cbn [set_inbox si_inbox si_time]. rewrite Forall_forall in *. intros p [[I _]|I]%put_elem; [lia|by apply B|by destruct A].
      - intros k r. cbn [set_inbox si_inbox]. destruct (put_spec (si_time s + t) (Sched n (0, 0) InWake) _ (j_sorted _ _ A)) as (t' & l1 & l2 & E1 & E2 & _). rewrite E1. rewrite E2. unfold pend. by rewrite !omap_app. }
    destruct (get (si_time s + t) (si_inbox s)) as [[? ? []]|]; done.
  - injection E as <-. assert (G0 := all_skip s log n (SEvent e) Logic.I G). apply (good_in s); done.
Qed.
Notation spaced_outs os := (Forall (fun x : sout * draw => fair_draw x.2 /\ match x.1 with STimer d => 1 <= d | _ => True end) os).
Lemma schedule_all_good n os s s' x log : spaced_outs os -> schedule_all n os s = Val (s', x) -> good s log -> good s' (log ++ x).
Proof.
  revert s x log. induction os as [|[o d] os IH]; intros s x log F E O; cbn [schedule_all] in E; [injection E as <- <-; by rewrite app_nil_r|].
  apply Forall_cons in F as [[F1 F2] F3]. destruct (schedule d n o s) as [s1|] eqn:E1; [|done]. cbn [mbind_M] in E. destruct (schedule_all n os s1) as [[s2 y]|] eqn:E2; [|done]. cbn [mbind_M] in E. injection E as <- <-.
  pose proof (schedule_good _ _ _ _ _ _ F1 F2 E1 O) as O1. pose proof (IH _ _ _ F3 E2 O1) as O2. by rewrite <- app_assoc in O2.
Qed.
Lemma schedule_pipes_good l s s' x log : spaced_outs (concat l.*2) -> schedule_pipes l s = Val (s', x) -> good s log -> good s' (log ++ x).
Proof.
  revert s x log. induction l as [|[n os] l IH]; intros s x log F E O; cbn [schedule_pipes] in E; [injection E as <- <-; by rewrite app_nil_r|].
  cbn [fmap list_fmap snd concat] in F. apply Forall_app in F as [F1 F2]. destruct (schedule_all n os s) as [[s1 x1]|] eqn:E1; [|done]. cbn [mbind_M] in E. destruct (schedule_pipes l s1) as [[s2 y]|] eqn:E2; [|done]. cbn [mbind_M] in E. injection E as <- <-.
  pose proof (schedule_all_good _ _ _ _ _ _ F1 E1 O) as O1. pose proof (IH _ _ _ F2 E2 O1) as O2. by rewrite <- app_assoc in O2.
Qed.
Lemma configure_good lat nodes s log : (forall p, 1 <= lat p) -> good s log -> good (configure lat nodes s) log.
Proof.
  intros Lp G. unfold configure. destruct (_ <? _); [|done]. pose proof G as [A B C D E F]. constructor; cbn [si_inbox si_time si_part si_fails si_lat]; try done; [apply (ok_same s); try done; by destruct A|].
  assert (Gen : forall ps m, (forall k l, m !! k = Some l -> 1 <= l) -> forall k l, foldl (fun m p => or_insert (p.2, p.1) (lat p) (or_insert p (lat p) m)) m ps !! k = Some l -> 1 <= l).
  { induction ps as [|p ps IH]; intros m Hm; [exact Hm|]. cbn [foldl]. apply IH.
    assert (Ins : forall q v m, 1 <= v -> (forall k l, m !! k = Some l -> 1 <= l) -> forall k l, or_insert q v m !! k = Some l -> 1 <= l).
    { intros q v m' Hv Hm' k l. unfold or_insert. destruct (m' !! q); [by apply Hm'|]. intros [[_ <-]|[_ E']]%lookup_insert_Some; [done|by eapply Hm']. }
    apply Ins; [done|]. by apply Ins. }
  by apply Gen.
Qed.
Lemma divide_good f nodes s log : good s log -> good (divide f nodes s) log.
Proof.
  intros G. unfold divide. destruct (_ =? _); [|done]. pose proof G as [A B C D E F]. constructor; cbn [si_inbox si_time si_part si_fails si_lat]; try done; [apply (ok_same s); try done; by destruct A|].
  rewrite C, D. cbn [andb]. induction (pairs_of nodes) as [|p ps IH]; [done|]. cbn [foldl]. replace (∅ ∖ {[p]}) with (∅ : gset (N * N)) by set_solver. exact IH.
Qed.
Lemma give_fields e s s' c : give e s = Val (s', c) -> si_inbox s' = si_inbox s /\ si_time s' = si_time s /\ si_part s' = si_part s /\ si_fails s' = si_fails s /\ si_lat s' = si_lat s.
Proof.
  unfold give. destruct (sd_input e) as [a|a local l|a r|a m|]; intros E.
  - by injection E as <- <-.
  - destruct (_ || _); by injection E as <- <-.
  - unfold assertM in E. destruct (negb _); [|done]. by injection E as <- <-.
  - by injection E as <- <-.
  - by injection E as <- <-.
Qed.
Lemma give_quiet e s s' c : plain e -> give e s = Val (s', c) -> match c with Some c => quiet c | None => True end.
Proof.
  unfold give, plain. destruct (sd_input e) as [a|a local l|a r|a m|]; intros P E; try done.
  - injection E as <- <-. by destruct (bool_decide _).
  - destruct (_ || _); injection E as <- <-; [by destruct (si_conns s !! _)|done].
  - unfold assertM in E. destruct (negb _); [|done]. injection E as <- <-. by destruct (_ || _).
Qed.
Lemma heard_told r n log t k c : match c with Some c => quiet c | None => True end -> heard r n (log ++ told t k c) = heard r n log /\ sent n r (log ++ told t k c) = sent n r log.
Proof. intros Q. destruct c as [c|]; cbn [told]; [|by rewrite app_nil_r]. unfold heard. rewrite received_call, sent_call. destruct c; try done; by rewrite app_nil_r. Qed.
Lemma give_good e t s s2 s3 c log : good s log -> next_input s = Some (t, e, s2) -> give e (popped t s2) = Val (s3, c) -> good s3 (log ++ told t (sd_node e) c).
Proof.
  intros G En Eg. pose proof G as [A B C D El F]. pose proof (give_ok _ _ _ _ _ _ _ A En Eg) as [T3 O3]. destruct (give_fields _ _ _ _ Eg) as (F1 & F2 & F3 & F4 & F5).
  assert (S2 : si_part s2 = si_part s /\ si_fails s2 = si_fails s /\ si_lat s2 = si_lat s). { unfold next_input in En. destruct (si_priority s); [destruct (si_inbox s) as [|[? ?] ?]; [done|]|]; by injection En as <- <- <-. }
  destruct S2 as (S3 & S4 & S5). cbn [popped si_part si_fails si_lat si_inbox] in *.
  destruct (next_ok _ _ _ _ _ A En) as (Lt & Et & Ei & O2 & [(P & Ett & _)|(l & Ell & _ & ->)]).
  - assert (Tn : take_out t (si_inbox s2) = si_inbox s) by (rewrite Ei; apply take_none; by rewrite Ett). rewrite Tn in F1.
    constructor; [done|rewrite T3, F1, Ett; done|congruence|congruence|intros k l'; rewrite F5, S5; apply El|]. intros n r. destruct (heard_told r n log t (sd_node e) c (give_quiet _ _ _ _ P Eg)) as [-> ->]. rewrite F1. apply F.
  - assert (Tn : take_out t (si_inbox s) = l) by (rewrite Ell; apply take_head; rewrite <- Ell; by destruct A). rewrite Tn in F1.
    assert (Ts : Forall (fun p => t < p.1) l) by (pose proof (j_sorted _ _ A) as S; rewrite Ell in S; by inversion S).
    constructor; [done|rewrite T3, F1; done|congruence|congruence|intros k l'; rewrite F5; apply El|]. intros n r. rewrite F1. specialize (F n r). rewrite Ell in F. unfold pend in F. cbn [omap list_omap snd] in F.
    assert (Cases : plain e \/ match sd_input e with InReceived _ _ | InWake => True | _ => False end) by (unfold plain; destruct (sd_input e); auto). destruct Cases as [P|Q].
    + destruct (heard_told r n log t (sd_node e) c (give_quiet _ _ _ _ P Eg)) as [-> ->]. unfold plain in P. destruct (sd_input e); done.
    + unfold give in Eg. destruct (sd_input e) as [| | |a m|]; try done; injection Eg as <- <-; cbn [told]; unfold heard in *; rewrite received_call, sent_call.
      * rewrite <- app_assoc. destruct (_ && _); exact F.
      * rewrite app_nil_r. exact F.
Qed.
Lemma step_good w s s' x log : spaced w -> sim_step w s = Val (s', x) -> good s log -> good s' (log ++ x).
Proof.
  intros [Sl So] E G. unfold all_outs in So. apply Forall_app in So as [So1 So2]. destruct (sim_step_inv _ _ _ _ E) as (s1 & x1 & Ep & H).
  pose proof (schedule_pipes_good _ _ _ _ log So1 Ep (divide_good _ _ _ _ (configure_good _ _ _ _ Sl G))) as G1.
  destruct H as [(_ & -> & ->)|(t & e & s2 & s3 & c & y & En & L & Eg & Ea & ->)]; [done|].
  pose proof (give_good _ _ _ _ _ _ _ G1 En Eg) as G3. pose proof (schedule_all_good _ _ _ _ _ _ So2 Ea G3) as G4. by rewrite <- !app_assoc in G4.
Qed.
Lemma run_good ws s s' x log : Forall spaced ws -> sim_run ws s = Val (s', x) -> good s log -> good s' (log ++ x).
Proof.
  revert s x log. induction ws as [|w ws IH]; intros s x log F E O; cbn [sim_run] in E; [injection E as <- <-; by rewrite app_nil_r|]. apply Forall_cons in F as [F1 F2].
  destruct (sim_step w s) as [[s1 x1]|] eqn:E1; [|done]. cbn [mbind_M] in E. destruct (sim_run ws s1) as [[s2 y]|] eqn:E2; [|done]. cbn [mbind_M] in E. injection E as <- <-.
  pose proof (step_good _ _ _ _ _ F1 E1 O) as O1. pose proof (IH _ _ _ F2 E2 O1) as O2. by rewrite <- app_assoc in O2.
Qed.
Lemma sim0_good t r : good (sim0 t r false) [].
Proof. constructor; [apply sim0_ok|apply Forall_nil_2|reflexivity|reflexivity|intros k l E; cbn [sim0 si_lat] in E; by rewrite lookup_empty in E|reflexivity]. Qed.
Lemma settled_pend s r p : is_settled s = true -> pend r p (si_inbox s) = [].
Proof.
  unfold is_settled, pend. induction (si_inbox s) as [|q l IH]; [done|]. cbn. intros [E1 E2]%andb_prop. rewrite IH by done. by destruct (sd_input q.2).
Qed.
Lemma complete_run ws t range s log : Forall spaced ws -> sim_run ws (sim0 t range false) = Val (s, log) -> is_settled s = true ->
  forall n r, heard r n log ≡ₚ sent n r log.
Proof. intros F E S n r. pose proof (run_good _ _ _ _ [] F E (sim0_good t range)) as G. pose proof (g_all _ _ G n r) as P. cbn [app] in P. rewrite settled_pend in P by done. by rewrite app_nil_r in P. Qed.
