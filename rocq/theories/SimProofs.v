(** Proofs about the simulator. *)
From Coq Require Import Sorted.
From Verif Require Import Base SimModel SimSpec.
Open Scope N_scope.

Notation sorted := (StronglySorted (fun p q : N * sched => p.1 < q.1)).
Lemma sorted_app l1 l2 : sorted (l1 ++ l2) -> sorted l1 /\ sorted l2 /\ forall p q, p ∈ l1 -> q ∈ l2 -> p.1 < q.1.
Proof.
  induction l1 as [|x l1 IH]; cbn [app]; intros S; [split; [constructor|]; split; [done|]; intros p q I%elem_of_nil; done|].
  inversion S as [|? ? S' F]; subst. destruct (IH S') as (A & B & C). apply Forall_app in F as [F1 F2]. split; [by constructor|]. split; [done|].
  intros p q [->|I]%elem_of_cons J; [by eapply Forall_forall in F2|by apply C].
Qed.
(** The first free time. *)
Lemma put_spec t x l : sorted l -> exists t' l1 l2, put t x l = l1 ++ (t', x) :: l2 /\ l = l1 ++ l2 /\ t <= t' /\ sorted (put t x l) /\
  (forall p, p ∈ l1 -> p.1 < t') /\ (forall u, t <= u -> u < t' -> exists y, (u, y) ∈ l).
Proof.
  revert t. induction l as [|[u y] l IH]; intros t S; cbn [put].
  { exists t, [], []. split; [done|]. split; [done|]. split; [lia|]. split; [repeat constructor|]. split; [by intros p I%elem_of_nil|intros; lia]. }
  inversion S as [|? ? S' F]; subst. destruct (N.ltb_spec t u) as [L|L].
  { exists t, [], ((u, y) :: l). split; [done|]. split; [done|]. split; [lia|]. split; [|split; [by intros p I%elem_of_nil|intros; lia]].
    constructor; [done|]. apply Forall_cons. split; [done|]. eapply Forall_impl; [exact F|]. cbn. intros. lia. }
  assert (G : forall t', t <= t' -> u < t' -> (forall v, t <= v < t' -> v = u \/ t' <= v) -> exists t'' l1 l2, (u, y) :: put t' x l = l1 ++ (t'', x) :: l2 /\ (u, y) :: l = l1 ++ l2 /\ t <= t'' /\ sorted ((u, y) :: put t' x l) /\
    (forall p, p ∈ l1 -> p.1 < t'') /\ (forall u0, t <= u0 -> u0 < t'' -> exists y0, (u0, y0) ∈ (u, y) :: l)).
  { intros t' Lt Lu Gap. destruct (IH t' S') as (t'' & l1 & l2 & E1 & E2 & E3 & E4 & E5 & E6). exists t'', ((u, y) :: l1), l2. rewrite E1 in *. split; [done|]. split; [by rewrite E2|]. split; [lia|].
    split; [|split].
    - constructor; [done|]. rewrite E2 in F. apply Forall_app in F as [F1 F2]. apply Forall_app. split; [done|]. apply Forall_cons. cbn in *. split; [lia|done].
    - intros p [->|I]%elem_of_cons; [cbn; lia|by apply E5].
    - intros v V1 V2. destruct (N.lt_ge_cases v t') as [Vl|Vg].
      + destruct (Gap v) as [->|]; [lia|exists y; by left|lia].
      + destruct (E6 v Vg V2) as (z & Iz). exists z. by right. }
  destruct (N.eqb_spec t u) as [->|Ne]; apply G; try lia.
Qed.
Lemma take_head t x l : sorted ((t, x) :: l) -> take_out t ((t, x) :: l) = l.
Proof.
  intros S. inversion S as [|? ? S' F]; subst. unfold take_out. cbn [List.filter fst]. rewrite N.eqb_refl. cbn [negb]. clear S S'.
  induction l as [|[u y] l IH]; [done|]. apply Forall_cons in F as [F1 F2]. cbn [List.filter fst] in *. destruct (N.eqb_spec u t); [lia|]. cbn [negb]. by rewrite IH.
Qed.
Lemma take_sub t l : take_out t l `sublist_of` l.
Proof. induction l as [|p l IH]; [constructor|]. unfold take_out in *. cbn [List.filter]. destruct (negb _); by constructor. Qed.
Lemma take_none t l : Forall (fun p : N * sched => t < p.1) l -> take_out t l = l.
Proof. intros F. induction F as [|p l Lp F IH]; [done|]. unfold take_out in *. cbn [List.filter]. destruct (N.eqb_spec p.1 t); [lia|]. cbn. by rewrite IH. Qed.
Lemma elem_sub {A} (l k : list A) x : l `sublist_of` k -> x ∈ l -> x ∈ k.
Proof. induction 1 as [|y l k S IH|y l k S IH]; [done| |]; [|intros I; right; by apply IH]. intros [->|I]%elem_of_cons; [by left|right; by apply IH]. Qed.
Lemma sorted_sub l k : l `sublist_of` k -> sorted k -> sorted l.
Proof.
  induction 1 as [|x l k S IH|x l k S IH]; intros Sk; [constructor| |]; inversion Sk as [|? ? Sk' F]; subst; [|by apply IH].
  constructor; [by apply IH|]. rewrite Forall_forall in *. intros p I. apply F. by eapply elem_sub.
Qed.
Lemma omap_sub {A B} (f : A -> option B) l k : l `sublist_of` k -> omap f l `sublist_of` omap f k.
Proof.
  induction 1 as [|x l k S IH|x l k S IH]; [done| |]; cbn; destruct (f x); [by apply sublist_skip|done|by apply sublist_cons|done].
Qed.
Lemma last_between_le r a l t : sorted l -> last_between r a l = Some t -> forall p, p ∈ l -> sd_node p.2 = r -> sd_remote p.2 = a -> p.1 <= t.
Proof.
  intros S E p I Er Ea. unfold last_between in E. set (f := fun _ => _ && _) in E. assert (J : p ∈ List.filter f l) by (apply elem_of_list_In, filter_In; split; [by apply elem_of_list_In|]; unfold f; rewrite Er, N.eqb_refl; by rewrite bool_decide_true).
  assert (S' : sorted (List.filter f l)). { eapply sorted_sub; [|exact S]. clear. induction l as [|p l IH]; [constructor|]. cbn. destruct (f p); by constructor. }
  destruct (last (List.filter f l)) as [q|] eqn:El; [|done]. injection E as <-. apply last_Some in El as (k & El). rewrite El in *.
  destruct (sorted_app _ _ S') as (_ & _ & Lt). apply elem_of_app in J as [J|J]; [|apply elem_of_list_singleton in J as ->; lia]. specialize (Lt p q J). assert (q ∈ [q]) by (by left). specialize (Lt H). lia.
Qed.
Lemma last_between_none r a l p : last_between r a l = None -> p ∈ l -> sd_node p.2 = r -> sd_remote p.2 = a -> False.
Proof.
  intros E I Er Ea. unfold last_between in E. set (f := fun _ => _ && _) in E. assert (J : p ∈ List.filter f l) by (apply elem_of_list_In, filter_In; split; [by apply elem_of_list_In|]; unfold f; rewrite Er, N.eqb_refl; by rewrite bool_decide_true).
  destruct (last (List.filter f l)) as [q|] eqn:El; [done|]. apply last_None in El. rewrite El in J. by apply elem_of_nil in J.
Qed.

(** ** The log *)
Lemma talking_snoc n r l i : talking n r (l ++ [i]) = talks n r (talking n r l) i.
Proof. unfold talking. by rewrite foldl_app. Qed.
Lemma sent_snoc n r l i : sent n r (l ++ [i]) = sent n r l ++ writes_to n r (talking n r l) i.
Proof.
  unfold sent, talking. generalize false. induction l as [|j l IH]; intros b; cbn [app sent_from foldl]; [by rewrite app_nil_r|]. by rewrite IH, app_assoc.
Qed.
Definition out_only (i : sitem) : Prop := match i with SiOut _ _ _ => True | _ => False end.
Lemma received_out r p l i : out_only i -> received_from r p (l ++ [i]) = received_from r p l.
Proof. intros O. unfold received_from. rewrite omap_app. destruct i; [|done]. cbn. by rewrite app_nil_r. Qed.
Lemma wakes_out n l i : out_only i -> wakes n (l ++ [i]) = wakes n l.
Proof. intros O. unfold wakes. rewrite omap_app. destruct i; [|done]. cbn. by rewrite app_nil_r. Qed.
Lemma talking_out n r l i : out_only i -> talking n r (l ++ [i]) = talking n r l.
Proof. intros O. rewrite talking_snoc. by destruct i. Qed.
(** What is pending. *)
Definition pend (r : N) (p : saddr -> bool) (l : inbox) : list N :=
  omap (fun e => match sd_input e.2 with InReceived a m => if (sd_node e.2 =? r) && p a then Some m else None | _ => None end) l.
Definition pendw (n : N) (l : inbox) : list N :=
  omap (fun e => match sd_input e.2 with InWake => if sd_node e.2 =? n then Some e.1 else None | _ => None end) l.
Definition plain (x : sched) : Prop := match sd_input x with InReceived _ _ | InWake => False | _ => True end.
Definition woken (n : N) (l : inbox) (log : list sitem) : Prop :=
  exists ps : list (N * N), ps.*1 ⊆+ timers n log /\ ps.*2 ≡ₚ wakes n log ++ pendw n l /\ Forall (fun p => p.1 <= p.2) ps.

Record ok (s : sim) (log : list sitem) : Prop := {
  j_sorted : sorted (si_inbox s);
  j_time : Forall (fun p => si_time s <= p.1) (si_inbox s);
  j_recv : Forall (fun p => match sd_input p.2 with InReceived a _ => sd_remote p.2 = a | _ => True end) (si_inbox s);
  j_prio : Forall (fun x => exists a r, sd_input x = InDisconnected a r) (si_priority s);
  j_conn : forall n r, is_Some (si_conns s !! (n, r)) <-> talking n r log = true;
  j_order : forall r a, received r a log ++ pend r (fun b => bool_decide (b = a)) (si_inbox s) `sublist_of` sent a.1 r log;
  j_wake : forall n, woken n (si_inbox s) log;
  j_log : StronglySorted N.le (item_time <$> log) /\ Forall (fun i => item_time i <= si_time s) log;
}.
Lemma timers_snoc n l i : timers n l ⊆+ timers n (l ++ [i]).
Proof. unfold timers. rewrite omap_app. by apply submseteq_inserts_r. Qed.
Lemma log_snoc log i t : StronglySorted N.le (item_time <$> log) /\ Forall (fun j => item_time j <= t) log -> item_time i = t ->
  StronglySorted N.le (item_time <$> log ++ [i]) /\ Forall (fun j => item_time j <= t) (log ++ [i]).
Proof.
  intros [S F] E. split; [|apply Forall_app; split; [done|]; apply Forall_singleton; lia]. rewrite fmap_app. cbn. induction log as [|j log IH]; cbn; [repeat constructor|].
  inversion S as [|? ? S' G]; subst. apply Forall_cons in F as [F1 F2]. constructor; [by apply IH|]. apply Forall_app. split; [done|]. apply Forall_singleton. lia.
Qed.
(** An output that leaves nothing behind. *)
Lemma ok_skip s log n o : ok s log -> ok s (log ++ [SiOut (si_time s) n o]).
Proof.
  intros [A B C D E F G L]. constructor; try done.
  - intros k r. by rewrite talking_out.
  - intros r a. unfold received. rewrite received_out by done. rewrite sent_snoc. apply sublist_inserts_r, F.
  - intros k. destruct (G k) as (ps & P1 & P2 & P3). exists ps. rewrite wakes_out by done. split; [|done]. etransitivity; [exact P1|apply timers_snoc].
  - by apply log_snoc.
Qed.
Lemma put_pend t x l r p : sorted l -> plain x -> pend r p (put t x l) = pend r p l /\ pendw r (put t x l) = pendw r l.
Proof.
  intros S Px. destruct (put_spec t x l S) as (t' & l1 & l2 & E1 & E2 & _). rewrite E1, E2. unfold pend, pendw. rewrite !omap_app. cbn. unfold plain in Px. by destruct (sd_input x).
Qed.
Lemma put_elem t x l p : sorted l -> p ∈ put t x l -> (t <= p.1 /\ p.2 = x) \/ p ∈ l.
Proof.
  intros S. destruct (put_spec t x l S) as (t' & l1 & l2 & E1 & E2 & E3 & _). rewrite E1, E2, !elem_of_app, elem_of_cons. intros [I|[->|I]]; auto.
Qed.
Lemma ok_put s log t x : ok s log -> plain x -> si_time s <= t -> ok (set_inbox (put t x (si_inbox s)) s) log.
Proof.
  intros [A B C D E F G L] Px Lt. destruct (put_spec t x _ A) as (_ & _ & _ & _ & _ & _ & A' & _). constructor; cbn [set_inbox si_inbox si_time si_priority si_conns]; try done.
  - rewrite Forall_forall in *. intros p [[I _]|I]%put_elem; [lia|by apply B|done].
  - rewrite Forall_forall in *. intros p [[_ ->]|I]%put_elem; [unfold plain in Px; by destruct (sd_input x)|by apply C|done].
  - intros r a. rewrite (proj1 (put_pend t x _ r (fun b => bool_decide (b = a)) A Px)). apply F.
  - intros n. unfold woken. rewrite (proj2 (put_pend t x _ n (fun _ => true) A Px)). apply G.
Qed.
Lemma ok_write s log d n to m port : ok s log -> si_conns s !! (n, to.1) = Some port ->
  let time := default (si_time s) (last_between to.1 (n, port) (si_inbox s)) + latency d n to.1 s in
  ok (set_inbox (put time (Sched to.1 (n, port) (InReceived (n, port) m)) (si_inbox s)) s) (log ++ [SiOut (si_time s) n (SWrite to m)]).
Proof.
  intros O Ec time. pose proof (ok_skip s log n (SWrite to m) O) as O'. destruct O as [A B C D E F G L]. destruct O' as [_ _ _ _ E' F' G' L'].
  set (x := Sched to.1 (n, port) (InReceived (n, port) m)). destruct (put_spec time x _ A) as (t' & l1 & l2 & E1 & E2 & E3 & A' & E4 & E5).
  assert (Lt : si_time s <= time).
  { unfold time. destruct (last_between to.1 (n, port) (si_inbox s)) as [u|] eqn:El; cbn [default]; [|lia]. unfold last_between in El. destruct (last _) as [q|] eqn:Eq; [|done]. injection El as <-.
    apply last_Some in Eq as (k & Eq). assert (q ∈ si_inbox s) as I. { apply elem_of_list_In. eapply proj1, filter_In. rewrite Eq. apply in_or_app. right. by left. }
    rewrite Forall_forall in B. specialize (B q I). cbn beta in B. change (si_time s <= q.1 + latency d n to.1 s). lia. }
  assert (After : forall p, p ∈ l2 -> sd_node p.2 = to.1 -> sd_remote p.2 = (n, port) -> False).
  { intros p I Pn Pr. assert (I' : p ∈ si_inbox s) by (rewrite E2; apply elem_of_app; by right). rewrite E1 in A'. destruct (sorted_app _ _ A') as (_ & S2 & _). inversion S2 as [|? ? S3 F3]; subst.
    rewrite Forall_forall in F3. specialize (F3 p I). cbn in F3. unfold time in E3. destruct (last_between to.1 (n, port) (si_inbox s)) as [u|] eqn:El; [|by eapply last_between_none].
    pose proof (last_between_le _ _ _ _ A El p I' Pn Pr). unfold default in E3. cbn [from_option id] in E3. lia. }
  constructor; cbn [set_inbox si_inbox si_time si_priority si_conns]; try done.
  - rewrite Forall_forall in *. intros p [[I _]|I]%put_elem; [lia|by apply B|done].
  - rewrite Forall_forall in *. intros p [[_ ->]|I]%put_elem; [done|by apply C|done].
  - intros r a. unfold received. rewrite received_out by done. rewrite sent_snoc, E1. specialize (F r a). rewrite E2 in F. unfold pend in *. rewrite omap_app in *. cbn [omap list_omap snd sd_input sd_node x].
    destruct (N.eqb_spec to.1 r) as [Er|Nr]; cbn [andb].
    2:{ by apply sublist_inserts_r. }
    destruct (bool_decide_reflect ((n, port) = a)) as [Ea|Na]; [|by apply sublist_inserts_r].
    assert (En : omap (fun e => match sd_input e.2 with InReceived a0 m0 => if (sd_node e.2 =? r) && bool_decide (a0 = a) then Some m0 else None | _ => None end) l2 = []).
    { rewrite Forall_forall in C. assert (C2 : forall p, p ∈ l2 -> match sd_input p.2 with InReceived a0 _ => sd_remote p.2 = a0 | _ => True end) by (intros p I; apply C; rewrite E2; apply elem_of_app; by right).
      clear -C2 After Er Ea. subst a r. induction l2 as [|p l2 IH]; [done|]. cbn. rewrite IH.
      - pose proof (C2 p ltac:(by left)) as Cp. destruct (sd_input p.2) as [| | |a0 m0|] eqn:Ei; try done. destruct (N.eqb_spec (sd_node p.2) to.1) as [En|]; [|done]. cbn. destruct (bool_decide_reflect (a0 = (n, port))) as [->|]; [|done].
        exfalso. by apply (After p); [left| |].
      - intros q I. apply After. by right.
      - intros q I. apply C2. by right. }
    rewrite En in *. rewrite app_nil_r in F. subst a r. cbn [fst] in F |- *.
    assert (T : talking n to.1 log = true) by (apply E; by exists port). cbn [writes_to]. rewrite !N.eqb_refl, T. cbn [andb]. rewrite app_assoc. by apply sublist_app.
  - intros k. destruct (G' k) as (ps & P1 & P2 & P3). exists ps. split; [done|]. split; [|done]. rewrite P2, E1, E2. unfold pendw. rewrite !omap_app. done.
Qed.
Lemma ok_timer s log n d : ok s log -> ok (set_inbox (put (si_time s + d) (Sched n (0, 0) InWake) (si_inbox s)) s) (log ++ [SiOut (si_time s) n (STimer d)]).
Proof.
  intros O. pose proof (ok_skip s log n (STimer d) O) as O'. destruct O as [A B C D E F G L]. destruct O' as [_ _ _ _ E' F' G' L'].
  set (x := Sched n (0, 0) InWake). destruct (put_spec (si_time s + d) x _ A) as (t' & l1 & l2 & E1 & E2 & E3 & A' & _).
  constructor; cbn [set_inbox si_inbox si_time si_priority si_conns]; try done.
  - rewrite Forall_forall in *. intros p [[I _]|I]%put_elem; [lia|by apply B|done].
  - rewrite Forall_forall in *. intros p [[_ ->]|I]%put_elem; [done|by apply C|done].
  - intros r a. specialize (F' r a). rewrite E1. rewrite E2 in F'. unfold pend in *. rewrite omap_app in *. done.
  - intros k. destruct (G k) as (ps & P1 & P2 & P3). unfold woken. rewrite wakes_out by done. unfold timers, pendw. rewrite omap_app, E1, omap_app. cbn [omap list_omap snd fst sd_input sd_node x].
    rewrite E2 in P2. unfold pendw in P2. rewrite omap_app in P2. destruct (N.eqb_spec n k) as [->|Nk].
    + exists (ps ++ [(si_time s + d, t')]). rewrite !fmap_app. cbn [fmap list_fmap fst snd]. split; [apply submseteq_app; [exact P1|done]|]. split; [|apply Forall_app; split; [done|]; apply Forall_singleton; cbn; lia].
      rewrite P2. solve_Permutation.
    + exists ps. rewrite app_nil_r. done.
Qed.
Lemma ok_same s s' log : ok s log -> si_inbox s' = si_inbox s -> si_time s' = si_time s -> si_conns s' = si_conns s ->
  Forall (fun x => exists a r, sd_input x = InDisconnected a r) (si_priority s') -> ok s' log.
Proof. intros [A B C D E F G L] E1 E2 E3 P. constructor; rewrite ?E1, ?E2, ?E3; done. Qed.
Lemma schedule_ok d n o s s' log : schedule d n o s = Val s' -> ok s log -> si_time s' = si_time s /\ ok s' (log ++ [SiOut (si_time s) n o]).
Proof.
  intros E O. pose proof (ok_skip s log n o O) as O'. destruct o as [to m|to|from r|t|e]; cbn [schedule] in E.
  - injection E as <-. destruct (si_conns s !! (n, to.1)) as [port|] eqn:Ec; [|done]. destruct (is_partitioned n to.1 s); [done|]. split; [done|]. by apply ok_write.
  - unfold assertM in E. destruct (negb (to.1 =? n)); [|done]. injection E as <-. destruct (is_partitioned n to.1 s).
    + assert (O1 : ok (set_inbox (put (si_time s + 1) (Sched n to (InConnecting to)) (si_inbox s)) s) (log ++ [SiOut (si_time s) n (SConnect to)])) by (apply ok_put; [done|exact Logic.I|lia]).
      split; [done|]. destruct (dr_hangs d); [exact O1|]. apply (ok_put _ _ (si_time s + 1) (Sched n to (InDisconnected to UnexpectedEof)) O1); [exact Logic.I|cbn; lia].
    + assert (O1 : ok (set_inbox (put (si_time s + 1) (Sched n to (InConnecting to)) (si_inbox s)) s) (log ++ [SiOut (si_time s) n (SConnect to)])) by (apply ok_put; [done|exact Logic.I|lia]).
      split; [done|]. assert (O2 := ok_put _ _ (si_time s + latency d n to.1 s) (Sched to.1 (n, dr_port d) (InConnected (n, dr_port d) to SInbound)) O1 Logic.I ltac:(cbn; lia)).
      apply (ok_put _ _ (si_time s + latency d n to.1 s) (Sched n to (InConnected to (n, dr_port d) SOutbound)) O2 Logic.I). cbn. lia.
  - injection E as <-. set (s1 := Sim _ _ _ _ _ _ _ _ _ _). assert (O1 : ok s1 (log ++ [SiOut (si_time s) n (SDisconnect from r)])).
    { apply (ok_same s); try done. apply Forall_app. split; [by destruct O|]. apply Forall_singleton. by eexists _, _. }
    destruct (si_conns s !! (n, from.1)) as [port|]; [|split; [reflexivity|exact O1]]. split; [reflexivity|].
    refine (ok_put s1 _ (si_time s + latency d n from.1 s1) (Sched from.1 (n, port) (InDisconnected (n, port) ConnectionReset)) O1 Logic.I _). cbn. lia.
  - injection E as <-. assert (O1 := ok_timer s log n t O). destruct (get (si_time s + t) (si_inbox s)) as [[? ? []]|]; done.
  - injection E as <-. split; [done|]. apply (ok_same s); try done. by destruct O.
Qed.
Lemma schedule_all_ok n os s s' x log : schedule_all n os s = Val (s', x) -> ok s log -> si_time s' = si_time s /\ ok s' (log ++ x).
Proof.
  revert s x log. induction os as [|[o d] os IH]; intros s x log E O; cbn [schedule_all] in E; [injection E as <- <-; by rewrite app_nil_r|].
  destruct (schedule d n o s) as [s1|] eqn:E1; [|done]. cbn [mbind_M] in E. destruct (schedule_all n os s1) as [[s2 y]|] eqn:E2; [|done]. cbn [mbind_M] in E. injection E as <- <-.
  destruct (schedule_ok _ _ _ _ _ _ E1 O) as [T O1]. destruct (IH _ _ _ E2 O1) as [T2 O2]. split; [congruence|]. by rewrite <- app_assoc in O2.
Qed.
Lemma schedule_pipes_ok l s s' x log : schedule_pipes l s = Val (s', x) -> ok s log -> si_time s' = si_time s /\ ok s' (log ++ x).
Proof.
  revert s x log. induction l as [|[n os] l IH]; intros s x log E O; cbn [schedule_pipes] in E; [injection E as <- <-; by rewrite app_nil_r|].
  destruct (schedule_all n os s) as [[s1 x1]|] eqn:E1; [|done]. cbn [mbind_M] in E. destruct (schedule_pipes l s1) as [[s2 y]|] eqn:E2; [|done]. cbn [mbind_M] in E. injection E as <- <-.
  destruct (schedule_all_ok _ _ _ _ _ _ E1 O) as [T O1]. destruct (IH _ _ _ E2 O1) as [T2 O2]. split; [congruence|]. by rewrite <- app_assoc in O2.
Qed.
Definition told (t n : N) (c : option scall) : list sitem := match c with Some c => [SiCall t n c] | None => [] end.
(** The state with the input taken out. *)
Definition popped (t : N) (s : sim) : sim :=
  Sim (take_out t (si_inbox s)) (si_events s) (si_priority s) (si_lat s) (si_part s) (si_conns s) (si_atts s) t (si_range s) (si_fails s).
Lemma sim_step_inv w s s' x : sim_step w s = Val (s', x) -> exists s1 x1,
  schedule_pipes (tn_pipes w) (divide (tn_fail w) (tn_pipes w).*1 (configure (tn_lat w) (tn_pipes w).*1 s)) = Val (s1, x1) /\
  ((next_input s1 = None /\ s' = s1 /\ x = x1) \/
   exists t e s2 s3 c y, next_input s1 = Some (t, e, s2) /\ si_time s2 <= t /\ give e (popped t s2) = Val (s3, c) /\
     schedule_all (sd_node e) (tn_react w) s3 = Val (s', y) /\ x = x1 ++ told t (sd_node e) c ++ y).
Proof.
  unfold sim_step. intros E. destruct (schedule_pipes _ _) as [[s1 x1]|]; [|done]. cbn [mbind_M] in E. exists s1, x1. split; [done|].
  destruct (next_input s1) as [[[t e] s2]|]; [|left; by injection E as <- <-]. right. unfold assertM in E. destruct (N.leb_spec (si_time s2) t) as [L|]; [|done]. destruct (existsb _ _); [|done].
  fold (popped t s2) in E. destruct (give e (popped t s2)) as [[s3 c]|] eqn:Eg; [|done]. cbn [mbind_M] in E. destruct (schedule_all _ _ s3) as [[s4 y]|] eqn:Ea; [|done]. cbn [mbind_M] in E. injection E as <- <-.
  exists t, e, s2, s3, c, y. done.
Qed.
Lemma received_call r p l t n c : received_from r p (l ++ [SiCall t n c]) = received_from r p l ++ match c with CReceived a m => if (n =? r) && p a then [m] else [] | _ => [] end.
Proof. unfold received_from. rewrite omap_app. cbn. destruct c; try done. by destruct (_ && _). Qed.
Lemma wakes_call k l t n c : wakes k (l ++ [SiCall t n c]) = wakes k l ++ match c with CTimer => if n =? k then [t] else [] | _ => [] end.
Proof. unfold wakes. rewrite omap_app. cbn. destruct c; try done. by destruct (_ =? _). Qed.
Lemma sent_call n r l t k c : sent n r (l ++ [SiCall t k c]) = sent n r l.
Proof. rewrite sent_snoc. cbn. by rewrite app_nil_r. Qed.
Lemma timers_call n l t k c : timers n (l ++ [SiCall t k c]) = timers n l.
Proof. unfold timers. rewrite omap_app. cbn. by rewrite app_nil_r. Qed.
(** A call that is neither of a message nor of a timer. *)
Definition quiet (c : scall) : Prop := match c with CReceived _ _ | CTimer => False | _ => True end.
Lemma ok_links s log t n c conns atts : ok s log -> si_time s = t -> match c with Some c => quiet c | None => True end ->
  (forall k r, is_Some (conns !! (k, r)) <-> talking k r (log ++ told t n c) = true) -> ok (with_links conns atts s) (log ++ told t n c).
Proof.
  intros [A B C D E F G L] Et Q Cn. destruct c as [c|]; cbn [told] in *; [|rewrite app_nil_r in *; by constructor].
  constructor; cbn [with_links si_inbox si_time si_priority si_conns]; try done.
  - intros r a. unfold received. rewrite received_call, sent_call. destruct c; try done; rewrite app_nil_r; apply F.
  - intros k. destruct (G k) as (ps & P1 & P2 & P3). exists ps. rewrite wakes_call, timers_call. destruct c; try done; by rewrite app_nil_r.
  - by apply log_snoc.
Qed.
Lemma talk_in n r t k a local l log : talking n r (log ++ [SiCall t k (CConnected a local l)]) = if (k =? n) && (a.1 =? r) then true else talking n r log.
Proof. by rewrite talking_snoc. Qed.
Lemma talk_out n r t k a x log : talking n r (log ++ [SiCall t k (CDisconnected a x)]) = if (k =? n) && (a.1 =? r) then false else talking n r log.
Proof. by rewrite talking_snoc. Qed.
Lemma give_plain e s s' c log : plain e -> give e s = Val (s', c) -> ok s log -> si_time s' = si_time s /\ ok s' (log ++ told (si_time s) (sd_node e) c).
Proof.
  intros P E O. pose proof (j_conn _ _ O) as Cn. unfold plain in P. unfold give in E. destruct (sd_input e) as [a|a local l|a r|a m|]; [| | |done|done].
  - injection E as <- <-. split; [done|]. apply ok_links; [done|done|by destruct (bool_decide _)|]. intros k r. destruct (bool_decide _); cbn [told]; [rewrite app_nil_r|rewrite talking_snoc; cbn [talks]]; apply Cn.
  - destruct (negb _ || _).
    + injection E as <- <-. split; [done|]. apply ok_links; [done|done|by destruct (si_conns s !! _)|]. intros k r.
      destruct (decide ((sd_node e, a.1) = (k, r))) as [Eq|Ne].
      * injection Eq as <- <-. rewrite lookup_insert. destruct (si_conns s !! (sd_node e, a.1)) as [q|] eqn:Eq; cbn [told].
        -- rewrite app_nil_r. rewrite <- Cn, Eq. split; intros _; by eexists.
        -- rewrite talk_in, !N.eqb_refl. cbn. split; [done|]. intros _. by eexists.
      * rewrite lookup_insert_ne by done. rewrite Cn. destruct (si_conns s !! (sd_node e, a.1)); cbn [told]; [by rewrite app_nil_r|]. rewrite talk_in.
        destruct (N.eqb_spec (sd_node e) k); [|done]. destruct (N.eqb_spec a.1 r); [|done]. subst. done.
    + injection E as <- <-. split; [done|]. apply (ok_links s log (si_time s) (sd_node e) None); try done. intros k r. cbn [told]. rewrite app_nil_r. apply Cn.
  - unfold assertM in E. destruct (negb _); [|done]. injection E as <- <-. split; [done|]. apply ok_links; [done|done|by destruct (_ || _)|]. intros k q.
    destruct (decide ((sd_node e, a.1) = (k, q))) as [Eq|Ne].
    + injection Eq as <- <-. rewrite lookup_delete. destruct (_ || _) eqn:Eb; cbn [told].
      * rewrite talk_out, !N.eqb_refl. cbn. split; [|done]. intros [? ?]. done.
      * apply orb_false_elim in Eb as [_ Eb]. apply bool_decide_eq_false in Eb. rewrite app_nil_r, <- Cn. split; [intros [? ?]; done|done].
    + rewrite lookup_delete_ne by done. rewrite Cn. destruct (_ || _); cbn [told]; [|by rewrite app_nil_r]. rewrite talk_out.
      destruct (N.eqb_spec (sd_node e) k); [|done]. destruct (N.eqb_spec a.1 q); [|done]. subst. done.
Qed.
(** The inbox without its first entry or without others. *)
Lemma pop_ok s log t l : ok s log -> si_time s <= t -> l `sublist_of` si_inbox s -> Forall (fun p => t <= p.1) l ->
  ok (Sim l (si_events s) (si_priority s) (si_lat s) (si_part s) (si_conns s) (si_atts s) t (si_range s) (si_fails s)) log.
Proof.
  intros [A B C D E F G L] Lt Sub Fl. constructor; cbn [si_inbox si_time si_priority si_conns]; try done.
  - by eapply sorted_sub.
  - rewrite Forall_forall in *. intros p I. apply C. by eapply elem_sub.
  - intros r a. etransitivity; [|apply F]. apply sublist_app; [done|]. by apply omap_sub.
  - intros n. destruct (G n) as (ps & P1 & P2 & P3). assert (Sw : pendw n l `sublist_of` pendw n (si_inbox s)) by (by apply omap_sub). apply sublist_submseteq in Sw.
    apply submseteq_Permutation in Sw as (k & Ek). rewrite Ek in P2. rewrite app_assoc in P2. symmetry in P2. 
    destruct (Permutation_map_inv _ _ P2) as (qs & E1 & E2).
    set (k0 := length (wakes n log ++ pendw n l)). assert (E3 : (take k0 qs).*2 = wakes n log ++ pendw n l).
    { rewrite fmap_take. change (qs.*2) with (map snd qs). rewrite <- E1. unfold k0. by rewrite take_app. }
    assert (Sq : take k0 qs ⊆+ ps). { rewrite E2. rewrite <- (take_drop k0 qs) at 2. by apply submseteq_inserts_r. }
    exists (take k0 qs). split; [|split].
    + etransitivity; [|exact P1]. by apply fmap_submseteq.
    + by rewrite E3.
    + apply Forall_forall. intros p I. rewrite Forall_forall in P3. apply P3. by eapply elem_of_submseteq.
  - destruct L as [L1 L2]. split; [done|]. eapply Forall_impl; [exact L2|]. cbn. intros. lia.
Qed.
(** The first of the inbox is told. *)
Lemma head_ok s log t e l : ok s log -> si_inbox s = (t, e) :: l -> match sd_input e with InReceived _ _ | InWake => True | _ => False end ->
  ok (Sim l (si_events s) (si_priority s) (si_lat s) (si_part s) (si_conns s) (si_atts s) t (si_range s) (si_fails s))
     (log ++ [SiCall t (sd_node e) match sd_input e with InReceived a m => CReceived a m | _ => CTimer end]).
Proof.
  intros [A B C D E F G L] El Q. rewrite El in *. inversion A as [|? ? A' FA]; subst. apply Forall_cons in B as [B1 B2]. apply Forall_cons in C as [C1 C2]. cbn [fst snd] in *.
  constructor; cbn [si_inbox si_time si_priority si_conns]; try done.
  - eapply Forall_impl; [exact FA|]. cbn. intros. lia.
  - intros n r. rewrite E. rewrite talking_snoc. destruct (sd_input e); done.
  - intros r a. specialize (F r a). unfold received. rewrite received_call, sent_call. unfold pend in F. cbn [omap list_omap snd] in F. destruct (sd_input e) as [| | |b m|]; try done.
    + rewrite <- app_assoc. destruct (_ && _); exact F.
    + rewrite app_nil_r. exact F.
  - intros n. destruct (G n) as (ps & P1 & P2 & P3). exists ps. rewrite timers_call, wakes_call. split; [done|]. split; [|done]. rewrite P2. unfold pendw. cbn [omap list_omap snd fst]. destruct (sd_input e) as [| | |b m|]; try done.
    + by rewrite app_nil_r.
    + destruct (sd_node e =? n); [by rewrite <- app_assoc|by rewrite app_nil_r].
  - destruct L as [L1 L2]. apply log_snoc; [|done]. split; [done|]. eapply Forall_impl; [exact L2|]. cbn. intros. lia.
Qed.
Lemma configure_ok lat nodes s log : ok s log -> ok (configure lat nodes s) log.
Proof. intros O. unfold configure. destruct (_ <? _); [|done]. apply (ok_same s); try done. by destruct O. Qed.
Lemma divide_ok f nodes s log : ok s log -> ok (divide f nodes s) log.
Proof. intros O. unfold divide. destruct (_ =? _); [|done]. apply (ok_same s); try done. by destruct O. Qed.
Lemma next_ok s log t e s2 : ok s log -> next_input s = Some (t, e, s2) -> si_time s <= t /\ si_time s2 = si_time s /\ si_inbox s2 = si_inbox s /\ ok s2 log /\
  ((plain e /\ t = si_time s /\ (exists a r, sd_input e = InDisconnected a r) /\ si_priority s = e :: si_priority s2) \/ (exists l, si_inbox s2 = (t, e) :: l /\ si_priority s = [] /\ s2 = s)).
Proof.
  intros O E. unfold next_input in E. destruct (si_priority s) as [|x ps] eqn:Ep.
  - destruct (si_inbox s) as [|[t0 x] l] eqn:El; [done|]. injection E as <- <- <-. pose proof (j_time _ _ O) as B. rewrite El in B. apply Forall_cons in B as [B _]. cbn in B. repeat (split; [done|]). right. by exists l.
  - injection E as <- <- <-. pose proof (j_prio _ _ O) as P. rewrite Ep in P. apply Forall_cons in P as [(a & r & Ei) P2]. split; [lia|]. split; [done|]. split; [done|]. split; [by apply (ok_same s)|]. left.
    unfold plain. rewrite Ei. split; [done|]. split; [done|]. split; [by eexists _, _|]. done.
Qed.
Lemma popped_ok s log : ok s log -> ok (popped (si_time s) s) log.
Proof.
  intros O. unfold popped. apply pop_ok; [done|lia|apply take_sub|]. pose proof (j_time _ _ O) as B. rewrite Forall_forall in *. intros p I. apply B. eapply elem_sub; [apply take_sub|exact I].
Qed.
Lemma popped_head s t e l : sorted (si_inbox s) -> si_inbox s = (t, e) :: l ->
  popped t s = Sim l (si_events s) (si_priority s) (si_lat s) (si_part s) (si_conns s) (si_atts s) t (si_range s) (si_fails s).
Proof. intros S E. unfold popped. rewrite E. rewrite E in S. by rewrite take_head. Qed.
Lemma give_ok e t s s2 s3 c log : ok s log -> next_input s = Some (t, e, s2) -> give e (popped t s2) = Val (s3, c) -> si_time s3 = t /\ ok s3 (log ++ told t (sd_node e) c).
Proof.
  intros O En Eg. destruct (next_ok _ _ _ _ _ O En) as (Lt & Et & Ei & O2 & [(P & -> & _)|(l & El & _)]).
  - rewrite <- Et in Eg |- *. pose proof (give_plain _ _ _ _ _ P Eg (popped_ok _ _ O2)) as [T O3]. done.
  - pose proof (popped_head _ _ _ _ (j_sorted _ _ O2) El) as Ep. rewrite Ep in Eg.
    assert (Cases : plain e \/ match sd_input e with InReceived _ _ | InWake => True | _ => False end) by (unfold plain; destruct (sd_input e); auto). destruct Cases as [P|Q].
    + assert (O3 : ok (Sim l (si_events s2) (si_priority s2) (si_lat s2) (si_part s2) (si_conns s2) (si_atts s2) t (si_range s2) (si_fails s2)) log).
      { apply pop_ok; [done|lia|rewrite El; by apply sublist_cons|]. pose proof (j_sorted _ _ O2) as S. rewrite El in S. inversion S as [|? ? S' F]; subst. eapply Forall_impl; [exact F|]. cbn. intros. lia. }
      exact (give_plain _ _ _ _ _ P Eg O3).
    + pose proof (head_ok _ _ _ _ _ O2 El Q) as O3. unfold give in Eg. destruct (sd_input e) as [| | |a m|]; try done; injection Eg as <- <-; done.
Qed.
Lemma step_ok w s s' x log : sim_step w s = Val (s', x) -> ok s log -> si_time s <= si_time s' /\ ok s' (log ++ x).
Proof.
  intros E O. destruct (sim_step_inv _ _ _ _ E) as (s1 & x1 & Ep & H). assert (T0 : forall f g l, si_time (divide f l (configure g l s)) = si_time s).
  { intros f g l. unfold divide, configure. destruct (_ <? _); destruct (_ =? _); done. }
  destruct (schedule_pipes_ok _ _ _ _ log Ep) as [T1 O1]; [by apply divide_ok, configure_ok|]. rewrite T0 in T1.
  destruct H as [(_ & -> & ->)|(t & e & s2 & s3 & c & y & En & L & Eg & Ea & ->)]; [split; [lia|done]|].
  destruct (next_ok _ _ _ _ _ O1 En) as (Lt & Et & _). destruct (give_ok _ _ _ _ _ _ _ O1 En Eg) as [T3 O3]. destruct (schedule_all_ok _ _ _ _ _ _ Ea O3) as [T4 O4]. split; [lia|].
  by rewrite <- !app_assoc in O4.
Qed.
Lemma run_ok ws s s' x log : sim_run ws s = Val (s', x) -> ok s log -> ok s' (log ++ x).
Proof.
  revert s x log. induction ws as [|w ws IH]; intros s x log E O; cbn [sim_run] in E; [injection E as <- <-; by rewrite app_nil_r|].
  destruct (sim_step w s) as [[s1 x1]|] eqn:E1; [|done]. cbn [mbind_M] in E. destruct (sim_run ws s1) as [[s2 y]|] eqn:E2; [|done]. cbn [mbind_M] in E. injection E as <- <-.
  destruct (step_ok _ _ _ _ _ E1 O) as [_ O1]. pose proof (IH _ _ _ E2 O1) as O2. by rewrite <- app_assoc in O2.
Qed.
Lemma sim0_ok t r f : ok (sim0 t r f) [].
Proof.
  constructor; cbn.
  - constructor.
  - constructor.
  - constructor.
  - constructor.
  - intros n r'. split; [intros [? ?]; done|done].
  - intros r' a. constructor.
  - intros n. exists []. done.
  - split; constructor.
Qed.
Lemma wakes_run ws t range fails s log : sim_run ws (sim0 t range fails) = Val (s, log) ->
  forall n, exists ps : list (N * N), ps.*1 ⊆+ timers n log /\ ps.*2 ≡ₚ wakes n log /\ Forall (fun p => p.1 <= p.2) ps.
Proof.
  intros E n. pose proof (run_ok _ _ _ _ [] E (sim0_ok _ _ _)) as O. cbn [app] in O.
  pose proof (pop_ok s log (si_time s) [] O ltac:(lia) (sublist_nil_l _) ltac:(apply Forall_nil_2)) as O'. destruct (j_wake _ _ O' n) as (ps & P1 & P2 & P3). exists ps. split; [done|]. split; [|done].
  cbn [si_inbox pendw omap list_omap] in P2. by rewrite app_nil_r in P2.
Qed.
