(** What a step of the address manager may change. *)
From Verif Require Import Base AddrModel AddrSpec AddrProofs AddrMain.
Open Scope N_scope.

Section Step.
Context (cf : aconf).

Record moved (oe : addr_op * aenv) (t : N) (s s' : amgr) : Prop := {
  mv_wf : wf (am_ranges s') (am_peers s') [];
  mv_idle : am_idle s' = Some (idled_step oe t);
  mv_bans : am_bans s ⊆ am_bans s';
  mv_banned : forall j, j ∈ am_bans s' -> j ∈ am_bans s \/ am_peers s' !! j = None;
  mv_connected : forall i, i ∈ am_connected s' <-> online_step i oe.1 (bool_decide (i ∈ am_connected s)) = true;
  mv_peers : forall i ka', am_peers s' !! i = Some ka' ->
    (exists ka, am_peers s !! i = Some ka /\ ad_bits (ka_addr ka') = ad_bits (ka_addr ka) /\ ad_port (ka_addr ka') = ad_port (ka_addr ka)) \/
    (exists active a port, (active, a) ∈ op_addrs oe.1 /\ ka_addr ka' = a /\ socket_addr a = Some (i, port) /\
       acceptable_addr cf t active a i /\ (i, port) ∉ am_local s /\ i ∉ am_bans s);
  mv_crowd : forall i, crowd i s' <= crowd i s + newcomers i (op_addrs oe.1);
  mv_kept : forall i ka, am_peers s !! i = Some ka -> crowd i s + newcomers i (op_addrs oe.1) <= 256 ->
    i ∈ am_bans s' \/ exists ka', am_peers s' !! i = Some ka' /\
      (forall t, ka_sampled ka = Some t -> exists t', ka_sampled ka' = Some t' /\ t <= t') /\
      (~ handshake i oe.1 -> ka_attempt ka <> None -> ka_success ka = None -> ka_attempt ka' <> None /\ ka_success ka' = None);
}.

(** Changes that leave the address, success, attempt and sample times alone. *)
Definition touch (s h : amgr) : Prop :=
  am_ranges h = am_ranges s /\ am_bans h = am_bans s /\ am_connected h = am_connected s /\ am_local h = am_local s /\ am_idle h = am_idle s /\
  (forall i ka', am_peers h !! i = Some ka' -> exists ka, am_peers s !! i = Some ka /\ ka_addr ka' = ka_addr ka) /\
  (forall i ka, am_peers s !! i = Some ka -> exists ka', am_peers h !! i = Some ka' /\ ka_addr ka' = ka_addr ka /\
     ka_sampled ka' = ka_sampled ka /\ ka_success ka' = ka_success ka /\ (ka_attempt ka <> None -> ka_attempt ka' <> None)).
Lemma touch_refl s : touch s s.
Proof. do 5 (split; [done|]). split; eauto 10. Qed.
Lemma touch_alter (s : amgr) f (j : ip) : (forall ka, ka_addr (f ka) = ka_addr ka /\ ka_sampled (f ka) = ka_sampled ka /\ ka_success (f ka) = ka_success ka /\
    (ka_attempt ka <> None -> ka_attempt (f ka) <> None)) -> touch s (with_peers s (alter f j (am_peers s))).
Proof.
  intros F. do 5 (split; [done|]). unfold with_peers. cbn [am_peers]. split.
  - intros i ka'. destruct (decide (i = j)) as [->|Nj].
    + rewrite lookup_alter. destruct (am_peers s !! j) as [ka|]; cbn; [|done]. intros [= <-]. exists ka. split; [done|]. apply F.
    + rewrite lookup_alter_ne by done. eauto.
  - intros i ka E. destruct (decide (i = j)) as [->|Nj].
    + rewrite lookup_alter, E. cbn. eexists. split; [done|]. apply F.
    + rewrite lookup_alter_ne by done. eauto 10.
Qed.
Lemma touch_heard now from s : touch s (heard_from now from s).
Proof. apply touch_alter. intros ka. done. Qed.
Lemma touch_attempted now a s : touch s (addr_attempted now a s).
Proof. apply touch_alter. intros ka. done. Qed.
Lemma touch_wf s h : touch s h -> wf (am_ranges s) (am_peers s) [] -> wf (am_ranges h) (am_peers h) [].
Proof.
  intros (-> & _ & _ & _ & _ & A & B). apply wf_dom. intros i. split; intros [k E].
  - destruct (A _ _ E) as (? & ? & _). eauto.
  - destruct (B _ _ E) as (? & ? & _). eauto.
Qed.
Lemma touch_crowd s h i : touch s h -> crowd i h = crowd i s.
Proof. intros (E & _). unfold crowd. by rewrite E. Qed.

Definition idle_kept (oe : addr_op * aenv) : Prop := match oe.1 with AInitialize | ATimer => False | _ => True end.
Definition online_kept (oe : addr_op * aenv) : Prop := match oe.1 with AConnected _ | ADisconnected _ _ => False | _ => True end.
Lemma idled_kept oe t : idle_kept oe -> idled_step oe t = t.
Proof. unfold idle_kept, idled_step. by destruct oe.1. Qed.
Lemma online_step_kept oe i b : online_kept oe -> online_step i oe.1 b = b.
Proof. unfold online_kept, online_step. by destruct oe.1. Qed.

(** A touch followed by an insertion. *)
Lemma moved_grown oe t s h s' src l : am_idle s = Some t -> touch s h -> grown cf l t src h s' ->
  (forall p, p ∈ l -> p ∈ op_addrs oe.1) -> (forall i, newcomers i l <= newcomers i (op_addrs oe.1)) ->
  idle_kept oe -> online_kept oe -> moved oe t s s'.
Proof.
  intros It T G Sub Nc Ik Ok. pose proof T as (Er & Eb & Ec & El & Ei & A & B). split.
  - apply G.
  - rewrite (gr_idle _ _ _ _ _ _ G), Ei, idled_kept; done.
  - by rewrite (gr_bans _ _ _ _ _ _ G), Eb.
  - rewrite (gr_bans _ _ _ _ _ _ G), Eb. auto.
  - intros i. rewrite online_step_kept by done. rewrite (gr_connected _ _ _ _ _ _ G), Ec. by rewrite bool_decide_eq_true.
  - intros i ka' [E|(ac & a & port & I & -> & R)]%(gr_peers _ _ _ _ _ _ G).
    + left. destruct (A _ _ E) as (ka & Ek & ->). eauto.
    + right. exists ac, a, port. split; [auto|]. rewrite El, Eb in R. done.
  - intros i. pose proof (gr_crowd _ _ _ _ _ _ G i) as X. rewrite (touch_crowd s h i T) in X. specialize (Nc i). lia.
  - intros i ka E Le. right. destruct (B _ _ E) as (kh & Eh & _ & S1 & S2 & S3).
    exists kh. split; [apply (gr_kept _ _ _ _ _ _ G); [done|]; rewrite (touch_crowd s h i T); specialize (Nc i); lia|].
    rewrite S1, S2. split; [intros t0 E0; exists t0; split; [done|lia]|]. intros _ ? ?. auto.
Qed.
Lemma newcomers_nil i : newcomers i [] = 0.
Proof. done. Qed.
Lemma moved_touch oe t s h : am_idle s = Some t -> wf (am_ranges s) (am_peers s) [] -> touch s h -> idle_kept oe -> online_kept oe -> moved oe t s h.
Proof.
  intros It W T Ik Ok. eapply (moved_grown oe t s h h FromDns []); try done.
  - apply grown_refl. by eapply touch_wf.
  - intros p []%elem_of_nil.
  - intros i. rewrite newcomers_nil. lia.
Qed.

Lemma exhausted_val s t : am_idle s = Some t -> exists b, is_exhausted s = Val b.
Proof. unfold is_exhausted. intros ->. by eexists. Qed.

(** Changes to fields that no property is about. *)
Lemma moved_frame oe t s s' : am_idle s = Some t -> wf (am_ranges s) (am_peers s) [] ->
  am_peers s' = am_peers s -> am_ranges s' = am_ranges s -> am_bans s' = am_bans s ->
  am_idle s' = Some (idled_step oe t) ->
  (forall i, i ∈ am_connected s' <-> online_step i oe.1 (bool_decide (i ∈ am_connected s)) = true) -> moved oe t s s'.
Proof.
  intros It W Ep Er Eb Ei Ec. split; rewrite ?Ep, ?Er, ?Eb; auto.
  - intros i ka E. left. eauto.
  - intros i. unfold crowd. rewrite Er. lia.
  - intros i ka E _. right. exists ka. split; [done|]. split; [intros t0 ->; exists t0; split; [done|lia]|]. intros. done.
Qed.

Lemma step_moved oe s t : fair_aenv oe.2 -> wf (am_ranges s) (am_peers s) [] -> am_idle s = Some t ->
  exists s' x, addr_step cf oe s = Val (s', x) /\ moved oe t s s'.
Proof.
  destruct oe as [o e]. intros Fe W It. destruct o as [|a|a sv ob rc|a|a r|from l|from|from| |l src|sv]; unfold addr_step; cbn [fst snd] in *.
  - eexists _, _. split; [done|]. apply moved_frame; try done. intros i. cbn. by rewrite bool_decide_eq_true.
  - eexists _, _. split; [done|]. unfold addr_connected.
    destruct (is_routable a.1) eqn:Ro, (is_local a.1) eqn:Lo; cbn [negb orb]; apply moved_frame; try done; intros i; cbn -[is_routable is_local decide bool_decide].
    + case_decide as D; [subst i; rewrite Ro, Lo; cbn [negb andb]; rewrite orb_false_r|]; by rewrite bool_decide_eq_true.
    + case_decide as D; [subst i; rewrite Ro, Lo; cbn [negb andb]; rewrite orb_true_r; set_solver|]. rewrite bool_decide_eq_true. set_solver.
    + case_decide as D; [subst i; rewrite Ro; cbn [andb]; rewrite orb_false_r|]; by rewrite bool_decide_eq_true.
    + case_decide as D; [subst i; rewrite Ro; cbn [andb]; rewrite orb_false_r|]; by rewrite bool_decide_eq_true.
  - eexists _, _. split; [by rewrite <- surjective_pairing|]. unfold addr_negotiated.
    case_bool_decide as Co; [|apply moved_frame; try done; intros i; cbn; by rewrite bool_decide_eq_true].
    destruct (am_peers s !! a.1) as [k|] eqn:Ek; [|apply moved_frame; try done; intros i; cbn; by rewrite bool_decide_eq_true].
    cbn [fst]. split; cbn [am_ranges am_peers am_bans am_connected am_idle].
    + eapply wf_dom; [|exact W]. intros i. apply insert_dom. by eexists.
    + by rewrite idled_kept.
    + done.
    + auto.
    + intros i. rewrite online_step_kept by done. by rewrite bool_decide_eq_true.
    + intros i ka'. destruct (decide (i = a.1)) as [->|Ni]; [rewrite lookup_insert; intros [= <-]|rewrite lookup_insert_ne by done; eauto].
      left. exists k. done.
    + intros i. unfold crowd. cbn [am_ranges]. lia.
    + intros i ka E _. right. destruct (decide (i = a.1)) as [->|Ni].
      * rewrite lookup_insert. eexists. split; [done|]. rewrite Ek in E. injection E as <-. cbn [ka_sampled ka_success ka_attempt].
        split; [intros t0 ->; exists t0; split; [done|lia]|]. intros []. done.
      * rewrite lookup_insert_ne by done. exists ka. split; [done|]. split; [intros t0 ->; exists t0; split; [done|lia]|]. done.
  - eexists _, _. split; [done|]. apply moved_touch; try done. apply touch_attempted.
  - eexists _, _. split; [done|]. unfold addr_disconnected.
    case_bool_decide as Co; [|apply moved_frame; try done; intros i; cbn -[decide bool_decide]; case_decide as D; [subst i; split; [done|by intros [=]]|by rewrite bool_decide_eq_true]].
    set (s0 := AMgr (am_peers s) (am_bans s) (am_ranges s) (am_connected s ∖ {[a.1]}) (am_sources s ∖ {[a]}) (am_local s) (am_request s) (am_idle s)).
    assert (forall i, i ∈ am_connected s0 <-> online_step i (ADisconnected a r) (bool_decide (i ∈ am_connected s)) = true) as Con.
    { intros i. cbn -[decide bool_decide]. case_decide as D; [subst i; split; [set_solver|by intros [=]]|]. rewrite bool_decide_eq_true. set_solver. }
    destruct (bans_for r); [|apply moved_frame; try done].
    pose proof (ban_facts a.1 s0) as (F1 & F2 & F3 & F4 & F5 & F6 & F7 & F8). split.
    + by apply ban_wf.
    + rewrite F1. by rewrite idled_kept.
    + exact F4.
    + intros j Ij. apply F5 in Ij as [?|[-> ?]]; auto.
    + intros i. rewrite F2. apply Con.
    + intros i ka' E. left. exists ka'. split; [by eapply (lookup_weaken _ (am_peers s0))|done].
    + intros i. specialize (F8 i). unfold crowd in *. cbn [am_ranges s0] in F8. lia.
    + intros i ka E _. destruct (decide (i = a.1)) as [->|Ni].
      * left. unfold ban. assert (exists r0, am_ranges s !! addr_key a.1 = Some r0 /\ a.1 ∈ r0) as (r0 & E0 & _) by (apply (wf_in _ _ _ W); split; [by eexists|set_solver]).
        change (am_ranges s0) with (am_ranges s). rewrite E0. cbn [am_bans]. set_solver.
      * right. exists ka. split; [by rewrite F7|]. split; [intros t0 ->; exists t0; split; [done|lia]|]. done.
  - unfold received_addr. pose proof (touch_heard (ae_now e) from s) as T. set (h := heard_from (ae_now e) from s) in *.
    assert (am_idle h = Some t) as Ih by done.
    destruct ((lenN l =? 0) || (MAX_ADDR_ADDRESSES <? lenN l)); cbn [mbind_M].
    + eexists _, _. split; [done|]. by apply moved_touch.
    + unfold addr_insert. rewrite Ih. destruct (insert_all_grown cf e t (FromPeer from) l Fe 0 h) as (s' & -> & G); [by eapply touch_wf|].
      cbn [mbind_M]. eexists _, _. split; [done|]. eapply (moved_grown (AAddr from l, e) t s h s' _ l); try done.
  - unfold received_getaddr. pose proof (touch_heard (ae_now e) from s) as T. set (h := heard_from (ae_now e) from s) in *.
    destruct (one_per_range_spec e h (ae_ranges e (map snd (map_to_list (am_ranges h)))) Fe 0) as (l & -> & _).
    { apply Forall_forall. intros r I. rewrite (proj1 (proj2 Fe) _) in I. apply values_ok; [by eapply touch_wf|done]. }
    cbn [mbind_M]. eexists _, _. split; [done|]. by apply moved_touch.
  - eexists _, _. split; [done|]. apply moved_touch; try done. apply touch_heard.
  - unfold addr_timer.
    assert (exists s1 x1, (if REQUEST_TIMEOUT <=? ae_now e - default 0 (am_request s) then
      b <-- is_exhausted s ;;
      Val (if (b : bool) then
             (AMgr (am_peers s) (am_bans s) (am_ranges s) (am_connected s) (am_sources s) (am_local s) (Some (ae_now e)) (am_idle s),
              AoExhausted :: map AoGetAddr (ae_sources e (elements (am_sources s))) ++ [AoTimer REQUEST_TIMEOUT])
           else (s, []))
      else Val (s, [])) = Val (s1, x1) /\ am_peers s1 = am_peers s /\ am_bans s1 = am_bans s /\ am_ranges s1 = am_ranges s /\
      am_connected s1 = am_connected s /\ am_idle s1 = am_idle s) as (s1 & x1 & -> & E1 & E2 & E3 & E4 & E5).
    { destruct (exhausted_val s t It) as [b ->]. cbn [mbind_M].
      destruct (REQUEST_TIMEOUT <=? _); [|eexists _, _; split; [done|]; repeat split].
      destruct b; eexists _, _; (split; [done|]); repeat split. }
    cbn [mbind_M]. rewrite E5, It. cbn [default from_option id]. destruct (ADDR_IDLE_TIMEOUT <=? ae_now e - t) eqn:Le; cbn [addr_idle].
    + eexists _, _. split; [done|]. apply moved_frame; try done.
      * unfold idled_step. cbn [fst snd]. change 60000 with ADDR_IDLE_TIMEOUT. by rewrite Le.
      * intros i. cbn. rewrite E4. by rewrite bool_decide_eq_true.
    + eexists _, _. split; [done|]. apply moved_frame; try done.
      * unfold idled_step. cbn [fst snd]. change 60000 with ADDR_IDLE_TIMEOUT. rewrite Le. congruence.
      * intros i. cbn. rewrite E4. by rewrite bool_decide_eq_true.
  - unfold addr_insert. rewrite It. destruct (insert_all_grown cf e t src l Fe 0 s W) as (s' & -> & G).
    cbn [mbind_M]. eexists _, _. split; [done|]. eapply (moved_grown (AInsert l src, e) t s s s' _ l); try done. apply touch_refl.
  - unfold addr_sample. destruct (sample_with_spec cf e (fun ka => has_services (ad_services (ka_addr ka)) sv) s t Fe W It) as (s' & r & -> & S).
    cbn [mbind_M]. eexists _, _. split; [done|]. destruct r as [[a src]|]; [|destruct S as [-> _]; apply moved_touch; [done|done|apply touch_refl|done|done]].
    destruct S as (i & ka & Ei & -> & -> & U & ->). apply usable_spec in U as (_ & _ & Gap & _). unfold SAMPLE_TIMEOUT in Gap. split; unfold with_peers; cbn [am_ranges am_peers am_bans am_connected am_idle].
    + eapply wf_dom; [|exact W]. intros j. apply insert_dom. by eexists.
    + by rewrite idled_kept.
    + done.
    + auto.
    + intros j. rewrite online_step_kept by done. by rewrite bool_decide_eq_true.
    + intros j ka'. destruct (decide (j = i)) as [->|Ni]; [rewrite lookup_insert; intros [= <-]|rewrite lookup_insert_ne by done; eauto].
      left. exists ka. done.
    + intros j. unfold crowd. cbn [am_ranges]. lia.
    + intros j kj E _. right. destruct (decide (j = i)) as [->|Ni].
      * rewrite lookup_insert. eexists. split; [done|]. rewrite Ei in E. injection E as <-. cbn [ka_sampled ka_success ka_attempt marked].
        split; [|done]. intros t0 E0. exists t. split; [done|]. rewrite E0 in Gap. cbn in Gap. lia.
      * rewrite lookup_insert_ne by done. exists kj. split; [done|]. split; [intros t0 ->; exists t0; split; [done|lia]|]. done.
Qed.
End Step.
