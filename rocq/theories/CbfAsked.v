(** Filters are processed once per request. *)
From Verif Require Import Base UtilModel UtilSpec UtilProofs CbfModel CbfSpec CbfProofs CbfStep CbfMain CbfScan CbfFacts CbfWait.
Open Scope N_scope.

Definition fresh_at (r : rescan) (h : N) : nat := match r_received r !! h with Some (_, _, false) => 1%nat | _ => 0%nat end.
Definition wants_at (r : rescan) (h : N) : nat := if bool_decide (h ∈ r_requested r) then 1%nat else 0%nat.
Definition credit (s : cbf) (h : N) : nat := (fresh_at (c_rescan s) h + wants_at (c_rescan s) h)%nat.
Definition paid (t : tree) (h : N) (s s' : cbf) (x : list cout) : Prop :=
  (credit s' h + count (processes_new h) x <= credit s h + count (asks_filter t h) x)%nat.
Lemma paid_trans t h s s1 s' x y : paid t h s s1 x -> paid t h s1 s' y -> paid t h s s' (x ++ y).
Proof. unfold paid. rewrite !count_app. lia. Qed.
Lemma count_none {A} (f : A -> bool) l : Forall (fun a => f a = false) l -> count f l = 0%nat.
Proof. unfold count. induction 1 as [|a l E _ IH]; cbn; [done|]. by rewrite E. Qed.
Lemma paid_same t h s s' x : (credit s' h <= credit s h)%nat -> Forall plain x -> paid t h s s' x.
Proof.
  intros C F. unfold paid. rewrite (count_none (processes_new h) x); [lia|]. eapply Forall_impl; [exact F|]. by intros [].
Qed.
Lemma count_pos {A} (f : A -> bool) l a : a ∈ l -> f a = true -> (1 <= count f l)%nat.
Proof.
  unfold count. intros I E. destruct (List.filter f l) eqn:F; [|cbn; lia]. exfalso.
  apply elem_of_list_In in I. assert (X : List.In a (List.filter f l)) by (apply filter_In; done). by rewrite F in X.
Qed.

Lemma cfilters_paid o a b t s s' x e h : (forall l, o l ≡ₚ l) -> f_height s <= tr_height t -> get_cfilters o a b t s = Val (s', x, e) -> paid t h s s' x.
Proof.
  intros O L E. pose proof (cfilters_plain _ _ _ _ _ _ _ _ E) as F0. unfold get_cfilters in E. destruct (decide (c_peers s = ∅)) as [|NE]; [injection E as <- <- <-; by apply paid_same|].
  destruct (N.ltb_spec b a); [injection E as <- <- <-; by apply paid_same|]. unfold assertM in E. destruct (N.leb_spec b (f_height s)); [|done].
  destruct (requests_spec a b t (c_rescan s)) as (r' & rs & Er & A & F & C & Rq & Rv & _). rewrite Er in E. cbn [mbind_M] in E.
  destruct (ask_all o t (c_peers s) rs) with (i := 0%nat) as (x' & Ea & F2).
  { intros Em. specialize (O (fst <$> map_to_list (c_peers s))). rewrite Em in O. apply Permutation_nil in O. apply fmap_nil_inv, map_to_list_empty_iff in O. done. }
  { apply Forall_forall. intros [p q] I. cbn. apply tr_at_some. rewrite Forall_forall in F. specialize (F _ I). cbn in F.
    assert (Cy : covered rs q) by (exists p, q; split; [done|lia]). apply C in Cy. lia. }
  rewrite Ea in E. injection E as <- <- <-. unfold paid. rewrite (count_none (processes_new h) x').
  2: { eapply Forall_impl; [exact F0|]. by intros []. }
  unfold credit. cbn [c_rescan set_rescan].
  assert (X1 : (fresh_at r' h <= fresh_at (c_rescan s) h)%nat).
  { unfold fresh_at. rewrite Rv. unfold with_cached. destruct (decide _); [|done]. destruct (fc_get _ _), (tr_at t h); try done. lia. }
  assert (X2 : (wants_at r' h <= wants_at (c_rescan s) h + count (asks_filter t h) x')%nat); [|lia].
  unfold wants_at. destruct (bool_decide (h ∈ r_requested r')) eqn:D; [|lia]. apply bool_decide_eq_true, Rq in D as [D|D]; [rewrite (bool_decide_true (h ∈ r_requested (c_rescan s))) by done; lia|].
  destruct D as (p & q & I & Lp). assert (1 <= count (asks_filter t h) x')%nat; [|lia].
  apply elem_of_list_lookup in I as [j J]. destruct (Forall2_lookup_r _ _ _ _ _ F2 J) as (y & Y & pr & hash & -> & T). cbn in T.
  eapply count_pos; [by eapply elem_of_list_lookup_2|]. cbn. apply andb_true_iff. split; [apply N.leb_le; lia|]. apply bool_decide_eq_true.
  unfold tr_at in T. apply elem_of_list_lookup. exists (N.to_nat q - N.to_nat h)%nat. rewrite lookup_drop. by replace (N.to_nat h + (N.to_nat q - N.to_nat h))%nat with (N.to_nat q) by lia.
Qed.

Section Step.
Context (P : params) (i : input) (h : N) (Co : complete i).
Notation k := (i_k i).
Notation now := (i_now i).
Notation t := (i_tree i).

Lemma order_perm n l : k_order k n l ≡ₚ l.
Proof. apply Co. Qed.
Lemma sync_paid n s s' x : sync P k n now t s = Val (s', x) -> paid t h s s' x.
Proof.
  unfold sync, assertM. destruct (N.leb_spec (f_height s) (tr_height t)); [|done]. destruct (match tr_checkpoint t with Some _ => _ | None => _ end); [intros [= <- <-]; by apply paid_same|].
  destruct (if f_height s <? tr_height t then _ else _) as [[s1 o]|] eqn:E; [|done]. cbn [mbind_M].
  assert (E1 : c_rescan s1 = c_rescan s /\ f_height s1 = f_height s /\ Forall plain o).
  { destruct (f_height s <? tr_height t); [|injection E as <- <-; repeat split; constructor]. unfold send_getcfheaders in E.
    destruct (_ <? _); [injection E as <- <-; repeat split; constructor|]. destruct (tr_at _ _) as [hash|]; [|done].
    unfold get_cfheaders in E. destruct (c_inflight s !! hash); [injection E as <- <-; repeat split; constructor|].
    destruct (sample_peer _ _) as [[]|]; injection E as <- <-; repeat split; by repeat constructor. }
  destruct E1 as (E1 & E2 & E3). assert (Pd : paid t h s s1 o) by (apply paid_same; [unfold credit; by rewrite E1|done]).
  destruct (r_active (c_rescan s1)); [|by intros [= <- <-]].
  destruct (get_cfilters _ _ _ _ _) as [[[s2 o'] e]|] eqn:G; [|done]. cbn [mbind_M]. intros [= <- <-]. eapply paid_trans; [exact Pd|].
  eapply cfilters_paid; [|rewrite E2; exact H|exact G]. intros l. apply order_perm.
Qed.
Lemma idle_paid s s' x : idle P k now t s = Val (s', x) -> paid t h s s' x.
Proof.
  unfold idle. destruct (_ <=? _); [|intros [= <- <-]; by apply paid_same]. destruct (sync _ _ _ _ _ _) as [[s1 o]|] eqn:E; [|done]. cbn [mbind_M].
  intros [= <- <-]. apply sync_paid in E. eapply paid_trans; [exact E|]. apply paid_same; [done|]. by repeat constructor.
Qed.
Lemma receive_paid r r' height f hash rq : r_receive height f hash r = Val (r', rq) -> (fresh_at r' h + wants_at r' h <= fresh_at r h + wants_at r h)%nat.
Proof.
  unfold r_receive. destruct (decide (height ∈ r_requested r)) as [I|I]; [|by intros [= <- <-]].
  destruct (fc_push _ _ _ _) as [[c b]|]; [cbn [mbind_M]|done]. intros [= <- <-]. unfold fresh_at, wants_at. cbn.
  destruct (decide (height = h)) as [->|NE].
  - rewrite lookup_insert. rewrite bool_decide_false by set_solver. rewrite (bool_decide_true (h ∈ r_requested r)) by done. lia.
  - rewrite lookup_insert_ne by done. assert (bool_decide (h ∈ r_requested r ∖ {[height]}) = bool_decide (h ∈ r_requested r)) as -> by (apply bool_decide_ext; set_solver). lia.
Qed.
Lemma process_paid r r' ms es : processes P r r' ms es -> (fresh_at r' h + wants_at r' h + count (processes_new h) es <= fresh_at r h + wants_at r h)%nat.
Proof.
  intros [Cu _ (_ & _ & _ & _ & _ & S6) _ Rv (l & L1 & L2 & ->) _]. unfold wants_at. rewrite S6.
  assert (X : (fresh_at r' h + count (processes_new h) (imap (fun j '(f, hash, c) => CoFilterProcessed hash (r_current r + N.of_nat j) (bool_decide (is_Some (match_filter P r f hash)))
    (default false (match_filter P r f hash)) c) l) <= fresh_at r h)%nat).
  { unfold fresh_at at 1. rewrite Rv. destruct (decide (r_current r <= h < r_current r')) as [Lh|Lh].
    - assert (Y : forall (m : list (bfilter * N * bool)) b, (forall j f hash c, m !! j = Some (f, hash, c) -> r_received r !! (b + N.of_nat j) = Some (f, hash, c)) ->
        (count (processes_new h) (imap (fun j '(f, hash, c) => CoFilterProcessed hash (b + N.of_nat j) (bool_decide (is_Some (match_filter P r f hash))) (default false (match_filter P r f hash)) c) m) <= fresh_at r h)%nat).
      { clear. induction m as [|[[f hash] c] m IH]; intros b A; [cbn; lia|]. cbn [imap].
        specialize (IH (b + 1)). rewrite (imap_ext _ (fun j '(f, hash, c) => CoFilterProcessed hash (b + 1 + N.of_nat j) (bool_decide (is_Some (match_filter P r f hash))) (default false (match_filter P r f hash)) c)).
        2: { intros j [[f' h'] c'] _. cbn. f_equal. lia. }
        assert (IH' := IH ltac:(intros j f' h' c' J; replace (b + 1 + N.of_nat j) with (b + N.of_nat (S j)) by lia; by apply A)). clear IH.
        unfold count in *. cbn [List.filter processes_new]. rewrite N.add_0_r. destruct (N.eqb_spec b h) as [->|NE]; cbn [andb]; [|exact IH'].
        destruct c; cbn [negb]; [exact IH'|]. cbn [length].
        assert (Z : forall b', h < b' -> count (processes_new h) (imap (fun j '(f, hash, c) => CoFilterProcessed hash (b' + N.of_nat j) (bool_decide (is_Some (match_filter P r f hash))) (default false (match_filter P r f hash)) c) m) = 0%nat).
        { clear. intros b' L. apply count_none, Forall_forall. intros o Ho. apply elem_of_lookup_imap in Ho as (j & [[f' h'] c'] & -> & _). cbn.
          destruct (N.eqb_spec (b' + N.of_nat j) h); [lia|done]. }
        unfold count in Z. rewrite Z by lia. unfold fresh_at. specialize (A 0%nat f hash false eq_refl). rewrite N.add_0_r in A. rewrite A. lia. }
      specialize (Y l (r_current r) L2). lia.
    - rewrite count_none; [unfold fresh_at; lia|]. apply Forall_forall. intros o Ho. apply elem_of_lookup_imap in Ho as (j & [[f' h'] c'] & -> & J). cbn.
      apply lookup_lt_Some in J. destruct (N.eqb_spec (r_current r + N.of_nat j) h); [lia|done]. }
  rewrite count_app. rewrite (count_none _ (if bool_decide _ then _ else _)) by (destruct (bool_decide _); by repeat constructor). lia.
Qed.

Lemma step_paid s s' x : f_height s' <= tr_height t -> step_on P i s = Val (s', x) -> paid t h s s' x.
Proof.
  intros Lh E. assert (NC : forall y, Forall plain y -> paid t h s s y) by (intros; by apply paid_same).
  unfold step_on, cbf_step in E. destruct (i_op i) as [|addr ob fl pe|addr|block hh|hh|rv|tx|tx ou|from ft st pv hs|from ft a st|from ft ha f| |scr|tx ou|fr to w|a b] eqn:Op.
  - by apply idle_paid.
  - unfold cbf_negotiated in E. destruct (_ && _); [|injection E as <- <-; by apply paid_same]. exact (sync_paid _ _ _ _ E).
  - injection E as <- <-. by apply paid_same.
  - destruct (decide _); injection E as <- <-; [|by apply paid_same]. unfold paid. cbn. unfold credit. cbn. lia.
  - injection E as <- <-. by apply paid_same.
  - match type of E with mbind_M ?m _ = _ => destruct m as [[s1 o1]|] eqn:E1; [|done] end. cbn [mbind_M] in E.
    destruct (sync _ _ _ _ _ _) as [[s2 o2]|] eqn:E2; [|done]. cbn [mbind_M] in E. injection E as <- <-. apply sync_paid in E2.
    eapply paid_trans; [|exact E2].
    destruct (last rv) as [h'|]; [|injection E1 as <- <-; by apply paid_same]. unfold cbf_rollback in E1.
    destruct (_ <=? _); [injection E1 as <- <-; by apply paid_same|]. unfold r_rollback in E1. destruct (fc_rollback _ _ _) as [c|]; [|done]. cbn [mbind_M] in E1.
    unfold f_rollback in E1. destruct (k_rollback_ok k); [|injection E1 as <- <-; apply paid_same; [done|by repeat constructor]].
    destruct (_ && _); injection E1 as <- <-; by apply paid_same.
  - injection E as <- <-. by apply paid_same.
  - injection E as <- <-. by apply paid_same.
  - unfold received_cfheaders in E. destruct (c_inflight s !! st); [|injection E as <- <-; by apply paid_same].
    destruct (negb _); [injection E as <- <-; apply paid_same; [done|by repeat constructor]|].
    destruct (tr_get _ _); [|injection E as <- <-; apply paid_same; [done|by repeat constructor]].
    destruct (_ <=? _); [injection E as <- <-; by apply paid_same|].
    destruct (negb _); [injection E as <- <-; apply paid_same; [done|by repeat constructor]|].
    destruct (_ <? _); [injection E as <- <-; apply paid_same; [done|by repeat constructor]|].
    destruct (_ =? 0); [injection E as <- <-; apply paid_same; [done|by repeat constructor]|].
    destruct (negb _); [injection E as <- <-; apply paid_same; [done|by repeat constructor]|].
    unfold f_import in E. destruct (k_put k); [injection E as <- <-; apply paid_same; [done|by repeat constructor]|].
    match type of E with mbind_M (headers_imported _ _ _ _ ?q) _ = _ => set (s1 := q) in E end. cbv beta in E.
    destruct (headers_imported k _ _ _ s1) as [[[s2 o2] e]|] eqn:E1; [|done]. cbn [mbind_M] in E.
    destruct e; [done|]. unfold assertM in E. destruct (_ <=? _); [|done].
    assert (H2 : f_height s1 = f_height s').
    { assert (Y : f_height s2 = f_height s1).
      { match type of E1 with headers_imported k ?a ?b t s1 = _ => destruct (headers_imported_spec k a b t s1) as [(s4 & o4 & e4 & E4 & _ & _ & E5 & _)|[E4 _]]; rewrite E4 in E1; [|done] end.
        injection E1 as -> -> ->. exact E5. }
      destruct (_ =? _); [by injection E as <- <-|]. destruct (sync _ _ _ _ _ _) as [[s3 o3]|] eqn:E3; [|done]. cbn [mbind_M] in E. injection E as <- <-.
      destruct (sync_spec P k 2 now t s2) as [[_ E']|(_ & s5 & o5 & E' & Q & _)]; rewrite E' in E3; [done|]. injection E3 as <- <-. unfold f_height in *.
      by rewrite (q_filters _ _ _ _ Q). }
    assert (Pd : paid t h s s2 o2).
    { unfold headers_imported in E1. destruct (r_active _); [|injection E1 as <- <-; by apply paid_same]. destruct (_ <? _); [injection E1 as <- <-; by apply paid_same|].
      apply (cfilters_paid _ _ _ _ _ _ _ _ h) in E1; [exact E1|intros l; apply order_perm|by rewrite H2]. }
    destruct (_ =? _).
    + injection E as <- <-. eapply paid_trans; [exact Pd|]. apply paid_same; [done|by repeat constructor].
    + destruct (sync _ _ _ _ _ _) as [[s3 o3]|] eqn:E3; [|done]. cbn [mbind_M] in E. injection E as <- <-. eapply paid_trans; [exact Pd|]. by apply sync_paid in E3.
  - unfold received_getcfheaders in E. destruct (negb _); [injection E as <- <-; apply paid_same; [done|by repeat constructor]|]. destruct (tr_get _ _); [|injection E as <- <-; by apply paid_same].
    destruct (f_range _ _ _ _); [injection E as <- <-; by apply paid_same|]. destruct (f_prev _ _ _); [injection E as <- <-; apply paid_same; [done|by repeat constructor]|done].
  - unfold received_cfilter in E. destruct (negb _); [injection E as <- <-; by apply paid_same|]. destruct (tr_get _ _) as [height|]; [|injection E as <- <-; by apply paid_same].
    destruct (f_get _ _ _) as [[]|]; [|injection E as <- <-; by apply paid_same]. destruct (f_prev _ _ _); [|done].
    destruct (negb _); [injection E as <- <-; apply paid_same; [done|by repeat constructor]|].
    destruct (r_receive _ _ _ _) as [[r rq]|] eqn:Rr; [|done]; cbn [mbind_M] in E. apply receive_paid in Rr.
    destruct rq; cbn [mbind_M] in E.
    + destruct (process_spec P r) as (r' & ms & es & Ep & Pr). rewrite Ep in E. cbn [mbind_M] in E. apply process_paid in Pr.
      set (s1 := if _ <? _ then _ else _) in E. assert (X : c_rescan s1 = r') by (unfold s1; by destruct (_ <? _)).
      pose proof (want_quiet ms (c_pending s1)) as Q. destruct (want_blocks ms (c_pending s1)) as [p o]. cbn [snd] in Q.
      injection E as <- <-. unfold paid, credit. cbn [c_rescan set_pending]. rewrite X.
      change (CoFilterReceived from ha height f :: ?l) with ([CoFilterReceived from ha height f] ++ l). rewrite !count_app.
      rewrite (count_none (processes_new h) o). 2: { eapply Forall_impl; [exact Q|]. by intros ? [? ->]. }
      rewrite (count_none (processes_new h) (if decide _ then _ else _)) by (destruct (decide _); by repeat constructor).
      rewrite (count_none (processes_new h) [CoFilterReceived _ _ _ _]) by (by repeat constructor). lia.
    + cbn [want_blocks] in E. injection E as <- <-. unfold paid, credit. cbn [c_rescan set_pending app].
      rewrite (count_none (processes_new h) _) by (constructor; [done|]; destruct (decide _); by repeat constructor). lia.
  - unfold cbf_timer in E. destruct (idle _ _ _ _ _) as [[s1 o1]|] eqn:E1; [|done]. cbn [mbind_M] in E. pose proof E1 as E1'. apply idle_paid in E1.
    pose proof (expire_spec P k now t (k_order k 3 (fst <$> map_to_list (c_inflight s1))) 0 s1) as [Qx X].
    pose proof (expire_plain P k now (k_order k 3 (fst <$> map_to_list (c_inflight s1))) 0 s1) as F2. destruct (expire _ _ _ _ _ _) as [s2 o2]. cbn [fst snd] in X, F2, Qx.
    assert (P2 : paid t h s1 s2 o2) by (apply paid_same; [unfold credit; by rewrite X|done]).
    destruct (_ && _); [|injection E as <- <-; by eapply paid_trans].
    destruct (get_cfilters _ _ _ _ _) as [[[s3 o3] e]|] eqn:G; [|done]. cbn [mbind_M] in E. injection E as <- <-.
    assert (L3 : f_height s2 <= tr_height t).
    { match type of G with get_cfilters ?o ?a ?b t ?s0 = _ => destruct (get_cfilters_spec o a b t s0) as [[E' _]|(r & o' & e' & E' & _)]; rewrite E' in G; [done|] end.
      injection G as <- <- <-. exact Lh. }
    eapply paid_trans; [exact E1|]. eapply paid_trans; [exact P2|]. apply (cfilters_paid _ _ _ _ _ _ _ _ h) in G; [|intros l; apply order_perm|exact L3].
    unfold paid, credit in *. cbn [c_rescan set_rescan r_reset] in G. etrans; [exact G|]. unfold wants_at. change (r_requested (r_reset (c_rescan s2))) with (∅ : gset N). rewrite (bool_decide_false (h ∈ ∅)) by set_solver.
    assert (Y : fresh_at (r_reset (c_rescan s2)) h = fresh_at (c_rescan s2) h) by done. lia.
  - injection E as <- <-. by apply paid_same.
  - injection E as <- <-. by apply paid_same.
  - unfold cbf_rescan in E. set (s0 := set_rescan (r_restart _ _ _ _) s) in E.
    assert (C0 : (credit s0 h <= credit s h)%nat).
    { unfold credit, s0, wants_at. cbn [c_rescan set_rescan]. match goal with |- context[r_requested (r_restart ?a ?b ?c ?d)] => change (r_requested (r_restart a b c d)) with (∅ : gset N) end. rewrite (bool_decide_false (h ∈ ∅)) by set_solver.
match goal with |- context[fresh_at (r_restart ?a ?b ?c ?d) h] => change (fresh_at (r_restart a b c d) h) with (fresh_at (c_rescan s) h) end. lia. }
    assert (P0 : forall st sp, paid t h s s0 [CoRescanStarted st sp]) by (intros; unfold paid; cbn; lia).
    destruct (decide _); [injection E as <- <-; apply P0|]. destruct (_ <? _); [injection E as <- <-; apply P0|].
    destruct (get_cfilters _ _ _ _ _) as [[[s3 o3] e]|] eqn:G; [|done]. cbn [mbind_M] in E.
    destruct (process_spec P (c_rescan s3)) as (r & ms & es & Ep & Pr). rewrite Ep in E. cbn [mbind_M] in E. apply process_paid in Pr.
    assert (E' : s' = set_rescan r s3 /\ exists st sp, x = [CoRescanStarted st sp] ++ o3 ++ es ++ (CoGetBlock <$> ms.*2)).
    { destruct e as [[]|]; [done| |]; injection E as <- <-; (split; [done|]); by eexists _, _. }
    destruct E' as [-> (st & sp & ->)]. eapply paid_trans; [apply P0|].
    apply (paid_trans _ _ _ s3).
    + apply (cfilters_paid _ _ _ _ _ _ _ _ h) in G; [exact G|intros l; apply order_perm|].
      match type of G with get_cfilters ?o ?a ?b t ?s0 = _ => destruct (get_cfilters_spec o a b t s0) as [[E' _]|(r' & o' & e' & E' & _)]; rewrite E' in G; [done|] end.
      injection G as <- <- <-. exact Lh.
    + unfold paid, credit. cbn [c_rescan set_rescan]. rewrite !count_app. rewrite (count_none (processes_new h) (CoGetBlock <$> _)); [lia|].
      apply Forall_fmap, Forall_true. done.
  - destruct (get_cfilters _ _ _ _ _) as [[[s3 o3] e]|] eqn:G; [|done]. cbn [mbind_M] in E. injection E as <- <-.
    eapply paid_trans; [|apply paid_same; [reflexivity|by repeat constructor]]. apply (cfilters_paid _ _ _ _ _ _ _ _ h) in G; [exact G|intros l; apply order_perm|].
    match type of G with get_cfilters ?o ?a ?b t ?s0 = _ => destruct (get_cfilters_spec o a b t s0) as [[E' _]|(r' & o' & e' & E' & _)]; rewrite E' in G; [done|] end.
    injection G as <- <- <-. exact Lh.
Qed.
End Step.

Lemma run_paid P cap h ins : forall old s s' xs, cbf_ok P cap s -> c_store s = c_filters s -> f_height s <= tr_height old ->
  faithful old ins -> Forall io_ok ins -> Forall complete ins -> cbf_run P ins s = Val (s', xs) ->
  (credit s' h + count (processes_new h) (concat xs) <= credit s h + asked_filter h ins xs)%nat.
Proof.
  induction ins as [|i ins IH]; intros old s s' xs Ok St L Fa Io Co; cbn [cbf_run]; [intros [= <- <-]; cbn; lia|].
  destruct (step_on P i s) as [[s1 x]|] eqn:E; [|done]. cbn [mbind_M].
  destruct (cbf_run P ins s1) as [[s2 xs']|] eqn:E2; [|done]. intros [= <- <-].
  apply Forall_cons in Io as [I1 I2]. apply Forall_cons in Co as [C1 C2]. destruct Fa as [Fa Fa'].
  assert (R1 : cbf_run P [i] s = Val (s1, [x])) by (cbn [cbf_run]; rewrite E; done).
  destruct (run_heights P cap [i] old s s1 [x] Ok St L ltac:(by split) ltac:(by constructor) R1) as (L1 & St1 & Ok1).
  change (final_tree old [i]) with (i_tree i) in L1.
  pose proof (step_paid P i h C1 s s1 x L1 E) as Pd. unfold paid in Pd.
  specialize (IH (i_tree i) s1 s2 xs' Ok1 St1 L1 Fa' I2 C2 E2). cbn [concat asked_filter]. rewrite count_app. lia.
Qed.

Lemma filters_asked P cap st ins s outs old h : chained P ((p_genesis P, p_header P (p_genesis P) 0) :: st) -> lenN st <= tr_height old ->
  cbf_reach P cap st ins s outs -> faithful old ins -> Forall io_ok ins -> Forall complete ins ->
  (count (processes_new h) (concat outs) <= asked_filter h ins outs)%nat.
Proof.
  intros C L R F Io Co. pose proof (run_paid P cap h ins old _ s outs (cbf0_ok P cap st C) eq_refl L F Io Co R) as X.
  assert (credit (cbf0 cap st) h = 0%nat); [|lia].
  unfold credit, fresh_at, wants_at. change (r_received _) with (∅ : gmap N (bfilter * N * bool)). change (r_requested _) with (∅ : gset N).
  by rewrite lookup_empty, (bool_decide_false (h ∈ ∅)) by set_solver.
Qed.
