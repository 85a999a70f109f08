(** Proofs about sockets and event channels. *)
From Verif Require Import Base NetModel NetSpec.
Open Scope N_scope.

(** ** Socket *)

Lemma sk_loop_ok env : lawful_write env -> forall fuel k s, (length s <= fuel)%nat ->
  exists s' w e, sk_loop fuel env k s = Val (s', w, e) /\ w ++ s' = s /\ (e = None <-> s' = []).
Proof.
  intros L. induction fuel as [|fuel IH]; intros k [|x s] Hf; cbn [sk_loop].
  - exists [], [], None. done.
  - cbn [length] in Hf. lia.
  - exists [], [], None. done.
  - destruct (env k (x :: s)) as [e|n] eqn:E.
    + exists (x :: s), [], (Some e). done.
    + destruct (N.eqb_spec n 0) as [->|Hn].
      { exists (x :: s), [], (Some write_zero). done. }
      pose proof (L _ _ _ E) as Hl.
      destruct (N.ltb_spec (lenN (x :: s)) n) as [|_]; [lia|].
      destruct (IH (S k) (drop (N.to_nat n) (x :: s))) as (s' & w & e & R & Hw & He).
      { rewrite drop_length. cbn [length] in Hf |- *. lia. }
      rewrite R. cbn [mbind_M]. exists s', (take (N.to_nat n) (x :: s) ++ w), e.
      split; [done|]. split; [|done]. by rewrite <- app_assoc, Hw, take_drop.
Qed.

(** Without assuming anything of the stream. *)
Lemma sk_loop_any env : forall fuel k s s' w e, sk_loop fuel env k s = Val (s', w, e) ->
  w ++ s' = s /\ (e = None <-> s' = []).
Proof.
  induction fuel as [|fuel IH]; intros k [|x s] s' w e R; cbn [sk_loop] in R;
    try (injection R as <- <- <-; done); try discriminate R.
  destruct (env k (x :: s)) as [e0|n] eqn:E; [by injection R as <- <- <-|].
  destruct (N.eqb_spec n 0) as [->|Hn]; [by injection R as <- <- <-|].
  destruct (N.ltb_spec (lenN (x :: s)) n) as [|_]; [discriminate|].
  destruct (sk_loop fuel env (S k) (drop (N.to_nat n) (x :: s))) as [[[s1 w1] e1]|] eqn:R1; [|discriminate].
  cbn [mbind_M] in R. injection R as <- <- <-. apply IH in R1 as [Hw He].
  split; [|done]. by rewrite <- app_assoc, Hw, take_drop.
Qed.

Lemma sk_flush_any env fin s s' w e : sk_flush env fin s = Val (s', w, e) ->
  w ++ s' = s /\ (s' = [] -> e = fin) /\ (s' <> [] -> e <> None).
Proof.
  unfold sk_flush. destruct (sk_loop _ _ _ _) as [[[s1 w1] e1]|] eqn:R; [|discriminate].
  cbn [mbind_M]. apply sk_loop_any in R as [Hw He].
  destruct e1 as [e1|]; intros [= <- <- <-]; (split; [done|]).
  - split; [|done]. intros E. exfalso. by apply He in E.
  - assert (s1 = []) as -> by by apply He. done.
Qed.

Lemma sk_flush_ok env fin s : lawful_write env -> exists s' w e, sk_flush env fin s = Val (s', w, e).
Proof.
  intros L. destruct (sk_loop_ok env L (length s) 0 s ltac:(done)) as (s' & w & e & R & _).
  unfold sk_flush. rewrite R. cbn [mbind_M]. destruct e; by eauto.
Qed.

Lemma sk_run_any os : forall s s' w, sk_run s os = Val (s', w) -> w ++ s' = s ++ pushed os.
Proof.
  induction os as [|o os IH]; intros s s' w R; cbn [sk_run] in R.
  { injection R as <- <-. by rewrite app_nil_r. }
  destruct (sk_step s o) as [[[s1 w1] e1]|] eqn:E; [|discriminate]. cbn [mbind_M] in R.
  destruct (sk_run s1 os) as [[s2 w2]|] eqn:R1; [|discriminate]. cbn [mbind_M] in R.
  injection R as <- <-. apply IH in R1. rewrite <- app_assoc, R1.
  destruct o as [b|env fin]; cbn [sk_step pushed] in *.
  - injection E as <- <- <-. unfold sk_push. by rewrite <- app_assoc.
  - destruct (sk_flush env fin s) as [[[s3 w3] e3]|] eqn:F; [|discriminate]. cbn [mbind_M] in E.
    injection E as <- <- <-. apply sk_flush_any in F as [F _]. by rewrite app_assoc, F.
Qed.

Lemma sk_run_ok os : Forall lawful_op os -> forall s, exists s' w, sk_run s os = Val (s', w).
Proof.
  induction 1 as [|o os L _ IH]; intros s; cbn [sk_run]; [by eauto|].
  assert (exists s1 w1 e1, sk_step s o = Val (s1, w1, e1)) as (s1 & w1 & e1 & E).
  { destruct o as [b|env fin]; cbn [sk_step]; [by eauto|].
    destruct (sk_flush_ok env fin s L) as (s1 & w1 & e1 & ->). cbn [mbind_M]. by eauto. }
  rewrite E. cbn [mbind_M]. destruct (IH s1) as (s2 & w2 & ->). cbn [mbind_M]. by eauto.
Qed.

(** ** Events *)

Section Events.
Context {T : Type}.
Implicit Types (s : emitter T) (cs : list (chanst T)) (os : list (em_op T)).

Definition qof (i : nat) cs : list T := match cs !! i with Some c => ch_queue c | None => [] end.
Definition livein (i : nat) cs : Prop := exists c, cs !! i = Some c /\ ch_live c = true.

Lemma try_send_live (i : nat) (e : T) cs : livein i cs ->
  exists cs', try_send i e cs = (cs', true) /\ length cs' = length cs /\
    qof i cs' = qof i cs ++ [e] /\ (forall j, j <> i -> cs' !! j = cs !! j) /\
    (forall j, livein j cs' <-> livein j cs).
Proof.
  intros (c & E & L). unfold try_send. rewrite E, L. eexists. split; [done|].
  assert (i < length cs)%nat as Hi by by apply lookup_lt_Some in E.
  split; [by rewrite insert_length|]. split.
  { unfold qof. rewrite list_lookup_insert by done. by rewrite E. }
  split; [intros j Hj; by rewrite list_lookup_insert_ne|].
  intros j. unfold livein. destruct (decide (j = i)) as [->|Hj].
  - rewrite list_lookup_insert by done. split; intros _; eauto.
  - by rewrite list_lookup_insert_ne.
Qed.
Lemma try_send_dead (i : nat) (e : T) cs : ~ livein i cs -> try_send i e cs = (cs, false).
Proof.
  intros H. unfold try_send. destruct (cs !! i) as [c|] eqn:E; [|done].
  destruct (ch_live c) eqn:L; [|done]. exfalso. apply H. by exists c.
Qed.
Lemma livein_dec (i : nat) cs : livein i cs \/ ~ livein i cs.
Proof.
  unfold livein. destruct (cs !! i) as [c|]; [|right; by intros (? & [=] & _)].
  destruct (ch_live c) eqn:L; [left; eauto|]. right. intros (c' & [= <-] & L'). congruence.
Qed.

Lemma em_retain_spec (e : T) subs : NoDup subs -> forall cs,
  exists subs' cs', em_retain e subs cs = (subs', cs') /\ length cs' = length cs /\
    (forall j, j ∈ subs' <-> j ∈ subs /\ livein j cs) /\ NoDup subs' /\
    (forall j, livein j cs' <-> livein j cs) /\
    (forall j, j ∈ subs -> livein j cs -> qof j cs' = qof j cs ++ [e]) /\
    (forall j, j ∉ subs \/ ~ livein j cs -> qof j cs' = qof j cs).
Proof.
  induction 1 as [|i subs Hi ND IH]; intros cs; cbn [em_retain].
  { exists [], cs. split; [done|]. split; [done|]. split; [set_solver|]. split; [constructor|].
    split; [done|]. split; [set_solver|]. done. }
  destruct (livein_dec i cs) as [L|L].
  - destruct (try_send_live i e cs L) as (cs1 & -> & Len & Q & O & LL).
    destruct (IH cs1) as (subs' & cs' & -> & Len' & M1 & ND' & M2 & M3 & M4).
    eexists _, cs'. split; [done|]. split; [by rewrite Len'|].
    assert (forall j, j <> i -> qof j cs1 = qof j cs) as Q' by (intros j Hj; unfold qof; by rewrite O).
    split.
    { intros j. rewrite elem_of_cons, M1, LL, elem_of_cons. split; [|naive_solver].
      intros [->|[? ?]]; [by split; [left|]|]. split; [by right|done]. }
    split. { constructor; [|done]. by rewrite M1; intros [? _]. }
    split; [intros j; by rewrite M2, LL|]. split.
    + intros j [->|Hj]%elem_of_cons Lj.
      * rewrite M4 by (by left). done.
      * rewrite M3 by (done || by apply LL). rewrite Q'; [done|]. by intros ->.
    + intros j Hj. destruct (decide (j = i)) as [->|Hne].
      { destruct Hj as [Hj|Hj]; [|done]. exfalso. apply Hj. by left. }
      rewrite M4; [by apply Q'|]. rewrite LL. destruct Hj as [Hj|Hj]; [left|by right].
      intros ?. apply Hj. by right.
  - rewrite (try_send_dead i e cs L).
    destruct (IH cs) as (subs' & cs' & -> & Len' & M1 & ND' & M2 & M3 & M4).
    exists subs', cs'. split; [done|]. split; [done|].
    split. { intros j. rewrite M1, elem_of_cons. naive_solver. }
    split; [done|]. split; [done|]. split.
    + intros j [->|Hj]%elem_of_cons Lj; [done|]. by apply M3.
    + intros j Hj. apply M4. destruct Hj as [Hj|Hj]; [left|by right]. intros ?. apply Hj. by right.
Qed.

(** Senders are distinct and name existing channels. *)
Record em_inv s : Prop := {
  ei_nodup : NoDup (em_subs s);
  ei_range : forall j, j ∈ em_subs s -> (j < length (em_chans s))%nat }.

Definition phase_ok (i : nat) s (p : phase) : Prop :=
  match p with
  | Unborn => (length (em_chans s) <= i)%nat
  | Open => i ∈ em_subs s /\ livein i (em_chans s)
  | Closed => (i < length (em_chans s))%nat /\ (i ∈ em_subs s -> ~ livein i (em_chans s))
  end.

Lemma em_inv_step s o s' r : em_step s o = (s', r) -> em_inv s -> em_inv s'.
Proof.
  intros E [I1 I2]. destruct o as [|e| |j|j]; cbn [em_step] in E.
  - cbn [em_subscribe] in E. injection E as <- _. split; cbn [em_subs em_chans].
    + apply NoDup_app. split; [done|]. split; [|apply NoDup_singleton].
      intros j Hj ->%elem_of_list_singleton. apply I2 in Hj. lia.
    + intros j. rewrite elem_of_app, elem_of_list_singleton, app_length. cbn [length].
      intros [Hj| ->]; [apply I2 in Hj|]; lia.
  - injection E as <- _. unfold em_emit.
    destruct (em_retain_spec e (em_subs s) I1 (em_chans s)) as (subs' & cs' & -> & Len & M1 & ND & _).
    split; cbn [em_subs em_chans]; [done|]. intros j [Hj _]%M1. rewrite Len. by apply I2.
  - injection E as <- _. split; cbn [em_subs em_chans em_close]; [constructor|set_solver].
  - injection E as <- _. split; cbn [em_subs em_chans em_drop]; [done|]. by rewrite alter_length.
  - unfold em_recv in E. destruct (em_chans s !! j) as [[[] [|e q]]|]; injection E as <- _; try done.
    split; cbn [em_subs em_chans]; [done|]. by rewrite insert_length.
Qed.

Lemma waiting_qof i s : waiting i s = qof i (em_chans s).
Proof. done. Qed.

Lemma lookup_beyond (i : nat) cs : (length cs <= i)%nat -> cs !! i = None.
Proof. apply lookup_ge_None_2. Qed.

(** A dropped receiver takes nothing any more. *)
Definition gone (i : nat) s : Prop := exists c, em_chans s !! i = Some c /\ ch_live c = false.
Lemma gone_step i s o s' r : gone i s -> em_inv s -> em_step s o = (s', r) ->
  gone i s' /\ (forall e, r <> OReceived i (Some e)).
Proof.
  intros (c & Ec & L) I E. assert (i < length (em_chans s))%nat as Hi by by apply lookup_lt_Some in Ec.
  destruct o as [|e| |j|j]; cbn [em_step] in E.
  - cbn [em_subscribe] in E. injection E as <- <-. split; [|done]. exists c. cbn [em_chans].
    by rewrite lookup_app_l.
  - injection E as <- <-. split; [|done]. unfold em_emit.
    assert (forall subs cs, cs !! i = Some c -> (em_retain e subs cs).2 !! i = Some c) as H.
    { induction subs as [|j subs IH]; intros cs Hc; cbn [em_retain]; [done|].
      destruct (try_send j e cs) as [cs' ok] eqn:Et.
      assert (cs' !! i = Some c) as Hc'.
      { unfold try_send in Et. destruct (cs !! j) as [cj|] eqn:Ej; [|by injection Et as <- _].
        destruct (ch_live cj) eqn:Lj; injection Et as <- _; [|done].
        destruct (decide (i = j)) as [->|Hij]; [congruence|]. by rewrite list_lookup_insert_ne. }
      specialize (IH cs' Hc'). destruct (em_retain e subs cs') as [subs' cs'']. by destruct ok. }
    specialize (H (em_subs s) (em_chans s) Ec). destruct (em_retain e (em_subs s) (em_chans s)) as [subs cs].
    by exists c.
  - injection E as <- <-. split; [|done]. by exists c.
  - injection E as <- <-. split; [|done]. unfold gone. cbn [em_drop em_chans].
    destruct (decide (i = j)) as [->|Hij].
    + rewrite list_lookup_alter, Ec. cbn. by eexists.
    + rewrite list_lookup_alter_ne by done. by exists c.
  - unfold em_recv in E. destruct (em_chans s !! j) as [[[] [|e q]]|] eqn:Ej; injection E as <- <-;
      try (split; [by exists c|intros e0 [=]]).
    assert (i <> j) as Hij by (intros ->; rewrite Ec in Ej; injection Ej as ->; done).
    split; [|intros e0 [=]; congruence]. exists c. cbn [em_chans]. by rewrite list_lookup_insert_ne.
Qed.
Lemma gone_run i os : forall s s' rs, gone i s -> em_inv s -> em_run s os = (s', rs) -> taken i rs = [].
Proof.
  induction os as [|o os IH]; intros s s' rs G I; cbn [em_run]; [by intros [= _ <-]|].
  destruct (em_step s o) as [s1 r] eqn:E. destruct (em_run s1 os) as [s2 rs2] eqn:R. intros [= _ <-].
  destruct (gone_step i s o s1 r G I E) as [G1 Hr].
  pose proof (IH s1 s2 rs2 G1 (em_inv_step _ _ _ _ E I) R) as Ht.
  cbn [taken]. destruct r as [j|j [e|]|]; try done. case_decide as Hij; [|done]. subst j. by destruct (Hr e).
Qed.

(** What was taken is a prefix of what was sent; while the receiver is kept,
    what remains is waiting. *)
Lemma em_account i os : forall s p s' rs, em_inv s -> phase_ok i s p ->
  em_run s os = (s', rs) -> exists rest, taken i rs ++ rest = waiting i s ++ sent i p os rs /\
    (EDrop i ∉ os -> rest = waiting i s').
Proof.
  induction os as [|o os IH]; intros s p s' rs I P R.
  { cbn [em_run] in R. injection R as <- <-. cbn [taken sent]. exists (waiting i s). by rewrite app_nil_r. }
  cbn [em_run] in R. destruct (em_step s o) as [s1 r] eqn:E.
  destruct (em_run s1 os) as [s2 rs2] eqn:R2. injection R as <- <-.
  pose proof (em_inv_step _ _ _ _ E I) as I1.
  assert (forall p1, phase_ok i s1 p1 -> taken i (r :: rs2) = taken i rs2 ->
    waiting i s1 ++ sent i p1 os rs2 = waiting i s ++ sent i p (o :: os) (r :: rs2) ->
    exists rest, taken i (r :: rs2) ++ rest = waiting i s ++ sent i p (o :: os) (r :: rs2) /\
    (EDrop i ∉ o :: os -> rest = waiting i s2)) as K.
  { intros p1 P1 -> <-. destruct (IH s1 p1 s2 rs2 I1 P1 R2) as (rest & Eq & Hr). exists rest.
    split; [done|]. intros ND. apply Hr. intros ?. apply ND. by right. }
  destruct o as [|e| |j|j]; cbn [em_step] in E.
  - cbn [em_subscribe] in E. injection E as <- <-. cbn [sent] in *.
    set (s1 := {| em_subs := _; em_chans := _ |}) in *.
    assert (forall j, j <> length (em_chans s) -> em_chans s1 !! j = em_chans s !! j) as O.
    { intros j Hj. cbn [em_chans s1]. destruct (decide (j < length (em_chans s))%nat).
      - by rewrite lookup_app_l.
      - rewrite !lookup_beyond; [done|lia|]. rewrite app_length. cbn [length]. lia. }
    assert (forall j, livein j (em_chans s) -> livein j (em_chans s1)) as LL.
    { intros j (c & Ec & L). exists c. rewrite O; [done|]. apply lookup_lt_Some in Ec. lia. }
    destruct p.
    + cbn [phase_ok] in P. destruct (decide (i = length (em_chans s))) as [->|Hne].
      * apply (K Open); [split|done|].
        -- cbn [em_subs s1]. apply elem_of_app. right. by left.
        -- exists {| ch_live := true; ch_queue := [] |}. split; [|done]. cbn [em_chans s1].
           rewrite lookup_app_r by done. by rewrite Nat.sub_diag.
        -- f_equal. unfold waiting. cbn [em_chans s1]. rewrite lookup_app_r by done.
           rewrite Nat.sub_diag. cbn. by rewrite lookup_beyond.
      * apply (K Unborn); [cbn [phase_ok s1 em_chans]; rewrite app_length; cbn [length]; lia|done|].
        f_equal. unfold waiting. by rewrite O.
    + destruct P as [P1 P2]. apply (K Open); [split; [|by apply LL]|done|].
      * cbn [em_subs s1]. apply elem_of_app. by left.
      * f_equal. unfold waiting. rewrite O; [done|]. apply (ei_range s I) in P1. lia.
    + destruct P as [P1 P2]. apply (K Closed); [split|done|].
      * cbn [em_chans s1]. rewrite app_length. lia.
      * cbn [em_subs s1]. rewrite elem_of_app, elem_of_list_singleton. intros [Hs|Hs]; [|lia].
        intros (c & Ec & L). apply (P2 Hs). exists c. split; [|done]. rewrite <- Ec. symmetry. apply O. lia.
      * f_equal. unfold waiting. rewrite O; [done|lia].
  - injection E as <- <-.
    destruct (em_retain_spec e (em_subs s) (ei_nodup s I) (em_chans s)) as (subs' & cs' & Er & Len & M1 & NDs & M2 & M3 & M4).
    assert (em_emit s e = {| em_subs := subs'; em_chans := cs' |}) as Es by (unfold em_emit; by rewrite Er).
    rewrite Es in *. destruct p; cbn [sent] in *.
    + apply (K Unborn); [cbn [phase_ok em_chans] in *; lia|done|].
      f_equal. rewrite !waiting_qof. cbn [em_chans]. apply M4. right. intros (c & Ec & _).
      rewrite lookup_beyond in Ec by done. done.
    + destruct P as [P1 P2]. apply (K Open); [split; cbn [em_subs em_chans]; [by apply M1|by apply M2]|done|].
      rewrite !waiting_qof. cbn [em_chans]. rewrite (M3 i P1 P2). by rewrite <- app_assoc.
    + destruct P as [P1 P2].
      assert (i ∉ em_subs s \/ ~ livein i (em_chans s)) as Q.
      { destruct (livein_dec i (em_chans s)) as [L|L]; [|by right]. left. intros Hs. by apply (P2 Hs). }
      apply (K Closed); [split; cbn [em_subs em_chans]|done|].
      * lia.
      * intros [Hs L]%M1. by destruct (P2 Hs).
      * f_equal. rewrite !waiting_qof. cbn [em_chans]. by apply M4.
  - injection E as <- <-. destruct p; cbn [sent] in *.
    + by apply (K Unborn).
    + destruct P as [P1 P2]. apply (K Closed); [|done|done].
      split; cbn [em_chans em_subs em_close]; [by apply (ei_range s I)|set_solver].
    + destruct P as [P1 P2]. apply (K Closed); [|done|done].
      split; cbn [em_chans em_subs em_close]; [done|set_solver].
  - injection E as <- <-. destruct (decide (i = j)) as [<-|Hij].
    { destruct p; cbn [sent taken] in *.
      - apply (K Unborn); [by cbn [phase_ok em_drop em_chans] in *; rewrite alter_length|done|].
        f_equal. unfold waiting. cbn [em_drop em_chans]. cbn [phase_ok] in P.
        by rewrite list_lookup_alter, lookup_beyond.
      - assert (i < length (em_chans s))%nat as Hi by by apply (ei_range s I); destruct P.
        assert (gone i (em_drop s i)) as G.
        { apply lookup_lt_is_Some in Hi as [c Ec]. unfold gone. cbn [em_drop em_chans].
          rewrite list_lookup_alter, Ec. by eexists. }
        rewrite (gone_run i os _ _ _ G I1 R2). eexists. split; [done|]. intros ND. destruct ND. by left.
      - assert (i < length (em_chans s))%nat as Hi by by destruct P.
        assert (gone i (em_drop s i)) as G.
        { apply lookup_lt_is_Some in Hi as [c Ec]. unfold gone. cbn [em_drop em_chans].
          rewrite list_lookup_alter, Ec. by eexists. }
        rewrite (gone_run i os _ _ _ G I1 R2). eexists. split; [done|]. intros ND. destruct ND. by left. }
    assert (em_chans (em_drop s j) !! i = em_chans s !! i) as O.
    { cbn [em_drop em_chans]. by rewrite list_lookup_alter_ne. }
    assert (waiting i (em_drop s j) = waiting i s) as W by (unfold waiting; by rewrite O).
    destruct p; cbn [sent] in *.
    + apply (K Unborn); [cbn [phase_ok em_drop em_chans] in *; by rewrite alter_length|done|by rewrite W].
    + destruct P as [P1 P2]. destruct (decide (i = j)) as [|_]; [done|].
      apply (K Open); [|done|by rewrite W]. split; [done|]. unfold livein. by rewrite O.
    + destruct P as [P1 P2]. apply (K Closed); [|done|by rewrite W].
      split; [cbn [em_drop em_chans]; by rewrite alter_length|]. unfold livein. by rewrite O.
  - assert (forall b, sent i p (ERecv j :: os) (OReceived j b :: rs2) = sent i p os rs2) as Sn.
    { intros b. by destruct p. }
    unfold em_recv in E. destruct (em_chans s !! j) as [[[] [|e q]]|] eqn:Ej; injection E as <- <-;
      rewrite Sn in *; try (by apply (K p)).
    set (s1 := {| em_subs := em_subs s; em_chans := _ |}) in *.
    assert (forall k, livein k (em_chans s1) <-> livein k (em_chans s)) as LL.
    { intros k. unfold livein. cbn [em_chans s1]. destruct (decide (k = j)) as [->|Hk].
      - rewrite list_lookup_insert by by apply lookup_lt_Some in Ej. rewrite Ej. split; intros _; eauto.
      - by rewrite list_lookup_insert_ne. }
    assert (phase_ok i s1 p) as P1.
    { destruct p; cbn [phase_ok em_subs s1] in *; rewrite ?LL; try done.
      - cbn [em_chans s1]. by rewrite insert_length.
      - cbn [em_chans s1]. rewrite insert_length. done. }
    cbn [taken] in *. destruct (decide (i = j)) as [->|Hij].
    + destruct (IH s1 p s2 rs2 I1 P1 R2) as (rest & Eq & Hr). exists rest. cbn [app]. rewrite Eq. split.
      * unfold waiting at 1. cbn [em_chans s1].
        rewrite list_lookup_insert by by apply lookup_lt_Some in Ej. cbn [ch_queue].
        unfold waiting. by rewrite Ej.
      * intros ND. apply Hr. intros ?. apply ND. by right.
    + apply (K p P1); [done|]. f_equal. unfold waiting. cbn [em_chans s1].
      by rewrite list_lookup_insert_ne by done.
Qed.

Lemma em_inv_new : em_inv em_new.
Proof. split; cbn [em_new em_subs]; [constructor|set_solver]. Qed.

Lemma em_delivered i os s rs : em_run em_new os = (s, rs) ->
  exists rest, taken i rs ++ rest = sent i Unborn os rs /\ (EDrop i ∉ os -> rest = waiting i s).
Proof.
  intros R. apply (em_account i os em_new Unborn s rs em_inv_new); [|done].
  cbn [phase_ok em_new em_chans length]. lia.
Qed.


(** Receivers are handed out with fresh names. *)
Lemma subscribed_seq os : forall s s' rs, em_run s os = (s', rs) ->
  subscribed rs = seq (length (em_chans s)) (length (subscribed rs)).
Proof.
  induction os as [|o os IH]; intros s s' rs; cbn [em_run]; [by intros [= _ <-]|].
  destruct (em_step s o) as [s1 r] eqn:E. destruct (em_run s1 os) as [s2 rs2] eqn:R. intros [= _ <-].
  apply IH in R. destruct o as [|e| |j|j]; cbn [em_step] in E.
  - cbn [em_subscribe] in E. injection E as <- <-. cbn [subscribed length seq]. f_equal.
    rewrite R at 1. cbn [em_chans]. rewrite app_length. cbn [length]. by rewrite Nat.add_1_r.
  - injection E as <- <-. cbn [subscribed]. rewrite R at 1. f_equal. unfold em_emit.
    assert (forall subs cs, length (em_retain e subs cs).2 = length cs) as H.
    { induction subs as [|j subs IHs]; intros cs; cbn [em_retain]; [done|].
      destruct (try_send j e cs) as [cs' ok] eqn:Et. specialize (IHs cs').
      destruct (em_retain e subs cs') as [subs' cs'']. cbn [snd] in *. rewrite IHs.
      unfold try_send in Et. destruct (cs !! j) as [cj|]; [|by injection Et as <- _].
      destruct (ch_live cj); injection Et as <- _; [by rewrite insert_length|done]. }
    specialize (H (em_subs s) (em_chans s)). by destruct (em_retain e (em_subs s) (em_chans s)).
  - injection E as <- <-. exact R.
  - injection E as <- <-. cbn [subscribed]. rewrite R at 1. f_equal. cbn [em_drop em_chans]. by rewrite alter_length.
  - unfold em_recv in E. destruct (em_chans s !! j) as [[[] [|e q]]|]; injection E as <- <-; try exact R.
    cbn [subscribed]. rewrite R at 1. f_equal. cbn [em_chans]. by rewrite insert_length.
Qed.
End Events.

Lemma ev_wait_first {E T} (f : E -> option T) rs t : ev_wait rs f = Ok t <->
  exists a e b, rs = a ++ RGot e :: b /\ f e = Some t /\
    Forall (fun r => match r with RGot x => f x = None | RTimeout => True | RDisconnected => False end) a.
Proof.
  induction rs as [|r rs IH]; cbn [ev_wait].
  { split; [done|]. intros ([|] & e & b & [=] & _). }
  split.
  - destruct r as [x| |].
    + destruct (f x) as [t'|] eqn:F.
      * intros [= ->]. by exists [], x, rs.
      * intros (a & e & b & -> & Fe & Fa)%IH. exists (RGot x :: a), e, b. by rewrite Forall_cons.
    + intros (a & e & b & -> & Fe & Fa)%IH. exists (RTimeout :: a), e, b. by rewrite Forall_cons.
    + done.
  - intros ([|r' a] & e & b & [= -> ->] & Fe & Fa); [by rewrite Fe|].
    apply Forall_cons in Fa as [Fr Fa]. destruct r' as [x| |]; [rewrite Fr| |done]; apply IH; by exists a, e, b.
Qed.

Lemma ev_wait_error {E T} (f : E -> option T) rs :
  (ev_wait rs f = Err EDisconnected <-> exists a b, rs = a ++ RDisconnected :: b /\ Forall (fun r => match r with RGot x => f x = None | RTimeout => True | RDisconnected => False end) a) /\
  (ev_wait rs f = Err ETimeout <-> Forall (fun r => match r with RGot x => f x = None | RTimeout => True | RDisconnected => False end) rs).
Proof.
  induction rs as [|r rs [IH1 IH2]]; cbn [ev_wait].
  { split; split; try done. intros ([|] & b & [=] & _). }
  destruct r as [x| |].
  - destruct (f x) as [t|] eqn:F.
    + split; (split; [done|]).
      * intros ([|? a] & b & [= <- ->] & Fa). apply Forall_cons in Fa as [Fx _]. congruence.
      * intros Fa. apply Forall_cons in Fa as [Fx _]. congruence.
    + rewrite IH1, IH2, Forall_cons. split; [|tauto]. split.
      * intros (a & b & -> & Fa). exists (RGot x :: a), b. by rewrite Forall_cons.
      * intros ([|? a] & b & [= <- ->] & Fa). apply Forall_cons in Fa as [_ Fa]. by exists a, b.
  - rewrite IH1, IH2, Forall_cons. split; [|tauto]. split.
    + intros (a & b & -> & Fa). exists (RTimeout :: a), b. by rewrite Forall_cons.
    + intros ([|? a] & b & [= <- ->] & Fa). apply Forall_cons in Fa as [_ Fa]. by exists a, b.
  - split; split; try done.
    + intros _. by exists [], rs.
    + intros Fa. by apply Forall_cons in Fa as [Fx _].
Qed.
