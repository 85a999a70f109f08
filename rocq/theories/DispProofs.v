(** Proofs about the dispatch of outputs, events and messages. *)
From Verif Require Import Base AddrModel PeerModel UtilModel UtilSpec UtilProofs DispModel DispSpec.
Open Scope N_scope.

Section Dispatch.
Context {St Msg Ev : Type}.
Context (h : comp -> Ev -> St -> M (St * list (comp * io Msg Ev))).
Context (magic : N).
Notation by_comp c l := (flat_map (fun p : comp * io Msg Ev => if decide (p.1 = c) then [p.2] else []) l).

Lemma queue_box (l : list (comp * io Msg Ev)) : forall b c, queue l b c = b c ++ by_comp c l.
Proof.
  induction l as [|[c' x] l IH]; intros b c; cbn [queue flat_map]; [by rewrite app_nil_r|].
  rewrite IH. cbn [fst snd]. destruct (decide (c' = c)) as [->|]; [by rewrite <- app_assoc|done].
Qed.

Lemma queued_fqueued (c : comp) (l : list (comp * io Msg Ev)) : queued_by c (fqueued l) = by_comp c l.
Proof. induction l as [|[c' x] l IH]; [done|]. cbn. by rewrite <- IH. Qed.
Lemma emitted_fqueued (c : comp) (l : list (comp * io Msg Ev)) : emitted_by c (fqueued l) = [].
Proof. induction l as [|[c' x] l IH]; [done|]. exact IH. Qed.
Lemma announced_fqueued (l : list (comp * io Msg Ev)) : announced (fqueued l) = [].
Proof. induction l as [|[c' x] l IH]; [done|]. exact IH. Qed.
Lemma queued_by_app c (t t' : list (fitem Msg Ev)) : queued_by c (t ++ t') = queued_by c t ++ queued_by c t'.
Proof. apply flat_map_app. Qed.
Lemma emitted_by_app c (t t' : list (fitem Msg Ev)) : emitted_by c (t ++ t') = emitted_by c t ++ emitted_by c t'.
Proof. apply flat_map_app. Qed.
Lemma announced_app (t t' : list (fitem Msg Ev)) : announced (t ++ t') = announced t ++ announced t'.
Proof. apply flat_map_app. Qed.

Lemma deliver_box cs e : forall (s s' : fsm St Msg Ev) l, deliver h cs e s = Val (s', l) ->
  forall c, f_box s' c = f_box s c ++ by_comp c l.
Proof.
  induction cs as [|c' cs IH]; intros s s' l R c; cbn [deliver] in R.
  - injection R as <- <-. by rewrite app_nil_r.
  - destruct (h c' e (f_state s)) as [[st l1]|]; cbn [mbind_M] in R; [|discriminate R].
    destruct (deliver h cs e _) as [[s1 l2]|] eqn:D; cbn [mbind_M] in R; [|discriminate R].
    injection R as <- <-. rewrite (IH _ _ _ D). cbn [f_box]. rewrite queue_box, flat_map_app, app_assoc. done.
Qed.

Lemma take_first_none cs (b : comp -> list (io Msg Ev)) : take_first cs b = None <-> forall c, c ∈ cs -> b c = [].
Proof.
  induction cs as [|c' cs IH]; cbn [take_first]; [split; [intros _ c []%elem_of_nil|done]|].
  destruct (b c') as [|x rest] eqn:B.
  - rewrite IH. split; [|intros H c Hc; apply H; by right].
    intros H c [->|Hc]%elem_of_cons; [done|by apply H].
  - split; [done|]. intros H. rewrite (H c') in B; [done|by left].
Qed.
Lemma take_first_some cs (b : comp -> list (io Msg Ev)) c x b' : take_first cs b = Some (c, x, b') ->
  b c = x :: b' c /\ forall c', c' <> c -> b' c' = b c'.
Proof.
  induction cs as [|c0 cs IH]; cbn [take_first]; [done|].
  destruct (b c0) as [|y rest] eqn:B; [exact IH|]. intros E. injection E as <- <- <-.
  split; [by destruct (decide (c0 = c0))|]. intros c' N. by destruct (decide (c0 = c')).
Qed.

Lemma all_sources c : c ∈ sources.
Proof. destruct c; unfold sources; repeat first [by left|right]. Qed.

Lemma stamp_wired x : stamp (Msg:=Msg) (Ev:=Ev) magic x = wired magic x.
Proof. by destruct x. Qed.

Lemma next_box s s' l o : next h magic s = Val (s', l, o) ->
  match o with
  | None => s' = s /\ l = [] /\ forall c, f_box s c = []
  | Some (c, y) => exists x rest, f_box s c = x :: rest /\ y = wired magic x /\
      f_box s' c = rest ++ by_comp c l /\ forall c', c' <> c -> f_box s' c' = f_box s c' ++ by_comp c' l
  end.
Proof.
  unfold next. destruct (take_first sources (f_box s)) as [[[c x] b]|] eqn:T.
  2: { intros E. injection E as <- <- <-. split; [done|split; [done|]]. intros c. apply (proj1 (take_first_none _ _) T), all_sources. }
  apply take_first_some in T as [T1 T2].
  assert (match stamp magic x with
          | IoEvent e => forall s'' l'', event h e (Fsm (f_state s) b) = Val (s'', l'') -> forall c', f_box s'' c' = b c' ++ by_comp c' l''
          | _ => True end) as E.
  { destruct x; try done. cbn [stamp]. intros s'' l'' D c'. exact (deliver_box _ _ _ _ _ D c'). }
  intros R. rewrite stamp_wired in *.
  destruct (wired magic x) as [a m|a|a r|d|e] eqn:W;
    try (injection R as <- <- <-; exists x, (b c); cbn [f_box flat_map]; rewrite app_nil_r;
         repeat split; [done|done|]; intros c' N; rewrite app_nil_r; by apply T2).
  destruct (event h e _) as [[s1 l1]|]; cbn [mbind_M] in R; [|discriminate R]. injection R as <- <- <-.
  exists x, (b c). split; [done|]. split; [done|]. split; [by apply E|].
  intros c' N. rewrite (E _ _ eq_refl). by rewrite T2.
Qed.

Lemma fstep_order o s s' t : fstep h magic o s = Val (s', t) -> forall c,
  map (wired magic) (f_box s c ++ queued_by c t) = emitted_by c t ++ map (wired magic) (f_box s' c).
Proof.
  destruct o as [f|e|]; cbn [fstep]; intros R c.
  - destruct (f (f_state s)) as [[st l]|]; cbn [mbind_M] in R; [|discriminate R]. injection R as <- <-.
    cbn [f_box]. by rewrite queue_box, queued_fqueued, emitted_fqueued.
  - destruct (event h e s) as [[s1 l]|] eqn:D; cbn [mbind_M] in R; [|discriminate R]. injection R as <- <-.
    rewrite queued_by_app, emitted_by_app, queued_fqueued, emitted_fqueued. cbn [queued_by emitted_by flat_map app].
    rewrite app_nil_r. by rewrite (deliver_box _ _ _ _ _ D c).
  - destruct (next h magic s) as [[[s1 l] o]|] eqn:D; cbn [mbind_M] in R; [|discriminate R]. injection R as <- <-.
    apply next_box in D. rewrite queued_by_app, emitted_by_app, queued_fqueued, emitted_fqueued.
    destruct o as [[c' y]|].
    + destruct D as (x & rest & B & -> & B1 & B2). cbn [queued_by emitted_by flat_map app].
      destruct (decide (c' = c)) as [->|N].
      * rewrite B, B1, app_nil_r. done.
      * rewrite app_nil_r, (B2 c) by congruence. done.
    + destruct D as (-> & -> & B). cbn [queued_by emitted_by flat_map app]. by rewrite B.
Qed.

Lemma frun_order os : forall s s' t, frun h magic os s = Val (s', t) -> forall c,
  map (wired magic) (f_box s c ++ queued_by c t) = emitted_by c t ++ map (wired magic) (f_box s' c).
Proof.
  induction os as [|o os IH]; intros s s' t R c; cbn [frun] in R.
  - injection R as <- <-. cbn. by rewrite app_nil_r.
  - destruct (fstep h magic o s) as [[s1 t1]|] eqn:S1; cbn [mbind_M] in R; [|discriminate R].
    destruct (frun h magic os s1) as [[s2 t2]|] eqn:S2; cbn [mbind_M] in R; [|discriminate R].
    injection R as <- <-. rewrite queued_by_app, emitted_by_app, <- app_assoc, <- (IH _ _ _ S2 c), app_assoc.
    rewrite map_app, (fstep_order _ _ _ _ S1 c). by rewrite map_app, app_assoc.
Qed.
End Dispatch.

Section Diary.
Context {St Msg Ev : Type}.
Context (h : comp -> Ev -> St -> M (St * list (comp * io Msg Ev))).
Context (magic : N).
Notation kept s d := (Fsm (f_state s, d) (f_box s)).

Lemma deliver_diary cs e : forall (s s' : fsm St Msg Ev) l d, deliver h cs e s = Val (s', l) ->
  deliver (with_diary h) cs e (kept s d) = Val (kept s' (d ++ map (fun c => (c, e)) cs), l).
Proof.
  induction cs as [|c cs IH]; intros s s' l d R; cbn [deliver] in R |- *.
  - injection R as <- <-. by rewrite app_nil_r.
  - cbn [f_state f_box]. unfold with_diary at 1. cbn [fst snd].
    destruct (h c e (f_state s)) as [[st l1]|]; cbn [mbind_M] in R |- *; [|discriminate R].
    destruct (deliver h cs e _) as [[s1 l2]|] eqn:D; cbn [mbind_M] in R; [|discriminate R].
    injection R as <- <-. apply (IH _ _ _ (d ++ [(c, e)])) in D. cbn [f_state f_box] in D.
    rewrite D. cbn [mbind_M map]. by rewrite <- app_assoc.
Qed.

Lemma next_diary s s' l o d : next h magic s = Val (s', l, o) ->
  next (with_diary h) magic (kept s d) =
  Val (kept s' (d ++ match o with Some (_, IoEvent e) => map (fun c => (c, e)) receivers | _ => [] end), l, o).
Proof.
  unfold next. cbn [f_box f_state].
  destruct (take_first sources (f_box s)) as [[[c x] b]|].
  2: { intros E. injection E as <- <- <-. by rewrite app_nil_r. }
  destruct (stamp magic x) as [a m|a|a r|t|e];
    try (intros E; injection E as <- <- <-; cbn [f_box f_state]; by rewrite app_nil_r).
  destruct (event h e _) as [[s1 l1]|] eqn:D; cbn [mbind_M]; intros E; [|discriminate E].
  injection E as <- <- <-. apply (deliver_diary _ _ _ _ _ d) in D. cbn [f_state f_box] in D.
  unfold event. rewrite D. done.
Qed.

Definition diary (es : list Ev) : list (comp * Ev) := flat_map (fun e => map (fun c => (c, e)) receivers) es.

Lemma fstep_diary o s s' t d : fstep h magic o s = Val (s', t) ->
  fstep (with_diary h) magic (with_diary_op o) (kept s d) = Val (kept s' (d ++ diary (announced t)), t).
Proof.
  destruct o as [f|e|]; cbn [fstep with_diary_op f_state f_box fst snd]; intros R.
  - destruct (f (f_state s)) as [[st l]|]; cbn [mbind_M] in R |- *; [|discriminate R]. injection R as <- <-.
    cbn [f_state f_box]. rewrite announced_fqueued. cbn [diary flat_map]. by rewrite app_nil_r.
  - destruct (event h e s) as [[s1 l]|] eqn:D; cbn [mbind_M] in R; [|discriminate R]. injection R as <- <-.
    apply (deliver_diary _ _ _ _ _ d) in D. unfold event. rewrite D. cbn [mbind_M].
    rewrite announced_app, announced_fqueued. done.
  - destruct (next h magic s) as [[[s1 l] o]|] eqn:D; cbn [mbind_M] in R; [|discriminate R]. injection R as <- <-.
    apply (next_diary _ _ _ _ d) in D. rewrite D. cbn [mbind_M]. rewrite announced_app, announced_fqueued.
    destruct o as [[c [a m|a|a r|t|e]]|]; cbn [app announced flat_map diary]; done.
Qed.

Lemma diary_app es es' : diary (es ++ es') = diary es ++ diary es'.
Proof. apply flat_map_app. Qed.

Lemma frun_diary os : forall s s' t d, frun h magic os s = Val (s', t) ->
  frun (with_diary h) magic (map with_diary_op os) (kept s d) = Val (kept s' (d ++ diary (announced t)), t).
Proof.
  induction os as [|o os IH]; intros s s' t d R; cbn [frun map] in R |- *.
  - injection R as <- <-. cbn. by rewrite app_nil_r.
  - destruct (fstep h magic o s) as [[s1 t1]|] eqn:S1; cbn [mbind_M] in R; [|discriminate R].
    destruct (frun h magic os s1) as [[s2 t2]|] eqn:S2; cbn [mbind_M] in R; [|discriminate R].
    injection R as <- <-. rewrite (fstep_diary _ _ _ _ _ S1). cbn [mbind_M].
    rewrite (IH _ _ _ (d ++ diary (announced t1)) S2). cbn [mbind_M].
    by rewrite announced_app, diary_app, app_assoc.
Qed.
End Diary.

(** ** The service *)
Section Service.
Context {Msg : Type}.
Context (parse : list N -> parsed Msg) (HS : streaming parse).

Lemma bytes_total b x : exists r, bytes_received parse b x = Some r.
Proof.
  destruct (chunks_one_piece parse HS [x] b) as [_ [r Hr]]; [done|]. cbn [concat] in Hr. rewrite app_nil_r in Hr. by exists r.
Qed.

Lemma srun_total os : forall s, exists s' cs, srun parse os s = Val (s', cs).
Proof.
  induction os as [|o os IH]; intros s; cbn [srun]; [by eexists _, _|].
  assert (exists s1 c, sstep parse o s = Val (s1, c)) as (s1 & c & ->).
  { destruct o as [a b|a|a]; cbn [sstep]; [|by eexists _, _..].
    destruct (s !! a) as [buf|]; [|by eexists _, _].
    destruct (bytes_total buf b) as [[[buf' ms] e] ->]. by eexists _, _. }
  cbn [mbind_M]. destruct (IH s1) as (s2 & c2 & ->). cbn [mbind_M]. by eexists _, _.
Qed.

Lemma srun_app p : forall q s s' cs, srun parse (p ++ q) s = Val (s', cs) ->
  exists s1 c1 c2, srun parse p s = Val (s1, c1) /\ srun parse q s1 = Val (s', c2) /\ cs = c1 ++ c2.
Proof.
  induction p as [|o p IH]; intros q s s' cs R; cbn [app srun] in R |- *; [by exists s, [], cs|].
  destruct (sstep parse o s) as [[s1 c1]|]; cbn [mbind_M] in R |- *; [|discriminate R].
  destruct (srun parse (p ++ q) s1) as [[s2 c2]|] eqn:R2; cbn [mbind_M] in R; [|discriminate R]. injection R as <- <-.
  destruct (IH _ _ _ _ R2) as (s3 & c3 & c4 & E1 & E2 & ->). rewrite E1. cbn [mbind_M].
  exists s3, (c1 ++ c3), c4. split; [done|]. split; [done|]. by rewrite app_assoc.
Qed.

Lemma messages_of_app a (c c' : list (call (Msg:=Msg))) : messages_of a (c ++ c') = messages_of a c ++ messages_of a c'.
Proof. apply flat_map_app. Qed.
Lemma messages_of_same a ms : messages_of (Msg:=Msg) a (map (CallMessage a) ms) = ms.
Proof. induction ms as [|m ms IH]; [done|]. cbn. destruct (decide (a = a)); [|done]. cbn. by f_equal. Qed.
Lemma messages_of_other a a' ms : a' <> a -> messages_of (Msg:=Msg) a (map (CallMessage a') ms) = [].
Proof. intros N. induction ms as [|m ms IH]; [done|]. cbn. by destruct (decide (a' = a)). Qed.

Lemma sstep_other a o s s' c : steady a [o] -> chunks_of a [o] = [] -> sstep parse o s = Val (s', c) ->
  s' !! a = s !! a /\ messages_of a c = [] /\ ~ decode_error a c.
Proof.
  intros [S1 S2] C R. destruct o as [a' b|a'|a']; cbn [sstep] in R.
  - assert (a' <> a) as N. { intros ->. cbn in C. by destruct (decide (a = a)). }
    destruct (s !! a') as [buf|]; [|injection R as <- <-; repeat split; [done..|]; intros []%elem_of_nil].
    destruct (bytes_received parse buf b) as [[[buf' ms] e]|]; [|discriminate R]. injection R as <- <-.
    rewrite lookup_insert_ne by done. split; [done|]. rewrite messages_of_app, messages_of_other by done.
    split; [by destruct e|]. intros [H|H]%elem_of_app.
    + apply elem_of_list_fmap in H as (m & H & _). discriminate H.
    + destruct e; [|by apply elem_of_nil in H]. apply elem_of_list_singleton in H. congruence.
  - injection R as <- <-. assert (a' <> a) as N by (intros ->; apply S1; by left).
    rewrite lookup_insert_ne by done. split; [done|]. split; [done|]. intros H%elem_of_list_singleton. discriminate H.
  - injection R as <- <-. assert (a' <> a) as N by (intros ->; apply S2; by left).
    rewrite lookup_delete_ne by done. split; [done|]. split; [done|]. intros H%elem_of_list_singleton. discriminate H.
Qed.

Lemma steady_cons a o os : steady a (o :: os) -> steady a [o] /\ steady a os.
Proof.
  intros [S1 S2]. split; split; intros H.
  - apply S1. apply elem_of_list_singleton in H as ->. by left.
  - apply S2. apply elem_of_list_singleton in H as ->. by left.
  - apply S1. by right.
  - apply S2. by right.
Qed.

(** While a peer stays connected, its bytes are decoded as one stream. *)
Lemma srun_stream a os : steady a os -> forall s s' cs buf, srun parse os s = Val (s', cs) -> s !! a = Some buf ->
  exists buf' e, chunks_received parse buf (chunks_of a os) = Some (buf', messages_of a cs, e) /\
    s' !! a = Some buf' /\ (e = true <-> decode_error a cs).
Proof.
  induction os as [|o os IH]; intros St s s' cs buf R B; cbn [srun] in R.
  - injection R as <- <-. exists buf, false. split; [done|]. split; [done|]. split; [done|]. intros []%elem_of_nil.
  - apply steady_cons in St as [So Ss].
    destruct (sstep parse o s) as [[s1 c1]|] eqn:R1; cbn [mbind_M] in R; [|discriminate R].
    destruct (srun parse os s1) as [[s2 c2]|] eqn:R2; cbn [mbind_M] in R; [|discriminate R]. injection R as <- <-.
    change (o :: os) with ([o] ++ os). unfold chunks_of. rewrite flat_map_app. fold (chunks_of a [o]) (chunks_of a os).
    rewrite messages_of_app.
    destruct (decide (chunks_of a [o] = [])) as [C|C].
    + destruct (sstep_other _ _ _ _ _ So C R1) as (L & M1 & D1). rewrite C, M1. cbn [app].
      destruct (IH Ss _ _ _ buf R2 ltac:(congruence)) as (buf' & e & E1 & E2 & E3).
      exists buf', e. split; [exact E1|]. split; [exact E2|]. rewrite E3. unfold decode_error.
      rewrite elem_of_app. unfold decode_error in D1. tauto.
    + destruct o as [a' b|a'|a']; [|by destruct C..]. cbn [chunks_of flat_map] in C |- *.
      destruct (decide (a' = a)) as [->|]; [|done]. cbn [app chunks_received].
      cbn [sstep] in R1. rewrite B in R1.
      destruct (bytes_received parse buf b) as [[[b1 ms] e1]|]; [|discriminate R1]. injection R1 as <- <-.
      destruct (IH Ss _ _ _ b1 R2 ltac:(apply lookup_insert)) as (buf' & e & E1 & E2 & E3). rewrite E1.
      exists buf', (e1 || e). split; [|split; [exact E2|]].
      * rewrite messages_of_app, messages_of_same. do 2 f_equal. destruct e1; cbn; by rewrite app_nil_r.
      * unfold decode_error. rewrite orb_true_iff, !elem_of_app, E3. fold (decode_error a c2).
        assert (CallDecodeError a ∉ map (CallMessage a) ms) as Nm.
        { intros (m & H & _)%elem_of_list_fmap. discriminate H. }
        destruct e1; [|split; [intros [H|H]; [done|by right]|intros [[H|H]|H]; [done|by apply elem_of_nil in H|by right]]].
        split; [intros _; left; right; by left|by left].
Qed.

(** Bytes of a peer that is not connected are ignored. *)
Lemma srun_unknown a os : steady a os -> forall s s' cs, srun parse os s = Val (s', cs) -> s !! a = None ->
  messages_of a cs = [] /\ ~ decode_error a cs /\ s' !! a = None.
Proof.
  induction os as [|o os IH]; intros St s s' cs R B; cbn [srun] in R.
  - injection R as <- <-. split; [done|]. split; [|done]. intros []%elem_of_nil.
  - apply steady_cons in St as [So Ss].
    destruct (sstep parse o s) as [[s1 c1]|] eqn:R1; cbn [mbind_M] in R; [|discriminate R].
    destruct (srun parse os s1) as [[s2 c2]|] eqn:R2; cbn [mbind_M] in R; [|discriminate R]. injection R as <- <-.
    rewrite messages_of_app. unfold decode_error. rewrite elem_of_app.
    assert (s1 !! a = None /\ messages_of a c1 = [] /\ ~ decode_error a c1) as (L & -> & D1).
    { destruct (decide (chunks_of a [o] = [])) as [C|C].
      - destruct (sstep_other _ _ _ _ _ So C R1) as (L & M1 & D1). by rewrite L.
      - destruct o as [a' b|a'|a']; [|by destruct C..]. cbn [chunks_of flat_map] in C.
        destruct (decide (a' = a)) as [->|]; [|done]. cbn [sstep] in R1. rewrite B in R1. injection R1 as <- <-.
        split; [done|]. split; [done|]. intros []%elem_of_nil. }
    destruct (IH Ss _ _ _ R2 L) as (-> & D2 & L2). split; [done|]. split; [|done]. intros [H|H]; [by apply D1|by apply D2].
Qed.
End Service.
