(** Invariants of the client. *)
From Verif Require Import Base PowModel BlockModel AddrModel PeerModel DispModel LoadModel NodeModel FullModel FullSpec ClientModel ClientSpec.
From Verif Require SyncModel CbfModel InvModel.
Open Scope N_scope.

(** ** Traces *)
Lemma sent_app a b : sent (a ++ b) = sent a ++ sent b.
Proof. apply omap_app. Qed.
Lemma executed_app a b : executed (a ++ b) = executed a ++ executed b.
Proof. apply omap_app. Qed.
Lemma inputs_app a b : inputs (a ++ b) = inputs a ++ inputs b.
Proof. apply omap_app. Qed.
Lemma took_app t a b : took t (a ++ b) = took t a ++ took t b.
Proof. apply omap_app. Qed.
Lemma items_app a b : node_items (a ++ b) = node_items a ++ node_items b.
Proof. unfold node_items. by rewrite omap_app, concat_app. Qed.
Lemma heard_app t a b : heard t (a ++ b) = foldl (hears t) (heard t a) b.
Proof. apply foldl_app. Qed.
Lemma called_app t c a b : called t c (a ++ b) <-> called t c a \/ called t c b.
Proof. unfold called. apply elem_of_app. Qed.
Lemma replied_app t c s s' r a b : replied t c s s' r a -> replied t c s s' r (a ++ b).
Proof. intros (cm & u & v & E & -> & C). exists cm, u, (v ++ b). split; [done|]. split; [|done]. by rewrite <- app_assoc. Qed.

Definition fresh (t : N) (i : kitem) : Prop := match i with KSubscribed t' => t' <> t | _ => True end.
Lemma heard_more t b : Forall (fresh t) b -> forall v es, v = Some es -> exists more, foldl (hears t) v b = Some (es ++ more).
Proof.
  induction 1 as [|i b F _ IH]; intros v es ->; [exists []; by rewrite app_nil_r|]. cbn [foldl].
  destruct i; cbn [hears]; try (exact (IH _ _ eq_refl)).
  - cbn in F. apply N.eqb_neq in F. rewrite F. exact (IH _ _ eq_refl).
  - destruct (IH _ (es ++ [e]) eq_refl) as (more & Hm). exists (e :: more). etransitivity; [exact Hm|]. by rewrite <- app_assoc.
Qed.
Lemma reason_app H t c a b r : Forall (fresh t) b -> reason_to_return H t c a r -> reason_to_return H t c (a ++ b) r.
Proof.
  intros F. destruct 1 as [s s' r v R Re W|cm R S C K|es es' known v He S Kn W|S|K C|x y E L|E|f E].
  - eapply BecauseReply; [done|by apply replied_app|done].
  - eapply BecauseSent; [done..|]. apply elem_of_app. by left.
  - destruct (heard_more t b F _ _ He) as (more & Hm). eapply (BecauseHeard _ _ _ _ es (es' ++ more)); [|done| |exact W].
    + by rewrite heard_app, Hm, app_assoc.
    + destruct (receives c); [|done]. destruct Kn as (s & s' & r & Re & Q). exists s, s', r. split; [by apply replied_app|done].
  - by apply BecauseTimeout.
  - apply BecauseStopped; [|done]. apply elem_of_app. by left.
  - by eapply BecauseEmpty.
  - by apply BecauseShutdown.
  - by eapply BecauseDropped.
Qed.

(** ** Each thread *)
Definition quiet (t : N) (i : kitem) : Prop :=
  match i with KCalled t' _ | KSubscribed t' | KSent t' _ | KTook t' _ => t' <> t | KPublished _ => False | _ => True end.
Lemma quiet_heard t b : Forall (quiet t) b -> forall v, foldl (hears t) v b = v.
Proof.
  induction 1 as [|i b F _ IH]; intros v; [done|]. cbn [foldl]. rewrite IH. destruct i; try done. cbn in *. apply N.eqb_neq in F. by rewrite F.
Qed.
Lemma quiet_took t b : Forall (quiet t) b -> took t b = [].
Proof.
  induction 1 as [|i b F _ IH]; [done|]. change (took t (i :: b)) with (took t ([i] ++ b)). rewrite took_app, IH, app_nil_r. destruct i; try done. cbn in *. apply N.eqb_neq in F. by rewrite F.
Qed.
Lemma quiet_called t c b : Forall (quiet t) b -> ~ called t c b.
Proof. intros F I. apply (proj1 (Forall_forall _ _) F) in I. by cbn in I. Qed.
Lemma quiet_sent t b : Forall (quiet t) b -> t ∉ (sent b).*2.
Proof.
  intros F I. apply elem_of_list_fmap in I as ([cm t'] & E & I). cbn in E. subst t'. apply elem_of_list_omap in I as (i & I & Q).
  apply (proj1 (Forall_forall _ _) F) in I. destruct i; try done. injection Q as <- <-. done.
Qed.
Lemma quiet_fresh t b : Forall (quiet t) b -> Forall (fresh t) b.
Proof. intros F. eapply Forall_impl; [exact F|]. by intros []. Qed.

Section Client.
Context (H : header -> N) (step : wop -> wstate -> M (wstate * list (fitem wmsg wev))) (reply_of : cmd -> wstate -> M reply).
Notation kstep := (kstep H step reply_of).
Notation krun := (krun H step reply_of).

(** The peers known after a wait that has not ended. *)
Fixpoint unmet (c : call) (known : gmap sockaddr (N * N)) (seen es : list wev) : option (gmap sockaddr (N * N)) :=
  match es with
  | [] => Some known
  | e :: es' => match waits_for c known seen e with Some _ => None | None => unmet c (known_after c e known) (seen ++ [e]) es' end
  end.
Lemma unmet_snoc c e es : forall known0 seen0 known, unmet c known0 seen0 es = Some known -> waits_for c known (seen0 ++ es) e = None ->
  unmet c known0 seen0 (es ++ [e]) = Some (known_after c e known).
Proof.
  induction es as [|e1 es IH]; intros known0 seen0 known; cbn [unmet app].
  - intros [= ->] W. rewrite app_nil_r in W. by rewrite W.
  - destruct (waits_for c known0 seen0 e1); [done|]. intros U W. apply IH; [done|]. by rewrite <- app_assoc.
Qed.
Lemma unmet_result c e v es : forall known0 seen0 known, unmet c known0 seen0 es = Some known -> waits_for c known (seen0 ++ es) e = Some v ->
  wait_result c known0 seen0 (es ++ [e]) = Some v.
Proof.
  induction es as [|e1 es IH]; intros known0 seen0 known; cbn [unmet app].
  - intros [= ->] W. rewrite app_nil_r in W. done.
  - destruct (waits_for c known0 seen0 e1) eqn:E1; [done|]. intros U W. specialize (IH _ _ _ U). rewrite <- app_assoc in IH. specialize (IH W).
    cbn [wait_result]. rewrite E1. destruct (es ++ [e]) eqn:Q; [by destruct es|]. exact IH.
Qed.

Definition feed_ok (t : N) (c : call) (seen : list wev) (s : client) (tr : list kitem) : Prop :=
  if subscribes c then exists es, heard t tr = Some (seen ++ es) /\ k_feeds s !! t = Some (FeedEvents, ItEvent <$> es) /\ took t tr = ItEvent <$> seen
  else heard t tr = None /\ k_feeds s !! t = None /\ took t tr = [].
Definition sent_ok (t : N) (c : call) (s : client) (tr : list kitem) : Prop :=
  match command_of c with Some cm => KSent t cm ∈ tr | None => c = HShutdown end /\
  (receives c = true -> (exists cm, (cm, t) ∈ k_queue s /\ has_reply cm = true) \/ is_Some (k_replies s !! t) \/ KStopped ∈ tr).
Definition thread_ok (t : N) (c : call) (th : thread) (s : client) (tr : list kitem) : Prop :=
  match th with
  | TCalled c' => c' = c /\ heard t tr = None /\ k_feeds s !! t = None /\ took t tr = [] /\ t ∉ (sent tr).*2
  | TSubscribed c' => c' = c /\ subscribes c = true /\ feed_ok t c [] s tr /\ t ∉ (sent tr).*2
  | TSent c' => c' = c /\ feed_ok t c [] s tr /\ sent_ok t c s tr
  | TReceiving c' => c' = c /\ receives c = true /\ feed_ok t c [] s tr /\ sent_ok t c s tr
  | TWaiting c' known seen => c' = c /\ subscribes c = true /\ feed_ok t c seen s tr /\
      exists known0, unmet c known0 [] seen = Some known /\
        if receives c then exists n n' r, replied t c n n' r tr /\ with_reply H c r = inr known0 else known0 = ∅
  | TFeed f => c = HSubscribe f /\ exists es q, heard t tr = Some es /\ k_feeds s !! t = Some (f, q) /\ flat_map (forward f) es = took t tr ++ q
  | TDone r => reason_to_return H t c tr r /\ k_feeds s !! t = None /\
      match heard t tr with Some es => took t tr `prefix_of` flat_map (forward (feed_of c)) es | None => took t tr = [] end
  end.
Definition tinv (t : N) (s : client) (tr : list kitem) : Prop :=
  match k_threads s !! t with
  | None => (forall c, ~ called t c tr) /\ heard t tr = None /\ k_feeds s !! t = None /\ took t tr = [] /\ t ∉ (sent tr).*2
  | Some th => exists c, called t c tr /\ (forall c', called t c' tr -> c' = c) /\ thread_ok t c th s tr
  end.

Record frame (t : N) (s s' : client) (x : list kitem) : Prop := Frame {
  fr_thread : k_threads s' !! t = k_threads s !! t;
  fr_feed : k_feeds s' !! t = k_feeds s !! t;
  fr_wait : (exists cm, (cm, t) ∈ k_queue s /\ has_reply cm = true) \/ is_Some (k_replies s !! t) ->
    (exists cm, (cm, t) ∈ k_queue s' /\ has_reply cm = true) \/ is_Some (k_replies s' !! t) \/ KStopped ∈ x;
  fr_quiet : Forall (quiet t) x;
}.
Lemma sent_quiet t tr x : Forall (quiet t) x -> t ∉ (sent tr).*2 -> t ∉ (sent (tr ++ x)).*2.
Proof. intros F A. rewrite sent_app, fmap_app, elem_of_app. intros [I|I]; [done|by apply quiet_sent in F]. Qed.
Lemma feed_frame t s s' x c seen tr : frame t s s' x -> feed_ok t c seen s tr -> feed_ok t c seen s' (tr ++ x).
Proof.
  intros [_ Ff _ Fq]. unfold feed_ok. rewrite heard_app, (quiet_heard _ _ Fq), took_app, (quiet_took _ _ Fq), app_nil_r, Ff. done.
Qed.
Lemma tinv_frame t s s' x tr : frame t s s' x -> tinv t s tr -> tinv t s' (tr ++ x).
Proof.
  intros F. pose proof F as [Ft Ff Fw Fq]. unfold tinv. rewrite Ft. destruct (k_threads s !! t) as [th|].
  - intros (c & C & U & T). exists c. split; [apply called_app; by left|]. split.
    { intros c' [I|I]%called_app; [by apply U|]. by apply (quiet_called _ _ _ Fq) in I. }
    assert (Sk : sent_ok t c s tr -> sent_ok t c s' (tr ++ x)).
    { intros [A B]. split.
      - destruct (command_of c); [apply elem_of_app; by left|done].
      - intros Rc. rewrite elem_of_app. destruct (B Rc) as [Q|[Q|Q]]; [| |by right; right; left].
        + destruct Fw as [W|[W|W]]; [by left|by left|by right; left|by right; right; right].
        + destruct Fw as [W|[W|W]]; [by right|by left|by right; left|by right; right; right]. }
    destruct th; cbn [thread_ok] in *.
    + rewrite heard_app, (quiet_heard _ _ Fq), took_app, (quiet_took _ _ Fq), app_nil_r, Ff. destruct T as (T1 & T2 & T3 & T4 & T5). repeat (split; [done|]). by apply sent_quiet.
    + destruct T as (T1 & T2 & T3 & T4). split; [done|]. split; [done|]. split; [by eapply feed_frame|by apply sent_quiet].
    + destruct T as (T1 & T2 & T3). split; [done|]. split; [by eapply feed_frame|by apply Sk].
    + destruct T as (T1 & T2 & T3 & T4). split; [done|]. split; [done|]. split; [by eapply feed_frame|by apply Sk].
    + destruct T as (T1 & T2 & T3 & known0 & T4 & T5). split; [done|]. split; [done|]. split; [by eapply feed_frame|]. exists known0. split; [done|].
      destruct (receives c); [|done]. destruct T5 as (n & n' & r & Re & W). exists n, n', r. split; [by apply replied_app|done].
    + rewrite heard_app, (quiet_heard _ _ Fq), took_app, (quiet_took _ _ Fq), app_nil_r, Ff. done.
    + rewrite heard_app, (quiet_heard _ _ Fq), took_app, (quiet_took _ _ Fq), app_nil_r, Ff. destruct T as (T1 & T2 & T3). split; [|done]. apply reason_app; [by apply quiet_fresh|done].
  - intros (A & B & C & D & E). rewrite heard_app, (quiet_heard _ _ Fq), took_app, (quiet_took _ _ Fq), app_nil_r, Ff. split; [|split; [done|split; [done|split; [done|by apply sent_quiet]]]].
    intros c [I|I]%called_app; [by apply (A c)|]. by apply (quiet_called _ _ _ Fq) in I.
Qed.
(** An event is published. *)
Lemma tinv_publish t s n e y tr : Forall (quiet t) y -> tinv t s tr -> tinv t (publish e (set_node n s)) (tr ++ y ++ [KPublished e]).
Proof.
  intros Fy I. assert (I1 : tinv t s (tr ++ y)) by (eapply tinv_frame; [|exact I]; constructor; [done|done|intros [W|W]; [by left|by right; left]|done]).
  rewrite app_assoc. revert I1. generalize (tr ++ y). clear. intros tr.
  assert (Hh : heard t (tr ++ [KPublished e]) = (fun l => l ++ [e]) <$> heard t tr) by (by rewrite heard_app).
  assert (Ht : took t (tr ++ [KPublished e]) = took t tr) by (by rewrite took_app; cbn; rewrite app_nil_r).
  assert (Hs : sent (tr ++ [KPublished e]) = sent tr) by (by rewrite sent_app; cbn; rewrite app_nil_r).
  assert (Hf : k_feeds (publish e (set_node n s)) !! t = (fun '(f, q) => (f, q ++ forward f e)) <$> (k_feeds s !! t)) by (cbn; by rewrite lookup_fmap).
  assert (Hc : forall c, called t c (tr ++ [KPublished e]) <-> called t c tr).
  { intros c. rewrite called_app. split; [|by left]. intros [C|C]; [done|]. by apply elem_of_list_singleton in C. }
  assert (Fo : forall c seen, feed_ok t c seen s tr -> feed_ok t c seen (publish e (set_node n s)) (tr ++ [KPublished e])).
  { intros c seen. unfold feed_ok. rewrite Hh, Hf, Ht. destruct (subscribes c).
    - intros (es & -> & -> & ->). exists (es ++ [e]). cbn. rewrite fmap_app, app_assoc. done.
    - by intros (-> & -> & ->). }
  unfold tinv. change (k_threads (publish e (set_node n s))) with (k_threads s). destruct (k_threads s !! t) as [th|].
  - intros (c & C & U & T). exists c. split; [by apply Hc|]. split; [intros c' I; apply U; by apply Hc|].
    assert (Sk : sent_ok t c s tr -> sent_ok t c (publish e (set_node n s)) (tr ++ [KPublished e])).
    { intros [A B]. split; [destruct (command_of c); [apply elem_of_app; by left|done]|]. intros Rc. destruct (B Rc) as [Q|[Q|Q]]; [by left|by right; left|right; right; apply elem_of_app; by left]. }
    destruct th; cbn [thread_ok] in *.
    + rewrite Hh, Ht, Hs, Hf. destruct T as (T1 & -> & -> & T4 & T5). done.
    + rewrite Hs. destruct T as (T1 & T2 & T3 & T4). split; [done|]. split; [done|]. split; [by apply Fo|done].
    + destruct T as (T1 & T2 & T3). split; [done|]. split; [by apply Fo|by apply Sk].
    + destruct T as (T1 & T2 & T3 & T4). split; [done|]. split; [done|]. split; [by apply Fo|by apply Sk].
    + destruct T as (T1 & T2 & T3 & known0 & T4 & T5). split; [done|]. split; [done|]. split; [by apply Fo|]. exists known0. split; [done|].
      destruct (receives c); [|done]. destruct T5 as (n1 & n' & r & Re & W). exists n1, n', r. split; [by apply replied_app|done].
    + rewrite Hh, Ht, Hf. destruct T as (T1 & es & q & -> & -> & T2). split; [done|]. exists (es ++ [e]), (q ++ forward f e). split; [done|]. split; [done|].
      rewrite flat_map_app, T2. cbn. by rewrite app_nil_r, app_assoc.
    + rewrite Hh, Ht, Hf. destruct T as (T1 & -> & T3). split; [apply reason_app; [by repeat constructor|done]|]. split; [done|].
      destruct (heard t tr) as [es|]; [|done]. cbn. rewrite flat_map_app. by apply prefix_app_r.
  - intros (A & B & C & D & E). rewrite Hh, Ht, Hs, Hf, B, C. split; [|done]. intros c I. apply (A c). by apply Hc.
Qed.

Definition took_ok (t : N) (c : call) (tr : list kitem) : Prop :=
  match heard t tr with Some es => took t tr `prefix_of` flat_map (forward (feed_of c)) es | None => took t tr = [] end.
Lemma events_prefix (seen es : list wev) : (ItEvent <$> seen) `prefix_of` flat_map (forward FeedEvents) (seen ++ es).
Proof.
  rewrite flat_map_app. exists (flat_map (forward FeedEvents) es). by f_equal.
Qed.
Lemma subscribes_feed c : subscribes c = true -> feed_of c = FeedEvents.
Proof. by destruct c. Qed.
Lemma feed_took t c seen s tr : feed_ok t c seen s tr -> took_ok t c tr.
Proof.
  unfold feed_ok, took_ok. destruct (subscribes c) eqn:S.
  - intros (es & -> & _ & ->). rewrite (subscribes_feed c S). apply events_prefix.
  - by intros (-> & _ & ->).
Qed.
Lemma thread_took t c th s tr : thread_ok t c th s tr -> took_ok t c tr.
Proof.
  destruct th; cbn [thread_ok].
  - intros (_ & E & _ & T & _). unfold took_ok. by rewrite E.
  - intros (_ & _ & F & _). by eapply feed_took.
  - intros (_ & F & _). by eapply feed_took.
  - intros (_ & _ & F & _). by eapply feed_took.
  - intros (_ & _ & F & _). by eapply feed_took.
  - intros (-> & es & q & E & _ & Q). unfold took_ok. rewrite E. cbn [feed_of]. rewrite Q. by exists q.
  - intros (_ & _ & T). exact T.
Qed.
(** A thread that goes on to a new state, saying something. *)
Lemma tinv_to t s s' tr x c th th' : k_threads s !! t = Some th -> tinv t s tr -> (called t c tr -> thread_ok t c th s tr -> thread_ok t c th' s' (tr ++ x)) ->
  called t c tr -> (forall c', ~ called t c' x) -> k_threads s' !! t = Some th' -> tinv t s' (tr ++ x).
Proof.
  intros Et I K C U E. unfold tinv in *. rewrite Et in I. rewrite E. destruct I as (c1 & C1 & U1 & T). rewrite (U1 _ C) in *. exists c1. split; [apply called_app; by left|].
  split; [|by apply K]. intros c' [Q|Q]%called_app; [by apply U1|]. by apply U in Q.
Qed.
Lemma frame_thread t t0 s s' x : t <> t0 -> k_threads s' !! t = k_threads s !! t -> k_feeds s' !! t = k_feeds s !! t ->
  (forall cm, (cm, t) ∈ k_queue s -> (cm, t) ∈ k_queue s') -> k_replies s' !! t = k_replies s !! t -> Forall (quiet t) x -> frame t s s' x.
Proof.
  intros Ne Et Ef Eq Er Q. constructor; [done|done| |done]. rewrite Er. intros [(cm & I & R)|I]; [left; exists cm; split; [by apply Eq|exact R]|by right; left].
Qed.
Lemma return_frame t t0 r s : t <> t0 -> frame t s (return_ t0 r s).1 (return_ t0 r s).2.
Proof.
  intros Ne. apply (frame_thread t t0); [done|..]; cbn.
  - by rewrite lookup_insert_ne.
  - by rewrite lookup_delete_ne.
  - done.
  - done.
  - by repeat constructor.
Qed.
Lemma return_done t r s s1 tr c th : k_threads s !! t = Some th -> tinv t s tr -> called t c tr -> reason_to_return H t c (tr ++ [KReturned t r]) r ->
  tinv t (return_ t r s1).1 (tr ++ [KReturned t r]).
Proof.
  intros Et I C R. eapply (tinv_to _ _ _ _ _ _ _ (TDone r)); [exact Et|exact I| |exact C| |cbn; by rewrite lookup_insert].
  - intros _ T. cbn [thread_ok]. split; [exact R|]. split; [cbn; by rewrite lookup_delete|]. apply thread_took in T. unfold took_ok in T. rewrite heard_app, took_app. cbn. by rewrite app_nil_r.
  - intros c' Q. by apply elem_of_list_singleton in Q.
Qed.

(** Sending. *)
Lemma send_frame t t0 c s : t <> t0 -> frame t s (send t0 c s).1 (send t0 c s).2.
Proof.
  intros Ne. unfold send. destruct (command_of c) as [cm|].
  - destruct (k_node s); [|by apply return_frame]. apply (frame_thread t t0); [done|..]; cbn.
    + by rewrite lookup_insert_ne.
    + done.
    + intros cm' I. apply elem_of_app. by left.
    + done.
    + repeat constructor. by intros ->.
  - assert (F : forall c', frame t s (become t0 (TWaiting c' ∅ []) s) []).
    { intros c'. apply (frame_thread t t0); [done|..]; cbn; try done. by rewrite lookup_insert_ne. }
    destruct c; try apply F. destruct (k_node s); [|by apply return_frame]. destruct (k_shutdown s); cbn.
    + by apply (frame_thread t t0).
    + apply (frame_thread t t0); [done|..]; cbn; try done. by rewrite lookup_insert_ne.
Qed.
Lemma send_ok t c th s tr : k_threads s !! t = Some th -> (k_node s = None -> KStopped ∈ tr) -> tinv t s tr -> called t c tr -> feed_ok t c [] s tr ->
  (command_of c = None -> c = HShutdown \/ (subscribes c = true /\ receives c = false)) ->
  tinv t (send t c s).1 (tr ++ (send t c s).2).
Proof.
  intros Et St I C F Cn. unfold send. destruct (command_of c) as [cm|] eqn:Ec.
  - destruct (k_node s) eqn:En.
    + cbn [fst snd]. eapply (tinv_to _ _ _ _ _ _ _ (TSent c)); [exact Et|exact I| |exact C| |cbn; by rewrite lookup_insert].
      * intros _ T. cbn [thread_ok]. split; [done|]. split.
        -- unfold feed_ok in *. rewrite heard_app, took_app. cbn. by rewrite app_nil_r.
        -- unfold sent_ok. rewrite Ec. split; [apply elem_of_app; right; by left|]. intros Rc. left. exists cm. split; [cbn; apply elem_of_app; right; by left|]. destruct c; try done; injection Ec as <-; done.
      * intros c' Q. by apply elem_of_list_singleton in Q.
    + cbn [fst snd]. eapply return_done; [exact Et|exact I|exact C|]. apply BecauseStopped; [apply elem_of_app; left; by apply St|]. left. by rewrite Ec.
  - destruct (Cn eq_refl) as [->|[Cs Cr]].
    + destruct (k_node s) eqn:En.
      * destruct (k_shutdown s); cbn [fst snd]; [by rewrite app_nil_r|]. eapply (tinv_to _ _ _ _ _ _ _ (TSent HShutdown)); [exact Et|exact I| |exact C| |cbn; by rewrite lookup_insert].
        -- intros _ T. cbn [thread_ok]. split; [done|]. rewrite app_nil_r. split; [exact F|]. by split.
        -- intros c' Q. by apply elem_of_nil in Q.
      * cbn [fst snd]. eapply return_done; [exact Et|exact I|exact C|]. apply BecauseStopped; [apply elem_of_app; left; by apply St|]. by right.
    + assert (G : tinv t (become t (TWaiting c ∅ []) s) (tr ++ [])).
      { eapply (tinv_to _ _ _ _ _ _ _ (TWaiting c ∅ [])); [exact Et|exact I| |exact C| |cbn; by rewrite lookup_insert].
        - intros _ T. cbn [thread_ok]. rewrite app_nil_r. split; [done|]. split; [done|]. split; [exact F|]. exists ∅. split; [done|]. by rewrite Cr.
        - intros c' Q. by apply elem_of_nil in Q. }
      by destruct c.
Qed.

(** ** The whole *)
Record ginv (n0 : wstate) (s : client) (tr : list kitem) : Prop := Ginv {
  g_stop : k_node s = None <-> KStopped ∈ tr;
  g_queue : match k_node s with Some _ => sent tr = executed tr ++ k_queue s | None => executed tr `prefix_of` sent tr /\ k_queue s = [] end;
  g_called : forall t cm, (cm, t) ∈ k_queue s -> exists c, called t c tr /\ command_of c = Some cm;
  g_reply : forall t r, k_replies s !! t = Some r -> exists c n n', replied t c n n' r tr;
  g_exec : forall t cm n n' r, KExecuted t cm n n' r ∈ tr -> reply_of cm n = Val r /\ exists x, KStep (WCommand cm) n n' x ∈ tr /\ step (WCommand cm) n = Val (n', x);
  g_run : exists n, machine step (inputs tr) n0 = Val (n, node_items tr) /\ (k_node s = Some n \/ k_node s = None);
  g_nodup : NoDup ((sent tr).*2);
  g_wake : forall cm t, (cm, t) ∈ k_queue s -> k_woken s = true \/ k_phase s = PCommands \/ exists c, k_threads s !! t = Some (TSent c);
  g_shut : k_shutdown s = true -> k_woken s = true \/ exists t, k_threads s !! t = Some (TSent HShutdown);
  g_threads : forall t, tinv t s tr;
}.
Lemma called_here t s tr th : k_threads s !! t = Some th -> tinv t s tr -> exists c, called t c tr /\ (forall c', called t c' tr -> c' = c) /\ thread_ok t c th s tr.
Proof. intros E. unfold tinv. by rewrite E. Qed.

(** Threads. *)
Lemma thread_frame t t0 s : t <> t0 -> frame t s (run_thread H t0 s).1 (run_thread H t0 s).2.
Proof.
  intros Ne. assert (Id : frame t s s []) by (by apply (frame_thread t t0)).
  unfold run_thread. destruct (k_threads s !! t0) as [th|]; [|exact Id]. destruct th as [c|c|c|c|c known seen|f|r]; [| | | | | |exact Id].
  - assert (Sb : forall th f, frame t s (become t0 th (set_feeds (<[t0 := (f, [])]> (k_feeds s)) s)) [KSubscribed t0]).
    { intros th f. apply (frame_thread t t0); [done|..]; cbn; try done; [by rewrite lookup_insert_ne..|]. repeat constructor. by intros ->. }
    destruct c as [cm| | | | | | |f|]; cbn [subscribes]; try apply Sb; try (by apply send_frame).
    destruct cm; try (by apply send_frame). destruct (b <? a); [by apply return_frame|by apply send_frame].
  - by apply send_frame.
  - assert (Bc : forall th, frame t s (become t0 th (set_woken true s)) []).
    { intros th. apply (frame_thread t t0); [done|..]; cbn; try done. by rewrite lookup_insert_ne. }
    destruct (receives c); [apply Bc|]. destruct (subscribes c); [apply Bc|].
    apply (frame_thread t t0); [done|..]; cbn; try done; [by rewrite lookup_insert_ne|by rewrite lookup_delete_ne|by repeat constructor].
  - destruct (k_replies s !! t0) as [r|].
    + destruct (with_reply H c r) as [v|known].
      * apply (frame_thread t t0); [done|..]; cbn; try done; [by rewrite lookup_insert_ne|by rewrite lookup_delete_ne|by rewrite lookup_delete_ne|by repeat constructor].
      * apply (frame_thread t t0); [done|..]; cbn; try done; [by rewrite lookup_insert_ne|by rewrite lookup_delete_ne].
    + destruct (k_node s); [exact Id|by apply return_frame].
  - destruct (k_feeds s !! t0) as [[f [|[e| |] q]]|]; try exact Id. destruct (waits_for c known seen e) as [v|].
    + apply (frame_thread t t0); [done|..]; cbn; try done; [by rewrite lookup_insert_ne|by rewrite lookup_delete_ne, lookup_insert_ne|]. repeat constructor. by intros ->.
    + apply (frame_thread t t0); [done|..]; cbn; try done; [by rewrite lookup_insert_ne|by rewrite lookup_insert_ne|]. repeat constructor. by intros ->.
  - destruct (k_feeds s !! t0) as [[f1 [|i q]]|]; try exact Id.
    apply (frame_thread t t0); [done|..]; cbn; try done; [by rewrite lookup_insert_ne|]. repeat constructor. by intros ->.
Qed.
Lemma took_one t i : took t [KTook t i] = [i].
Proof. cbn. by rewrite N.eqb_refl. Qed.
Lemma thread_step n0 t s tr : ginv n0 s tr -> tinv t (run_thread H t s).1 (tr ++ (run_thread H t s).2).
Proof.
  intros G. pose proof (g_threads _ _ _ G t) as I. assert (Id : tinv t s (tr ++ [])) by (by rewrite app_nil_r).
  unfold run_thread. destruct (k_threads s !! t) as [th|] eqn:Et; [|exact Id]. destruct (called_here _ _ _ _ Et I) as (c0 & C & U & T).
  assert (St : k_node s = None -> KStopped ∈ tr) by apply (g_stop _ _ _ G).
  destruct th as [c|c|c|c|c known seen|f|r]; cbn [thread_ok] in T; [| | | | | |exact Id].
  - destruct T as (-> & T1 & T2 & T3 & T4).
    assert (Sb : forall th f, (th = TSubscribed c0 /\ subscribes c0 = true /\ f = FeedEvents) \/ (th = TFeed f /\ c0 = HSubscribe f) ->
      tinv t (become t th (set_feeds (<[t := (f, [])]> (k_feeds s)) s)) (tr ++ [KSubscribed t])).
    { intros th f Q. assert (Hh : heard t (tr ++ [KSubscribed t]) = Some []) by (rewrite heard_app; cbn; by rewrite N.eqb_refl).
      assert (Ht : took t (tr ++ [KSubscribed t]) = []) by (rewrite took_app, T3; done).
      eapply (tinv_to _ _ _ _ _ _ _ th); [exact Et|exact I| |exact C| |cbn; by rewrite lookup_insert].
      - intros _ _. destruct Q as [(-> & Q & ->)|(-> & ->)]; cbn [thread_ok].
        + split; [done|]. split; [done|]. split; [|rewrite sent_app; cbn; by rewrite app_nil_r]. unfold feed_ok. rewrite Q, Hh, Ht. exists []. cbn. by rewrite lookup_insert.
        + split; [done|]. rewrite Hh, Ht. exists [], []. cbn. by rewrite lookup_insert.
      - intros c' Q'. by apply elem_of_list_singleton in Q'. }
    assert (Sd : subscribes c0 = false -> is_Some (command_of c0) \/ c0 = HShutdown -> tinv t (send t c0 s).1 (tr ++ (send t c0 s).2)).
    { intros Q W. eapply send_ok; [exact Et|exact St|exact I|exact C| |].
      - unfold feed_ok. by rewrite Q.
      - intros Ec. destruct W as [[? W]|W]; [congruence|by left]. }
    destruct c0 as [cm|cm|a|a|f|k sv|h|f|]; cbn [subscribes]; try (apply Sb; by left); try (apply Sb; by right); try (apply Sd; [done|by left]); [|apply Sd; [done|by right]].
    destruct cm; try (apply Sd; [done|by left]). destruct (N.ltb_spec b a); [|apply Sd; [done|by left]].
    cbn [fst snd]. eapply return_done; [exact Et|exact I|exact C|]. by eapply BecauseEmpty.
  - destruct T as (-> & T1 & T2 & T3). eapply send_ok; [exact Et|exact St|exact I|exact C|exact T2|]. intros Ec. destruct c0; try done. right. by split.
  - destruct T as (-> & T1 & T2 & T3). destruct (receives c0) eqn:Rc; [|destruct (subscribes c0) eqn:Sc].
    + eapply (tinv_to _ _ _ _ _ _ _ (TReceiving c0)); [exact Et|exact I| |exact C| |cbn; by rewrite lookup_insert]; [|intros c' Q; by apply elem_of_nil in Q].
      intros _ _. cbn [thread_ok fst snd]. rewrite app_nil_r. split; [done|]. split; [done|]. split; [exact T1|]. split; [exact T2|]. intros _. exact (T3 eq_refl).
    + eapply (tinv_to _ _ _ _ _ _ _ (TWaiting c0 ∅ [])); [exact Et|exact I| |exact C| |cbn; by rewrite lookup_insert]; [|intros c' Q; by apply elem_of_nil in Q].
      intros _ _. cbn [thread_ok fst snd]. rewrite app_nil_r. split; [done|]. split; [done|]. split; [exact T1|]. exists ∅. split; [done|]. by rewrite Rc.
    + eapply (return_done t (HOk VUnit) s (set_woken true s)); [exact Et|exact I|exact C|]. destruct (command_of c0) as [cm|] eqn:Ec; [|by subst; apply BecauseShutdown].
      eapply BecauseSent; [done|done|done|]. apply elem_of_app. by left.
  - destruct T as (-> & T1 & T2 & T3). destruct (k_replies s !! t) as [r|] eqn:Er.
    + destruct (g_reply _ _ _ G _ _ Er) as (c & n & n' & Re).
      assert (c = c0) as -> by (destruct Re as (? & a & b & _ & -> & Q); apply U, called_app; by left).
      destruct (with_reply H c0 r) as [v|known] eqn:Ew.
      * eapply (return_done t v s (set_replies (delete t (k_replies s)) s)); [exact Et|exact I|exact C|]. eapply BecauseReply; [done| |exact Ew]. by apply replied_app.
      * assert (Sc : subscribes c0 = true) by (destruct c0; try done; cbn in Ew; destruct r; try done; by repeat case_match).
        eapply (tinv_to _ _ _ _ _ _ _ (TWaiting c0 known [])); [exact Et|exact I| |exact C| |cbn; by rewrite lookup_insert]; [|intros c' Q; by apply elem_of_nil in Q].
        intros _ _. cbn [thread_ok fst snd]. rewrite app_nil_r. split; [done|]. split; [done|]. split; [exact T2|]. exists known. split; [done|]. rewrite T1. by eexists _, _, _.
    + destruct (k_node s) eqn:En; [exact Id|]. eapply return_done; [exact Et|exact I|exact C|]. apply BecauseStopped; [apply elem_of_app; left; by apply St|].
      left. by destruct c0.
  - destruct T as (-> & T1 & T2 & known0 & T3 & T4). unfold feed_ok in T2. rewrite T1 in T2. destruct T2 as (es & Hh & Hf & Ht). rewrite Hf.
    destruct es as [|e es]; [exact Id|]. cbn [fmap list_fmap]. destruct (waits_for c0 known seen e) as [v|] eqn:Ew.
    + change (tinv t (return_ t (HOk v) (set_feeds (<[t := (FeedEvents, ItEvent <$> es)]> (k_feeds s)) s)).1 (tr ++ [KTook t (ItEvent e); KReturned t (HOk v)])).
      eapply (tinv_to _ _ _ _ _ _ _ (TDone (HOk v))); [exact Et|exact I| |exact C| |cbn; by rewrite lookup_insert].
      * intros _ _. cbn [thread_ok]. rewrite heard_app. cbn [foldl hears]. rewrite Hh. split; [|split].
        -- eapply (BecauseHeard _ _ _ _ (seen ++ [e]) es known0); [rewrite heard_app; cbn [foldl hears]; by rewrite Hh, <- app_assoc|done| |].
           ++ destruct (receives c0); [|done]. destruct T4 as (n & n' & r & Re & W). exists n, n', r. split; [by apply replied_app|done].
           ++ by eapply (unmet_result _ _ _ _ known0 []).
        -- cbn. by rewrite lookup_delete.
        -- rewrite took_app. change (took t [KTook t (ItEvent e); KReturned t (HOk v)]) with (took t ([KTook t (ItEvent e)] ++ [KReturned t (HOk v)])). cbn [foldl hears].
           rewrite took_app, took_one, Ht. cbn [took omap list_omap app]. rewrite (subscribes_feed _ T1).
           replace ((ItEvent <$> seen) ++ [ItEvent e]) with (ItEvent <$> (seen ++ [e])) by (by rewrite fmap_app).
           replace (seen ++ e :: es) with ((seen ++ [e]) ++ es) by (by rewrite <- app_assoc). apply events_prefix.
      * intros c' Q. apply elem_of_cons in Q as [Q|Q]; [done|]. by apply elem_of_list_singleton in Q.
    + cbn [fst snd]. eapply (tinv_to _ _ _ _ _ _ _ (TWaiting c0 _ (seen ++ [e]))); [exact Et|exact I| |exact C| |cbn; by rewrite lookup_insert]; [|intros c' Q; by apply elem_of_list_singleton in Q].
      intros _ _. cbn [thread_ok]. split; [done|]. split; [done|]. split.
      * unfold feed_ok. rewrite T1, heard_app. cbn [foldl hears]. exists es. rewrite Hh, <- app_assoc. split; [done|]. cbn. rewrite lookup_insert. split; [done|].
        rewrite took_app, took_one, Ht. by rewrite fmap_app.
      * exists known0. split; [by eapply (unmet_snoc _ _ _ known0 [])|]. destruct (receives c0); [|done]. destruct T4 as (n & n' & r & Re & W). exists n, n', r. split; [by apply replied_app|done].
  - destruct T as (-> & es & q & Hh & Hf & Q). rewrite Hf. destruct q as [|i q]; [exact Id|]. cbn [fst snd].
    eapply (tinv_to _ _ _ _ _ _ _ (TFeed f)); [exact Et|exact I| |exact C| |cbn; exact Et]; [|intros c' Q'; by apply elem_of_list_singleton in Q'].
    intros _ _. cbn [thread_ok]. split; [done|]. exists es, q. rewrite heard_app. cbn [foldl hears]. split; [done|]. cbn [k_feeds set_feeds]. rewrite lookup_insert. split; [done|].
    rewrite took_app, took_one, Q. by rewrite <- app_assoc.
Qed.

(** What a thread does to the rest. *)
Definition user_item (i : kitem) : Prop := match i with KCalled _ _ | KSubscribed _ | KSent _ _ | KTook _ _ | KReturned _ _ => True | _ => False end.
Lemma user_executed x : Forall user_item x -> executed x = [].
Proof. induction 1 as [|i x F _ IH]; [done|]. change (executed (i :: x)) with (executed ([i] ++ x)). rewrite executed_app, IH. by destruct i. Qed.
Lemma user_inputs x : Forall user_item x -> inputs x = [].
Proof. induction 1 as [|i x F _ IH]; [done|]. change (inputs (i :: x)) with (inputs ([i] ++ x)). rewrite inputs_app, IH. by destruct i. Qed.
Lemma user_items x : Forall user_item x -> node_items x = [].
Proof. induction 1 as [|i x F _ IH]; [done|]. change (node_items (i :: x)) with (node_items ([i] ++ x)). rewrite items_app, IH. by destruct i. Qed.
Lemma user_not i x : Forall user_item x -> ~ user_item i -> i ∉ x.
Proof. intros F U I. by apply (proj1 (Forall_forall _ _) F) in I. Qed.

Record local (t0 : N) (s s' : client) (x : list kitem) : Prop := Local {
  l_node : k_node s' = k_node s;
  l_phase : k_phase s' = k_phase s;
  l_items : Forall user_item x;
  l_queue : (k_queue s' = k_queue s /\ sent x = []) \/
    exists c cm, (k_threads s !! t0 = Some (TCalled c) \/ k_threads s !! t0 = Some (TSubscribed c)) /\ command_of c = Some cm /\ k_node s <> None /\
      k_queue s' = k_queue s ++ [(cm, t0)] /\ sent x = [(cm, t0)] /\ k_threads s' !! t0 = Some (TSent c);
  l_replies : forall t r, k_replies s' !! t = Some r -> k_replies s !! t = Some r;
  l_woken : k_woken s = true -> k_woken s' = true;
  l_others : forall t, t <> t0 -> k_threads s' !! t = k_threads s !! t;
  l_sent : forall c, k_threads s !! t0 = Some (TSent c) -> k_woken s' = true \/ k_threads s' !! t0 = Some (TSent c);
  l_shutdown : k_shutdown s' = k_shutdown s \/ k_threads s' !! t0 = Some (TSent HShutdown);
}.
Lemma ginv_local n0 t0 s s' x tr : ginv n0 s tr -> local t0 s s' x -> (forall t, tinv t s' (tr ++ x)) -> ginv n0 s' (tr ++ x).
Proof.
  intros G [Ln Lp Li Lq Lr Lw Lo Ls Ld] T. pose proof G as [G1 G2 G3 G4 G5 G6 G7 G8 G9 G10]. constructor.
  - rewrite Ln, G1, elem_of_app. split; [by left|]. intros [?|Q]; [done|]. exfalso. exact (user_not KStopped _ Li (fun z => z) Q).
  - rewrite Ln, sent_app, executed_app, (user_executed _ Li), app_nil_r. destruct (k_node s) eqn:En.
    + destruct Lq as [[-> ->]|(c & cm & _ & _ & _ & -> & -> & _)]; [by rewrite app_nil_r|]. by rewrite G2, app_assoc.
    + destruct G2 as [G2 G2']. destruct Lq as [[-> ->]|(c & cm & _ & _ & Q & _)]; [by rewrite app_nil_r|done].
  - intros t cm I. assert (W : (cm, t) ∈ k_queue s \/ t = t0 /\ exists c, (k_threads s !! t0 = Some (TCalled c) \/ k_threads s !! t0 = Some (TSubscribed c)) /\ command_of c = Some cm).
    { destruct Lq as [[Q _]|(c & cm' & E & Ec & _ & Q & _)]; rewrite Q in I; [by left|]. apply elem_of_app in I as [I|I]; [by left|]. apply elem_of_list_singleton in I as [= -> ->]. right. split; [done|]. by exists c. }
    destruct W as [W|(-> & c & E & Ec)].
    + destruct (G3 _ _ W) as (c & C & Ec). exists c. split; [apply called_app; by left|done].
    + exists c. split; [|done]. apply called_app. left. destruct E as [E|E]; destruct (called_here _ _ _ _ E (G10 t0)) as (c' & C & _ & Q); cbn in Q; destruct Q as (-> & _); exact C.
  - intros t r E. destruct (G4 _ _ (Lr _ _ E)) as (c & n & n' & Re). exists c, n, n'. by apply replied_app.
  - intros t cm n n' r [I|I]%elem_of_app; [|exfalso; exact (user_not (KExecuted t cm n n' r) _ Li (fun z => z) I)]. destruct (G5 _ _ _ _ _ I) as (Q & y & Iy & Sy). split; [done|]. exists y. split; [apply elem_of_app; by left|done].
  - rewrite inputs_app, (user_inputs _ Li), app_nil_r, items_app, (user_items _ Li), app_nil_r, Ln. exact G6.
  - rewrite sent_app. destruct Lq as [[_ ->]|(c & cm & E & _ & _ & _ & -> & _)]; [by rewrite app_nil_r|]. rewrite fmap_app. apply NoDup_app. split; [exact G7|]. split; [|apply NoDup_singleton].
    intros t I Q. apply elem_of_list_singleton in Q. cbn in Q. subst t. destruct E as [E|E]; destruct (called_here _ _ _ _ E (G10 t0)) as (c' & C & _ & W); cbn in W.
    + by destruct W as (_ & _ & _ & _ & W).
    + by destruct W as (_ & _ & _ & W).
  - intros cm t I. rewrite Lp. destruct (decide (t = t0)) as [->|Ne].
    + destruct Lq as [[Q _]|(c & cm' & E & Ec & _ & Q & _ & Ht)]; [|right; right; by exists c]. rewrite Q in I. destruct (G8 _ _ I) as [W|[W|(c & W)]]; [left; by apply Lw|by right; left|].
      destruct (Ls _ W); [by left|right; right; by exists c].
    + rewrite (Lo _ Ne). assert (I' : (cm, t) ∈ k_queue s).
      { destruct Lq as [[Q _]|(c & cm' & E & Ec & _ & Q & _ & Ht)]; rewrite Q in I; [done|]. apply elem_of_app in I as [I|I]; [done|]. apply elem_of_list_singleton in I. congruence. }
      destruct (G8 _ _ I') as [W|W]; [left; by apply Lw|by right].
  - intros Q. destruct Ld as [E|E]; [|right; by exists t0]. rewrite E in Q. destruct (G9 Q) as [W|(t & W)]; [left; by apply Lw|]. destruct (decide (t = t0)) as [->|Ne].
    + destruct (Ls _ W); [by left|right; by exists t0].
    + right. exists t. by rewrite (Lo _ Ne).
  - exact T.
Qed.
Lemma local_id t s : local t s s [].
Proof. constructor; try done; [by left|by right|by left]. Qed.
Lemma local_return t r s s1 : k_node s1 = k_node s -> k_phase s1 = k_phase s -> k_queue s1 = k_queue s -> (forall t r, k_replies s1 !! t = Some r -> k_replies s !! t = Some r) ->
  (k_woken s = true -> k_woken s1 = true) -> k_threads s1 = k_threads s -> k_shutdown s1 = k_shutdown s -> (forall c, k_threads s !! t = Some (TSent c) -> k_woken s1 = true) ->
  local t s (return_ t r s1).1 [KReturned t r].
Proof.
  intros E1 E2 E3 E4 E5 E6 E7 E8. constructor; cbn.
  - done.
  - done.
  - by repeat constructor.
  - by left.
  - done.
  - done.
  - intros t' Ne. rewrite lookup_insert_ne by done. by rewrite E6.
  - intros c E. left. by eapply E8.
  - by left.
Qed.
Lemma local_become t th s s1 x : k_node s1 = k_node s -> k_phase s1 = k_phase s -> k_queue s1 = k_queue s -> (forall t r, k_replies s1 !! t = Some r -> k_replies s !! t = Some r) ->
  (k_woken s = true -> k_woken s1 = true) -> k_threads s1 = k_threads s -> k_shutdown s1 = k_shutdown s -> (forall c, k_threads s !! t = Some (TSent c) -> k_woken s1 = true) ->
  Forall user_item x -> sent x = [] -> local t s (become t th s1) x.
Proof.
  intros E1 E2 E3 E4 E5 E6 E7 E8 E9 E10. constructor; cbn.
  - done.
  - done.
  - done.
  - by left.
  - done.
  - done.
  - intros t' Ne. rewrite lookup_insert_ne by done. by rewrite E6.
  - intros c E. left. by eapply E8.
  - by left.
Qed.
Lemma local_send t c s : k_threads s !! t = Some (TCalled c) \/ k_threads s !! t = Some (TSubscribed c) -> local t s (send t c s).1 (send t c s).2.
Proof.
  intros Et. assert (Nt : forall c0, k_threads s !! t <> Some (TSent c0)) by (intros c0 Q; destruct Et; congruence).
  assert (R : forall r, local t s (return_ t r s).1 (return_ t r s).2).
  { intros r. apply local_return; try done. intros c0 Q. by apply Nt in Q. }
  assert (B : forall th, local t s (become t th s) []).
  { intros th. apply local_become; try done. intros c0 Q. by apply Nt in Q. }
  unfold send. destruct (command_of c) as [cm|] eqn:Ec.
  - destruct (k_node s) eqn:En; [|apply R]. constructor; cbn.
    + done.
    + done.
    + by repeat constructor.
    + right. exists c, cm. rewrite lookup_insert, En. by repeat split.
    + done.
    + done.
    + intros t' Ne. by rewrite lookup_insert_ne.
    + intros c0 Q. by apply Nt in Q.
    + by left.
  - destruct c; try apply B. destruct (k_node s) eqn:En; [|apply R]. destruct (k_shutdown s); [apply local_id|]. constructor; cbn.
    + done.
    + done.
    + constructor.
    + by left.
    + done.
    + done.
    + intros t' Ne. by rewrite lookup_insert_ne.
    + intros c0 Q. by apply Nt in Q.
    + right. by rewrite lookup_insert.
Qed.
Lemma local_thread t s : local t s (run_thread H t s).1 (run_thread H t s).2.
Proof.
  unfold run_thread. destruct (k_threads s !! t) as [th|] eqn:Et; [|apply local_id].
  assert (Nt : (forall c0, th <> TSent c0) -> forall c0 (s1 : client), k_threads s !! t = Some (TSent c0) -> k_woken s1 = true) by (intros Q c0 s1; rewrite Et; intros [= W]; by apply Q in W).
  destruct th as [c|c|c|c|c known seen|f|r]; [| | | | | |apply local_id].
  - assert (Sd : local t s (send t c s).1 (send t c s).2) by (apply local_send; by left).
    assert (Rt : forall r, local t s (return_ t r s).1 (return_ t r s).2) by (intros r; apply local_return; try done; intros c0; by apply Nt).
    assert (Bc : forall th f, local t s (become t th (set_feeds (<[t := (f, [])]> (k_feeds s)) s)) [KSubscribed t]).
    { intros th f. apply local_become; try done; [intros c0; by apply Nt|by repeat constructor]. }
    destruct c as [cm| | | | | | |f|]; cbn [subscribes]; try apply Bc; try exact Sd. destruct cm; try exact Sd. destruct (b <? a); [apply Rt|exact Sd].
  - apply local_send. by right.
  - destruct (receives c); [|destruct (subscribes c)].
    + apply local_become; try done. apply Forall_nil; exact I.
    + apply local_become; try done. apply Forall_nil; exact I.
    + apply local_return; done.
  - destruct (k_replies s !! t) as [r|].
    + assert (D : forall t' r', delete t (k_replies s) !! t' = Some r' -> k_replies s !! t' = Some r') by (intros t' r' Q; by apply lookup_delete_Some in Q as [_ Q]).
      destruct (with_reply H c r) as [v|known].
      * apply local_return; try done. intros c0; by apply Nt.
      * apply local_become; try done; [intros c0; by apply Nt|apply Forall_nil; exact I].
    + destruct (k_node s) eqn:En; [apply local_id|]. apply local_return; try done. intros c0; by apply Nt.
  - destruct (k_feeds s !! t) as [[f [|[e| |] q]]|]; try apply local_id. destruct (waits_for c known seen e) as [v|].
    + change (local t s (return_ t (HOk v) (set_feeds (<[t := (f, q)]> (k_feeds s)) s)).1 ([KTook t (ItEvent e); KReturned t (HOk v)])).
      destruct (local_return t (HOk v) s (set_feeds (<[t := (f, q)]> (k_feeds s)) s)) as [L1 L2 L3 L4 L5 L6 L7 L8 L9]; try done; [intros c0; by apply Nt|].
      constructor; try done. constructor; [exact I|exact L3].
    + apply local_become; try done; [intros c0; by apply Nt|by repeat constructor].
  - destruct (k_feeds s !! t) as [[f1 [|i q]]|]; try apply local_id. constructor; cbn; try done; [by repeat constructor|by left|by right|by left].
Qed.
Lemma ginv_thread n0 t s tr : ginv n0 s tr -> ginv n0 (run_thread H t s).1 (tr ++ (run_thread H t s).2).
Proof.
  intros G. eapply ginv_local; [exact G|apply local_thread|]. intros t'. destruct (decide (t' = t)) as [->|Ne]; [by eapply thread_step|].
  eapply tinv_frame; [by apply thread_frame|]. apply (g_threads _ _ _ G).
Qed.
Lemma ginv_return n0 t r s tr c th : ginv n0 s tr -> k_threads s !! t = Some th -> (forall c0, th <> TSent c0) -> called t c tr -> reason_to_return H t c (tr ++ [KReturned t r]) r ->
  ginv n0 (return_ t r s).1 (tr ++ [KReturned t r]).
Proof.
  intros G Et Nt C R. eapply (ginv_local _ t); [exact G| |].
  - apply local_return; try done. intros c0. rewrite Et. intros [= W]. by apply Nt in W.
  - intros t'. destruct (decide (t' = t)) as [->|Ne].
    + eapply return_done; [exact Et|apply (g_threads _ _ _ G)|exact C|exact R].
    + eapply tinv_frame; [by apply return_frame|]. apply (g_threads _ _ _ G).
Qed.

(** The node. *)
Lemma frame_node t s s' x : k_threads s' = k_threads s -> k_feeds s' = k_feeds s -> k_queue s' = k_queue s -> k_replies s' = k_replies s -> Forall (quiet t) x -> frame t s s' x.
Proof. intros E1 E2 E3 E4 Q. constructor; [by rewrite E1|by rewrite E2| |done]. rewrite E3, E4. intros [W|W]; [by left|by right; left]. Qed.
Lemma ginv_stop n0 s s1 tr : ginv n0 s tr -> k_threads s1 = k_threads s -> k_feeds s1 = k_feeds s -> k_replies s1 = k_replies s -> (k_shutdown s1 = true -> k_shutdown s = true) -> k_woken s1 = k_woken s ->
  ginv n0 (stop s1).1 (tr ++ (stop s1).2).
Proof.
  intros G Et Ef Er Es Ew. pose proof G as [G1 G2 G3 G4 G5 G6 G7 G8 G9 G10]. constructor; cbn [stop fst snd set_node set_queue k_node k_queue k_replies k_woken k_shutdown k_threads k_phase].
  - split; [|done]. intros _. apply elem_of_app. right. by left.
  - split; [|done]. rewrite executed_app, sent_app. cbn [executed sent omap list_omap]. rewrite !app_nil_r. destruct (k_node s); [rewrite G2; by exists (k_queue s)|by destruct G2].
  - intros t cm I. by apply elem_of_nil in I.
  - rewrite Er. intros t r E. destruct (G4 _ _ E) as (c & n & n' & Re). exists c, n, n'. by apply replied_app.
  - intros t cm n n' r [I|I]%elem_of_app; [|by apply elem_of_list_singleton in I]. destruct (G5 _ _ _ _ _ I) as (Q & y & Iy & Sy). split; [done|]. exists y. split; [apply elem_of_app; by left|done].
  - rewrite inputs_app, items_app. cbn [inputs node_items omap list_omap concat]. rewrite !app_nil_r. destruct G6 as (n & M & _). exists n. split; [exact M|by right].
  - rewrite sent_app. cbn [sent omap list_omap]. by rewrite app_nil_r.
  - intros cm t I. by apply elem_of_nil in I.
  - rewrite Ew, Et. intros Q. apply G9. by apply Es.
  - intros t. eapply tinv_frame; [|apply G10]. constructor; cbn; [by rewrite Et|by rewrite Ef| |by repeat constructor]. intros _. right. right. by left.
Qed.
Lemma machine_snoc o n n' x : forall os n0 l, machine step os n0 = Val (n, l) -> step o n = Val (n', x) -> machine step (os ++ [o]) n0 = Val (n', l ++ x).
Proof.
  induction os as [|o1 os IH]; intros n0 l; cbn [machine app].
  - intros [= <- <-] E. rewrite E. cbn. by rewrite app_nil_r.
  - destruct (step o1 n0) as [[n1 x1]|]; [|done]. cbn [mbind_M]. destruct (machine step os n1) as [[n2 x2]|] eqn:M; [|done]. cbn [mbind_M]. intros [= <- <-] E.
    rewrite (IH _ _ M E). cbn [mbind_M]. by rewrite app_assoc.
Qed.
(** A step of the node that is not a command. *)
Lemma ginv_node n0 s s' tr o n n' y x : ginv n0 s tr -> k_node s = Some n -> step o n = Val (n', y) -> x = [KStep o n n' y] \/ (exists e, x = [KStep o n n' y; KPublished e]) ->
  k_node s' = Some n' -> k_queue s' = k_queue s -> k_replies s' = k_replies s -> k_woken s' = k_woken s -> k_shutdown s' = k_shutdown s -> k_threads s' = k_threads s -> k_phase s <> PCommands ->
  (forall t, tinv t s' (tr ++ x)) -> ginv n0 s' (tr ++ x).
Proof.
  intros G En Es Ex E1 E2 E3 E4 E5 E6 E7 T. pose proof G as [G1 G2 G3 G4 G5 G6 G7 G8 G9 G10].
  assert (X : sent x = [] /\ executed x = [] /\ inputs x = [o] /\ node_items x = y /\ KStopped ∉ x /\ forall t cm m m' r, KExecuted t cm m m' r ∉ x).
  { destruct Ex as [->|(e & ->)]; cbn; rewrite ?app_nil_r; (split; [done|]; split; [done|]; split; [done|]; split; [done|]).
    - split; [|intros t cm m m' r]; by rewrite elem_of_list_singleton.
    - split; [|intros t cm m m' r]; by rewrite !elem_of_cons, elem_of_nil; intros [?|[?|[]]]. }
  destruct X as (X1 & X2 & X3 & X4 & X5 & X6). constructor.
  - rewrite E1. split; [done|]. intros [Q|Q]%elem_of_app; [|done]. apply G1 in Q. congruence.
  - rewrite E1, sent_app, executed_app, X1, X2, !app_nil_r, E2. by rewrite En in G2.
  - rewrite E2. intros t cm I. destruct (G3 _ _ I) as (c & C & Ec). exists c. split; [apply called_app; by left|done].
  - rewrite E3. intros t r E. destruct (G4 _ _ E) as (c & m & m' & Re). exists c, m, m'. by apply replied_app.
  - intros t cm m m' r [I|I]%elem_of_app; [|by apply X6 in I]. destruct (G5 _ _ _ _ _ I) as (Q & z & Iy & Sy). split; [done|]. exists z. split; [apply elem_of_app; by left|done].
  - rewrite inputs_app, items_app, X3, X4, E1. destruct G6 as (m & M & [Q|Q]); [|congruence]. exists n'. split; [|by left]. rewrite En in Q. injection Q as <-. by eapply machine_snoc.
  - by rewrite sent_app, X1, app_nil_r.
  - rewrite E2, E4, E6. intros cm t I. destruct (G8 _ _ I) as [W|[W|W]]; [by left|done|by right; right].
  - rewrite E4, E5, E6. exact G9.
  - exact T.
Qed.
Lemma ginv_phase n0 s s' tr : ginv n0 s tr -> k_node s' = k_node s -> k_queue s' = k_queue s -> k_replies s' = k_replies s -> k_shutdown s' = k_shutdown s -> k_threads s' = k_threads s -> k_feeds s' = k_feeds s ->
  (forall cm t, (cm, t) ∈ k_queue s -> k_woken s' = true \/ k_phase s' = PCommands \/ exists c, k_threads s !! t = Some (TSent c)) ->
  (k_shutdown s = true -> k_woken s' = true \/ exists t, k_threads s !! t = Some (TSent HShutdown)) -> ginv n0 s' (tr ++ []).
Proof.
  intros G E1 E2 E3 E4 E5 E6 E7 E8. pose proof G as [G1 G2 G3 G4 G5 G6 G7 G8 G9 G10]. constructor; rewrite ?E1, ?E2, ?E3, ?E4, ?E5, ?app_nil_r; try done.
  intros t. rewrite <- (app_nil_r tr). eapply tinv_frame; [|apply G10]. apply frame_node; try done; apply Forall_nil; exact I.
Qed.
Lemma ginv_step n0 o s tr : ginv n0 s tr -> ginv n0 (kstep o s).1 (tr ++ (kstep o s).2).
Proof.
  intros G. assert (Id : ginv n0 s (tr ++ [])) by (by rewrite app_nil_r). pose proof (g_threads _ _ _ G) as Ts.
  assert (Fd : forall o p, forall n, k_node s = Some n -> k_phase s <> PCommands -> ginv n0 (feed_node step o n p s).1 (tr ++ (feed_node step o n p s).2)).
  { intros o1 p n En Np. unfold feed_node. destruct (step o1 n) as [[n' x]|] eqn:E; [|by eapply (ginv_stop _ s s)]. eapply ginv_node; try done; [by left|].
    intros t. eapply tinv_frame; [|apply Ts]. apply frame_node; try done. by repeat constructor. }
  destruct o as [|o| | | | | |t c|t|t|t]; cbn [ClientModel.kstep].
  - destruct (k_phase s) eqn:Ep; try exact Id. destruct (k_node s) as [n|] eqn:En; [|exact Id]. by apply Fd.
  - destruct (k_node s) as [n|] eqn:En; [|exact Id]. destruct (input_now o (k_phase s)) eqn:In; [|exact Id]. apply Fd; [done|]. intros Q. rewrite Q in In. by destruct o.
  - destruct (k_phase s) eqn:Ep; try exact Id. destruct (k_node s) as [n|] eqn:En; [|exact Id]. destruct (k_woken s) eqn:Ew; [|exact Id]. cbn [negb]. destruct (k_shutdown s) eqn:Eh.
    + by eapply (ginv_stop _ s).
    + eapply ginv_phase; try done; [intros cm t I; by right; left|congruence].
  - destruct (k_phase s) eqn:Ep; try exact Id. destruct (k_node s) as [n|] eqn:En; [|exact Id]. pose proof G as [G1 G2 G3 G4 G5 G6 G7 G8 G9 G10]. destruct (k_queue s) as [|[cm t] q] eqn:Eq.
    + eapply ginv_phase; try done. rewrite Eq. intros cm t I. by apply elem_of_nil in I.
    + destruct (reply_of cm n) as [r|] eqn:Er; [|by eapply (ginv_stop _ s)]. destruct (step (WCommand cm) n) as [[n' x]|] eqn:Es; [|by eapply (ginv_stop _ s)].
      cbn [fst snd]. set (x0 := [KStep (WCommand cm) n n' x; KExecuted t cm n n' r]).
      set (s' := if has_reply cm then _ else _).
      assert (S1 : k_node s' = Some n') by (unfold s'; by destruct (has_reply cm)).
      assert (S2 : k_queue s' = q) by (unfold s'; by destruct (has_reply cm)).
      assert (S3 : k_replies s' = if has_reply cm then <[t := r]> (k_replies s) else k_replies s) by (unfold s'; by destruct (has_reply cm)).
      assert (S4 : k_threads s' = k_threads s) by (unfold s'; by destruct (has_reply cm)).
      assert (S5 : k_feeds s' = k_feeds s) by (unfold s'; by destruct (has_reply cm)).
      assert (S6 : k_phase s' = k_phase s) by (unfold s'; by destruct (has_reply cm)).
      assert (S7 : k_woken s' = k_woken s) by (unfold s'; by destruct (has_reply cm)).
      assert (S8 : k_shutdown s' = k_shutdown s) by (unfold s'; by destruct (has_reply cm)).
      clearbody s'. rewrite En in G2. rewrite En in G1. destruct (G3 t cm) as (c & C & Ec); [by left|].
      assert (Re : replied t c n n' r (tr ++ x0)).
      { exists cm, (tr ++ [KStep (WCommand cm) n n' x]), []. split; [done|]. split; [by rewrite <- app_assoc|]. apply called_app. by left. }
      constructor.
      * rewrite S1. split; [done|]. intros [Q|Q]%elem_of_app; [by apply (proj2 G1) in Q|]. unfold x0 in Q. rewrite !elem_of_cons, elem_of_nil in Q. by destruct Q as [?|[?|[]]].
      * rewrite S1, sent_app, executed_app, S2, G2. cbn. by rewrite app_nil_r, <- app_assoc.
      * rewrite S2. intros t1 cm1 I. destruct (G3 t1 cm1) as (c1 & C1 & Ec1); [by right|]. exists c1. split; [apply called_app; by left|done].
      * intros t1 r1 E. assert (Q : (t1 = t /\ r1 = r) \/ k_replies s !! t1 = Some r1).
        { rewrite S3 in E. destruct (has_reply cm); [|by right]. apply lookup_insert_Some in E as [[<- <-]|[_ E]]; [by left|by right]. }
        destruct Q as [[-> ->]|Q]; [by exists c, n, n'|]. destruct (G4 _ _ Q) as (c1 & m & m' & Re1). exists c1, m, m'. by apply replied_app.
      * intros t1 cm1 m m' r1 [I|I]%elem_of_app.
        -- destruct (G5 _ _ _ _ _ I) as (Q & z & Iy & Sy). split; [done|]. exists z. split; [apply elem_of_app; by left|done].
        -- unfold x0 in I. rewrite !elem_of_cons, elem_of_nil in I. destruct I as [I|[I|[]]]; [done|]. injection I as -> -> -> -> ->. split; [done|]. exists x. split; [|done]. apply elem_of_app. right. by left.
      * rewrite inputs_app, items_app, S1. cbn [inputs node_items omap list_omap x0 concat]. rewrite app_nil_r. destruct G6 as (m & M & [Q|Q]); [|congruence]. exists n'. split; [|by left]. rewrite En in Q. injection Q as <-. by eapply machine_snoc.
      * rewrite sent_app. cbn. by rewrite app_nil_r.
      * intros cm1 t1 _. right. left. congruence.
      * rewrite S8, S7, S4. exact G9.
      * intros t1. eapply tinv_frame; [|apply G10]. destruct (decide (t1 = t)) as [->|Ne].
        -- constructor; [by rewrite S4|by rewrite S5| |by repeat constructor]. rewrite S2, S3, Eq. intros [(cm1 & I & R)|I].
           ++ apply elem_of_cons in I as [I|I]; [|left; by exists cm1]. injection I as ->. rewrite R, lookup_insert. right. left. by eexists.
           ++ right. left. destruct (has_reply cm); [rewrite lookup_insert; by eexists|done].
        -- constructor; [by rewrite S4|by rewrite S5| |by repeat constructor]. rewrite S2, S3, Eq. intros [(cm1 & I & R)|I].
           ++ apply elem_of_cons in I as [I|I]; [congruence|]. left. by exists cm1.
           ++ right. left. destruct (has_reply cm); [by rewrite lookup_insert_ne|done].
  - destruct (k_phase s) eqn:Ep; try exact Id. eapply ginv_phase; try done; [|apply (g_shut _ _ _ G)]. intros cm t I. destruct (g_wake _ _ _ G _ _ I) as [W|[W|W]]; [by left|congruence|by right; right].
  - destruct (k_phase s) eqn:Ep; try exact Id. destruct (k_node s) as [n|] eqn:En; [|exact Id]. destruct (step WNext n) as [[n' x]|] eqn:Es; [|by eapply (ginv_stop _ s)].
    assert (Np : k_phase s <> PCommands) by congruence.
    destruct (emits x).
    + destruct (emitted_event x) as [e|].
      * eapply ginv_node; try done; [right; by eexists|]. intros t. apply (tinv_publish t s (Some n') e [KStep WNext n n' x]); [by repeat constructor|exact (Ts t)].
      * eapply ginv_node; try done; [by left|]. intros t. eapply tinv_frame; [|apply Ts]. apply frame_node; try done. by repeat constructor.
    + eapply ginv_node; try done; [by left|]. intros t. eapply tinv_frame; [|apply Ts]. apply frame_node; try done. by repeat constructor.
  - destruct (k_node s) as [n|]; [|exact Id]. by eapply (ginv_stop _ s).
  - destruct (k_threads s !! t) as [th|] eqn:Et; [exact Id|]. pose proof (Ts t) as T. unfold tinv in T. rewrite Et in T. destruct T as (T1 & T2 & T3 & T4 & T5).
    eapply (ginv_local _ t); [exact G| |].
    + apply local_become; try done; [intros c0; by rewrite Et|by repeat constructor].
    + intros t1. destruct (decide (t1 = t)) as [->|Ne].
      * unfold tinv. cbn [become set_threads k_threads fst snd]. rewrite lookup_insert. exists c. split; [apply called_app; right; by left|]. split.
        -- intros c' [Q|Q]%called_app; [by apply T1 in Q|]. apply elem_of_list_singleton in Q. by injection Q as ->.
        -- cbn [thread_ok]. rewrite heard_app, took_app, sent_app. cbn. by rewrite !app_nil_r.
      * eapply tinv_frame; [|apply Ts]. apply (frame_thread t1 t); try done; cbn; [by rewrite lookup_insert_ne|]. repeat constructor. by intros ->.
  - by apply ginv_thread.
  - destruct (k_threads s !! t) as [[]|] eqn:Et; try exact Id. destruct (called_here _ _ _ _ Et (Ts t)) as (c0 & C & U & T). cbn [thread_ok] in T. destruct T as (-> & T & _).
    eapply ginv_return; [done|exact Et|done|exact C|]. by apply BecauseTimeout.
  - destruct (k_threads s !! t) as [[]|] eqn:Et; try exact Id. destruct (called_here _ _ _ _ Et (Ts t)) as (c0 & C & U & T). cbn [thread_ok] in T. destruct T as (-> & _).
    eapply ginv_return; [done|exact Et|done|exact C|]. by eapply BecauseDropped.
Qed.

Lemma ginv0 n0 : ginv n0 (client0 n0) [].
Proof.
  constructor; cbn; try done.
  - split; [done|]. intros I. by apply elem_of_nil in I.
  - intros t cm I. by apply elem_of_nil in I.
  - intros t cm n n' r I. by apply elem_of_nil in I.
  - exists n0. split; [done|by left].
  - constructor.
  - intros cm t I. by apply elem_of_nil in I.
  - intros t. unfold tinv. cbn. rewrite lookup_empty. split; [intros c I; by apply elem_of_nil in I|]. split; [done|]. split; [apply lookup_empty|]. split; [done|]. by apply not_elem_of_nil.
Qed.
Lemma krun_app os os' s : krun (os ++ os') s = let '(s1, x) := krun os s in let '(s2, y) := krun os' s1 in (s2, x ++ y).
Proof.
  revert s. induction os as [|o os IH]; intros s; cbn [ClientModel.krun app]; [by destruct (krun os' s)|]. destruct (kstep o s) as [s1 x]. rewrite IH. destruct (krun os s1) as [s2 y]. destruct (krun os' s2) as [s3 z]. by rewrite app_assoc.
Qed.
Lemma krun_inv (P : client -> list kitem -> Prop) : (forall o s tr, P s tr -> P (kstep o s).1 (tr ++ (kstep o s).2)) ->
  forall os s tr s' x, P s tr -> krun os s = (s', x) -> P s' (tr ++ x).
Proof.
  intros St os. induction os as [|o os IH]; intros s tr s' x Ps; cbn [ClientModel.krun]; [intros [= <- <-]; by rewrite app_nil_r|].
  destruct (kstep o s) as [s1 y] eqn:E1. destruct (krun os s1) as [s2 z] eqn:E2. intros [= <- <-]. rewrite app_assoc. eapply IH; [|exact E2]. specialize (St o s tr Ps). by rewrite E1 in St.
Qed.
Lemma run_ginv os n0 s tr : krun os (client0 n0) = (s, tr) -> ginv n0 s tr.
Proof. intros R. exact (krun_inv (ginv n0) (ginv_step n0) os _ [] _ _ (ginv0 n0) R). Qed.

(** ** Returning *)
Definition goes_on (x : list kitem) : Prop := Forall (fun i => match i with KReturned _ _ => False | _ => True end) x.
Definition ends (s s' : client) (x : list kitem) : Prop :=
  goes_on x \/ exists t r y, x = y ++ [KReturned t r] /\ goes_on y /\ k_threads s' !! t = Some (TDone r) /\ forall r', k_threads s !! t <> Some (TDone r').
Lemma goes_nil : goes_on [].
Proof. apply Forall_nil; exact I. Qed.
Lemma ends_return t r s s1 th : k_threads s !! t = Some th -> (forall r', th <> TDone r') -> ends s (return_ t r s1).1 (return_ t r s1).2.
Proof. intros Et Nt. right. exists t, r, []. split; [done|]. split; [exact goes_nil|]. split; [cbn; by rewrite lookup_insert|]. rewrite Et. intros r' [= Q]. by apply Nt in Q. Qed.
Lemma ends_send t c s th : k_threads s !! t = Some th -> (forall r', th <> TDone r') -> ends s (send t c s).1 (send t c s).2.
Proof.
  intros Et Nt. unfold send. destruct (command_of c).
  - destruct (k_node s); [left; by repeat constructor|by eapply ends_return].
  - destruct c; try (left; exact goes_nil). destruct (k_node s); [|by eapply ends_return]. destruct (k_shutdown s); left; exact goes_nil.
Qed.
Lemma ends_thread t s : ends s (run_thread H t s).1 (run_thread H t s).2.
Proof.
  assert (Id : ends s s []) by (left; exact goes_nil). unfold run_thread. destruct (k_threads s !! t) as [th|] eqn:Et; [|exact Id]. destruct th as [c|c|c|c|c known seen|f|r]; [| | | | | |exact Id].
  - assert (Sd : ends s (send t c s).1 (send t c s).2) by (by eapply ends_send).
    destruct c as [cm| | | | | | |f|]; cbn [subscribes]; try exact Sd; try (left; by repeat constructor). destruct cm; try exact Sd. destruct (b <? a); [by eapply ends_return|exact Sd].
  - by eapply ends_send.
  - destruct (receives c); [left; exact goes_nil|]. destruct (subscribes c); [left; exact goes_nil|by eapply ends_return].
  - destruct (k_replies s !! t) as [r|].
    + destruct (with_reply H c r); [by eapply ends_return|left; exact goes_nil].
    + destruct (k_node s); [exact Id|by eapply ends_return].
  - destruct (k_feeds s !! t) as [[f [|[e| |] q]]|]; try exact Id. destruct (waits_for c known seen e) as [v|]; [|left; by repeat constructor].
    right. exists t, (HOk v), [KTook t (ItEvent e)]. split; [done|]. split; [by repeat constructor|]. split; [cbn; by rewrite lookup_insert|]. rewrite Et. by intros r' [=].
  - destruct (k_feeds s !! t) as [[f1 [|i q]]|]; try exact Id. left. by repeat constructor.
Qed.
Lemma ends_step o s : ends s (kstep o s).1 (kstep o s).2.
Proof.
  assert (Id : ends s s []) by (left; exact goes_nil). assert (Gs : forall s1, ends s (stop s1).1 (stop s1).2) by (intros s1; left; by repeat constructor).
  assert (Fd : forall o n p, ends s (feed_node step o n p s).1 (feed_node step o n p s).2).
  { intros o1 n p. unfold feed_node. destruct (step o1 n) as [[n' x]|]; [left; by repeat constructor|apply Gs]. }
  destruct o as [|o| | | | | |t c|t|t|t]; cbn [ClientModel.kstep].
  - destruct (k_phase s); try exact Id. destruct (k_node s); [apply Fd|exact Id].
  - destruct (k_node s); [|exact Id]. destruct (input_now o (k_phase s)); [apply Fd|exact Id].
  - destruct (k_phase s); try exact Id. destruct (k_node s); [|exact Id]. destruct (negb (k_woken s)); [exact Id|]. destruct (k_shutdown s); [apply Gs|left; exact goes_nil].
  - destruct (k_phase s); try exact Id. destruct (k_node s) as [n|]; [|exact Id]. destruct (k_queue s) as [|[cm t] q]; [left; exact goes_nil|].
    destruct (reply_of cm n); [|apply Gs]. destruct (step (WCommand cm) n) as [[n' x]|]; [left; by repeat constructor|apply Gs].
  - destruct (k_phase s); exact Id.
  - destruct (k_phase s); try exact Id. destruct (k_node s) as [n|]; [|exact Id]. destruct (step WNext n) as [[n' x]|]; [|apply Gs].
    destruct (emits x); [destruct (emitted_event x)|]; left; by repeat constructor.
  - destruct (k_node s); [apply Gs|exact Id].
  - destruct (k_threads s !! t); [exact Id|left; by repeat constructor].
  - apply ends_thread.
  - destruct (k_threads s !! t) as [[]|] eqn:Et; try exact Id. by eapply ends_return.
  - destruct (k_threads s !! t) as [[]|] eqn:Et; try exact Id. by eapply ends_return.
Qed.
Lemma returned_app a b : returned (a ++ b) = returned a ++ returned b.
Proof. apply omap_app. Qed.
Lemma goes_returned x : goes_on x -> returned x = [].
Proof. induction 1 as [|i x F _ IH]; [done|]. change (returned (i :: x)) with (returned ([i] ++ x)). rewrite returned_app, IH. by destruct i. Qed.
Lemma stays_done t r s s1 x t0 : local t0 s s1 x -> t <> t0 -> k_threads s !! t = Some (TDone r) -> k_threads s1 !! t = Some (TDone r).
Proof. intros L Ne E. by rewrite (l_others _ _ _ _ L _ Ne). Qed.
Lemma done_step o s t r : k_threads s !! t = Some (TDone r) -> k_threads (kstep o s).1 !! t = Some (TDone r).
Proof.
  intros E. assert (Rt : forall t' r' th, k_threads s !! t' = Some th -> th <> TDone r -> k_threads (return_ t' r' s).1 !! t = Some (TDone r)).
  { intros t' r' th Et Nt. cbn. rewrite lookup_insert_ne; [done|]. intros ->. rewrite E in Et. injection Et as <-. done. }
  destruct o as [|o| | | | | |t' c|t'|t'|t']; cbn [ClientModel.kstep].
  - destruct (k_phase s), (k_node s); try exact E. unfold feed_node. by destruct (step _ _) as [[]|].
  - destruct (k_node s), (input_now o (k_phase s)); try exact E. unfold feed_node. by destruct (step _ _) as [[]|].
  - destruct (k_phase s), (k_node s); try exact E. destruct (negb (k_woken s)), (k_shutdown s); exact E.
  - destruct (k_phase s), (k_node s) as [n|]; try exact E. destruct (k_queue s) as [|[cm t'] q]; [exact E|].
    destruct (reply_of cm n); [|exact E]. destruct (step (WCommand cm) n) as [[n' x]|]; [|exact E]. cbn [fst]. by destruct (has_reply cm).
  - by destruct (k_phase s).
  - destruct (k_phase s), (k_node s) as [n|]; try exact E. destruct (step WNext n) as [[n' x]|]; [|exact E].
    destruct (emits x); [destruct (emitted_event x)|]; exact E.
  - by destruct (k_node s).
  - destruct (k_threads s !! t') eqn:Et; [exact E|]. cbn. rewrite lookup_insert_ne; [done|]. intros ->. congruence.
  - destruct (decide (t = t')) as [->|Ne]; [|by eapply (stays_done _ _ _ _ _ t'); [apply local_thread|..]]. unfold run_thread. by rewrite E.
  - destruct (k_threads s !! t') as [[]|] eqn:Et; try exact E. by eapply Rt.
  - destruct (k_threads s !! t') as [[]|] eqn:Et; try exact E. by eapply Rt.
Qed.
Lemma reason_strip t c l t' r' r : reason_to_return H t c (l ++ [KReturned t' r']) r -> reason_to_return H t c l r.
Proof.
  assert (Rp : forall n n' rp, replied t c n n' rp (l ++ [KReturned t' r']) -> replied t c n n' rp l).
  { intros n n' rp (cm & a & b & Ec & Q & C). destruct b as [|b1 b _] using rev_ind; [by apply app_inj_tail in Q as [_ ?]|].
    rewrite app_comm_cons, app_assoc in Q. apply app_inj_tail in Q as [-> _]. by exists cm, a, b. }
  destruct 1 as [s s' rp v R Re W|cm R S C K|es es' known v He S Kn W|S|K C|x y E L|E|f E].
  - eapply BecauseReply; [done|by apply Rp|done].
  - eapply BecauseSent; [done..|]. apply elem_of_app in K as [K|K]; [done|by apply elem_of_list_singleton in K].
  - rewrite heard_app in He. cbn in He. eapply BecauseHeard; [exact He|done| |exact W]. destruct (receives c); [|done]. destruct Kn as (n & n' & rp & Re & Q). exists n, n', rp. split; [by apply Rp|done].
  - by apply BecauseTimeout.
  - apply BecauseStopped; [|done]. apply elem_of_app in K as [K|K]; [done|by apply elem_of_list_singleton in K].
  - by eapply BecauseEmpty.
  - by apply BecauseShutdown.
  - by eapply BecauseDropped.
Qed.
Definition returns_ok (s : client) (tr : list kitem) : Prop :=
  NoDup (returned tr).*1 /\ (forall t, t ∈ (returned tr).*1 -> exists r, k_threads s !! t = Some (TDone r)) /\
  forall a b t r, tr = a ++ KReturned t r :: b -> exists c, called t c a /\ (forall c', called t c' tr -> c' = c) /\ reason_to_return H t c a r.
Lemma split_in {A} (a b l x : list A) i : a ++ i :: b = l ++ x -> (exists b', l = a ++ i :: b' /\ b = b' ++ x) \/ exists a', a = l ++ a' /\ x = a' ++ i :: b.
Proof.
  revert l. induction a as [|a0 a IH]; intros [|l0 l]; cbn.
  - intros <-. right. by exists [].
  - intros [= <- ->]. left. by exists l.
  - intros <-. right. by exists (a0 :: a).
  - intros [= <- E]. destruct (IH _ E) as [(b' & -> & ->)|(a' & -> & ->)]; [left; by exists b'|right; by exists a'].
Qed.
Lemma called_once n0 s tr : ginv n0 s tr -> forall t c c', called t c tr -> called t c' tr -> c = c'.
Proof.
  intros G t c c' C C'. pose proof (g_threads _ _ _ G t) as T. unfold tinv in T. destruct (k_threads s !! t); [|by destruct T as (T & _); apply T in C].
  destruct T as (c0 & _ & U & _). by rewrite (U _ C), (U _ C').
Qed.
Lemma run_returns os n0 s tr : krun os (client0 n0) = (s, tr) -> returns_ok s tr.
Proof.
  intros R. assert (Q : ginv n0 s tr /\ returns_ok s tr); [|by destruct Q].
  refine (krun_inv (fun s tr => ginv n0 s tr /\ returns_ok s tr) _ os _ [] _ _ _ R).
  - clear. intros o s tr [G (N1 & N2 & N3)]. pose proof (ginv_step n0 o s tr G) as G'. split; [exact G'|]. pose proof (ends_step o s) as E. pose proof (done_step o s) as D.
    revert G' E D. generalize (kstep o s). intros [s' x] G' E D. cbn [fst snd] in *.
    assert (Old : forall a b t r, tr = a ++ KReturned t r :: b -> exists c, called t c a /\ (forall c', called t c' (tr ++ x) -> c' = c) /\ reason_to_return H t c a r).
    { intros a b t r Q. destruct (N3 _ _ _ _ Q) as (c & C & U & W). exists c. split; [done|]. split; [|done]. intros c' C'. eapply (called_once _ _ _ G'); [exact C'|]. rewrite Q, <- app_assoc. apply called_app. by left. }
    destruct E as [E|(t & r & y & -> & Gy & Ed & Nd)].
    + split; [|split].
      * by rewrite returned_app, (goes_returned _ E), app_nil_r.
      * intros t. rewrite returned_app, (goes_returned _ E), app_nil_r. intros [r I]%N2. exists r. by apply D.
      * intros a b t r Q. symmetry in Q. apply split_in in Q as [(b' & Q & _)|(a' & _ & Q)]; [by eapply Old|]. exfalso.
        assert (I : KReturned t r ∈ x) by (rewrite Q; apply elem_of_app; right; by left). by apply (proj1 (Forall_forall _ _) E) in I.
    + assert (Er : returned (tr ++ y ++ [KReturned t r]) = returned tr ++ [(t, r)]) by (by rewrite !returned_app, (goes_returned _ Gy)).
      split; [|split].
      * rewrite Er, fmap_app. apply NoDup_app. split; [exact N1|]. split; [|apply NoDup_singleton]. intros t' I Q. apply elem_of_list_singleton in Q. cbn in Q. subst t'. destruct (N2 _ I) as (r' & W). by apply Nd in W.
      * intros t'. rewrite Er, fmap_app, elem_of_app. intros [[r' I]%N2|I]; [exists r'; by apply D|]. apply elem_of_list_singleton in I. cbn in I. subst t'. by exists r.
      * intros a b t' r' Q. symmetry in Q. apply split_in in Q as [(b' & Q & _)|(a' & -> & Q)]; [by eapply Old|].
        assert (b = [] /\ a' = y /\ t' = t /\ r' = r) as (-> & -> & -> & ->).
        { destruct b as [|b1 b _] using rev_ind; [by apply app_inj_tail in Q as [-> [= -> ->]]|]. rewrite app_comm_cons, app_assoc in Q. apply app_inj_tail in Q as [Q _]. exfalso.
          assert (I : KReturned t' r' ∈ y) by (rewrite Q; apply elem_of_app; right; by left). by apply (proj1 (Forall_forall _ _) Gy) in I. }
        pose proof (g_threads _ _ _ G' t) as T. unfold tinv in T. rewrite Ed in T. destruct T as (c & C & U & W). exists c.
        rewrite app_assoc in C, W. cbn [thread_ok] in W. destruct W as (W & _). split; [|split; [exact U|by eapply reason_strip]].
        apply called_app in C as [C|C]; [done|by apply elem_of_list_singleton in C].
  - split; [apply ginv0|]. split; [constructor|]. split; [intros t I; by apply elem_of_nil in I|]. intros a b t r Q. by destruct a.
Qed.

(** ** Published events *)
Definition only_next : Prop := forall o n n' x, step o n = Val (n', x) ->
  match o with
  | WNext => exists l, Forall (fun i => match i with FEmitted _ _ => False | _ => True end) l /\ (x = l \/ exists c y, x = l ++ [FEmitted c y])
  | _ => Forall (fun i => match i with FEmitted _ _ => False | _ => True end) x
  end.
Lemma none_emitted (x : list (fitem wmsg wev)) : Forall (fun i => match i with FEmitted _ _ => False | _ => True end) x -> emitted_events x = [].
Proof. induction 1 as [|i x F _ IH]; [done|]. cbn. destruct i; try done. Qed.
Lemma last_app {A} (l : list A) y d : List.last (l ++ [y]) d = y.
Proof. induction l as [|a l IH]; [done|]. cbn. destruct (l ++ [y]) eqn:E; [by destruct l|exact IH]. Qed.
Lemma last_none (x : list (fitem wmsg wev)) : Forall (fun i => match i with FEmitted _ _ => False | _ => True end) x -> emits x = false.
Proof.
  unfold emits. induction 1 as [|i x F _ IH]; [done|]. destruct x; [by destruct i|exact IH].
Qed.
Lemma published_app a b : published (a ++ b) = published a ++ published b.
Proof. apply omap_app. Qed.
Lemma emitted_app a b : emitted_events (a ++ b) = emitted_events a ++ emitted_events b.
Proof. apply omap_app. Qed.
Lemma user_published x : Forall user_item x -> published x = [].
Proof. induction 1 as [|i x F _ IH]; [done|]. change (published (i :: x)) with (published ([i] ++ x)). rewrite published_app, IH. by destruct i. Qed.
Lemma published_step o s : only_next -> published (kstep o s).2 = emitted_events (node_items (kstep o s).2).
Proof.
  intros On. assert (Us : forall x, Forall user_item x -> published x = emitted_events (node_items x)) by (intros x F; by rewrite (user_published _ F), (user_items _ F)).
  assert (Fd : forall o n p s, o <> WNext -> published (feed_node step o n p s).2 = emitted_events (node_items (feed_node step o n p s).2)).
  { intros o1 n p s1 Ne. unfold feed_node. destruct (step o1 n) as [[n' x]|] eqn:E; [|done]. apply On in E. cbn. rewrite app_nil_r. destruct o1; try done; by rewrite none_emitted. }
  destruct o as [|o| | | | | |t c|t|t|t]; cbn [ClientModel.kstep].
  - destruct (k_phase s), (k_node s); try done. by apply Fd.
  - destruct (k_node s); [|done]. destruct (input_now o (k_phase s)) eqn:In; [|done]. apply Fd. by intros ->.
  - destruct (k_phase s), (k_node s); try done. by destruct (negb (k_woken s)), (k_shutdown s).
  - destruct (k_phase s), (k_node s) as [n|]; try done. destruct (k_queue s) as [|[cm t'] q]; [done|].
    destruct (reply_of cm n); [|done]. destruct (step (WCommand cm) n) as [[n' x]|] eqn:E; [|done]. apply On in E. cbn. rewrite app_nil_r. by rewrite none_emitted.
  - by destruct (k_phase s).
  - destruct (k_phase s), (k_node s) as [n|]; try done. destruct (step WNext n) as [[n' x]|] eqn:E; [|done]. apply On in E. destruct E as (l & F & [->|(c & y & ->)]).
    + rewrite (last_none _ F). cbn. rewrite app_nil_r. by rewrite none_emitted.
    + unfold emits, emitted_event. rewrite last_app. destruct y; cbn; rewrite app_nil_r, emitted_app, (none_emitted _ F); done.
  - by destruct (k_node s).
  - by destruct (k_threads s !! t).
  - apply Us. apply (l_items _ _ _ _ (local_thread t s)).
  - destruct (k_threads s !! t) as [[]|]; try done.
  - destruct (k_threads s !! t) as [[]|]; try done.
Qed.
Lemma run_published os n0 s tr : only_next -> krun os (client0 n0) = (s, tr) -> published tr = emitted_events (node_items tr).
Proof.
  intros On R. refine (krun_inv (fun _ tr => published tr = emitted_events (node_items tr)) _ os _ [] _ _ eq_refl R).
  intros o s1 tr1 E. by rewrite published_app, items_app, emitted_app, E, published_step.
Qed.

(** ** After the end *)
Lemma stopped_step o s : k_node s = None -> k_node (kstep o s).1 = None /\ published (kstep o s).2 = [].
Proof.
  intros E. assert (Us : forall x, Forall user_item x -> published x = []) by (intros x F; by rewrite (user_published _ F)).
  destruct o as [|o| | | | | |t c|t|t|t]; cbn [ClientModel.kstep]; rewrite ?E; try (by destruct (k_phase s)); try done.
  - destruct (k_threads s !! t); done.
  - split; [by rewrite (l_node _ _ _ _ (local_thread t s))|]. apply Us, (l_items _ _ _ _ (local_thread t s)).
  - destruct (k_threads s !! t) as [[]|]; done.
  - destruct (k_threads s !! t) as [[]|]; done.
Qed.
Lemma feed_step o s t f : k_threads s !! t = Some (TFeed f) -> o <> ODrop t -> k_threads (kstep o s).1 !! t = Some (TFeed f).
Proof.
  intros E Nd. assert (Rt : forall t' r' th, k_threads s !! t' = Some th -> th <> TFeed f -> k_threads (return_ t' r' s).1 !! t = Some (TFeed f)).
  { intros t' r' th Et Nt. cbn. rewrite lookup_insert_ne; [done|]. intros ->. rewrite E in Et. injection Et as <-. done. }
  destruct o as [|o| | | | | |t' c|t'|t'|t']; cbn [ClientModel.kstep].
  - destruct (k_phase s), (k_node s); try exact E. unfold feed_node. by destruct (step _ _) as [[]|].
  - destruct (k_node s), (input_now o (k_phase s)); try exact E. unfold feed_node. by destruct (step _ _) as [[]|].
  - destruct (k_phase s), (k_node s); try exact E. destruct (negb (k_woken s)), (k_shutdown s); exact E.
  - destruct (k_phase s), (k_node s) as [n|]; try exact E. destruct (k_queue s) as [|[cm t'] q]; [exact E|].
    destruct (reply_of cm n); [|exact E]. destruct (step (WCommand cm) n) as [[n' x]|]; [|exact E]. cbn [fst]. by destruct (has_reply cm).
  - by destruct (k_phase s).
  - destruct (k_phase s), (k_node s) as [n|]; try exact E. destruct (step WNext n) as [[n' x]|]; [|exact E].
    destruct (emits x); [destruct (emitted_event x)|]; exact E.
  - by destruct (k_node s).
  - destruct (k_threads s !! t') eqn:Et; [exact E|]. cbn. rewrite lookup_insert_ne; [done|]. intros ->. congruence.
  - destruct (decide (t = t')) as [->|Ne]; [|by rewrite (l_others _ _ _ _ (local_thread t' s) _ Ne)]. unfold run_thread. rewrite E. destruct (k_feeds s !! t') as [[f1 [|i q]]|]; exact E.
  - destruct (k_threads s !! t') as [[]|] eqn:Et; try exact E. by eapply Rt.
  - destruct (decide (t = t')) as [->|Ne]; [done|]. destruct (k_threads s !! t') as [[]|] eqn:Et; try exact E. cbn. by rewrite lookup_insert_ne.
Qed.
Lemma silent_run t f os : forall s s' x, k_node s = None -> k_threads s !! t = Some (TFeed f) -> ODrop t ∉ os -> krun os s = (s', x) ->
  k_threads s' !! t = Some (TFeed f) /\ published x = [].
Proof.
  induction os as [|o os IH]; intros s s' x En Et Nd; cbn [ClientModel.krun]; [by intros [= <- <-]|].
  apply not_elem_of_cons in Nd as [Nd Nd']. pose proof (stopped_step o s En) as [E1 E2]. pose proof (feed_step o s t f Et (fun q => Nd (eq_sym q))) as E3.
  destruct (kstep o s) as [s1 y]. destruct (krun os s1) as [s2 z] eqn:E. intros [= <- <-]. destruct (IH _ _ _ E1 E3 Nd' E) as [A B]. split; [done|]. rewrite published_app, B. cbn [snd] in E2. by rewrite E2.
Qed.

(** ** Commands *)
Lemma drain_commands q : forall s s' x, k_phase s = PCommands -> k_queue s = q -> k_node s <> None -> krun (repeat OCommand (length q)) s = (s', x) ->
  KStopped ∈ x \/ (executed x = q /\ k_queue s' = [] /\ k_node s' <> None).
Proof.
  induction q as [|[cm t] q IH]; intros s s' x Ep Eq En; cbn [length repeat ClientModel.krun]; [intros [= <- <-]; by right|].
  cbn [ClientModel.kstep]. rewrite Ep, Eq. destruct (k_node s) as [n|]; [|done].
  destruct (reply_of cm n) as [r|]; [|intros Q; left; destruct (krun (repeat OCommand (length q)) (stop s).1) as [s2 y] eqn:E; cbn [stop fst] in E; cbn [stop] in Q; rewrite E in Q; injection Q as <- <-; by left].
  destruct (step (WCommand cm) n) as [[n' y]|]; [|intros Q; left; destruct (krun (repeat OCommand (length q)) (stop s).1) as [s2 y] eqn:E; cbn [stop fst] in E; cbn [stop] in Q; rewrite E in Q; injection Q as <- <-; by left].
  set (s1 := if has_reply cm then _ else _).
  assert (S1 : k_phase s1 = PCommands) by (unfold s1; by destruct (has_reply cm)).
  assert (S2 : k_queue s1 = q) by (unfold s1; by destruct (has_reply cm)).
  assert (S3 : k_node s1 <> None) by (unfold s1; by destruct (has_reply cm)).
  clearbody s1. destruct (krun (repeat OCommand (length q)) s1) as [s2 z] eqn:E. intros [= <- <-].
  destruct (IH _ _ _ S1 S2 S3 E) as [W|(W1 & W2 & W3)]; [left; by repeat apply elem_of_list_further|]. right. split; [|done].
  change (executed ([KStep (WCommand cm) n n' y; KExecuted t cm n n' r] ++ z) = (cm, t) :: q). by rewrite executed_app, W1.
Qed.
Lemma served s s' x : k_phase s = PInputs -> k_woken s = true -> k_shutdown s = false -> k_node s <> None -> krun (OWoken :: repeat OCommand (length (k_queue s))) s = (s', x) ->
  KStopped ∈ x \/ (executed x = k_queue s /\ k_queue s' = []).
Proof.
  intros Ep Ew Es En. cbn [ClientModel.krun ClientModel.kstep]. rewrite Ep, Ew, Es. cbn [negb]. destruct (k_node s) as [n|] eqn:En'; [|done].
  destruct (krun _ _) as [s2 y] eqn:E. intros [= <- <-]. destruct (drain_commands (k_queue s) (set_phase PCommands (set_woken false s)) s2 y) as [W|(W1 & W2 & _)]; [done|done|cbn; congruence|exact E|by left|by right].
Qed.
Lemma pending os n0 s tr t c : krun os (client0 n0) = (s, tr) -> k_threads s !! t = Some (TReceiving c) ->
  exists cm, command_of c = Some cm /\ called t c tr /\ KSent t cm ∈ tr /\
    ((cm, t) ∈ k_queue s \/ (exists r n n', k_replies s !! t = Some r /\ replied t c n n' r tr) \/ KStopped ∈ tr).
Proof.
  intros R Et. pose proof (run_ginv _ _ _ _ R) as G. destruct (called_here _ _ _ _ Et (g_threads _ _ _ G t)) as (c0 & C & U & T). cbn [thread_ok] in T. destruct T as (-> & T1 & _ & T3 & T4).
  destruct (command_of c0) as [cm|] eqn:Ec; [|by subst]. exists cm. split; [done|]. split; [done|]. split; [done|]. destruct (T4 T1) as [(cm' & I & _)|[[r W]|W]]; [| |by right; right].
  - destruct (g_called _ _ _ G _ _ I) as (c' & C' & Ec'). rewrite (U _ C'), Ec in Ec'. injection Ec' as <-. by left.
  - right. left. destruct (g_reply _ _ _ G _ _ W) as (c' & n & n' & Re). exists r, n, n'. split; [done|].
    assert (c' = c0) as <-; [|done]. destruct Re as (? & a & b & _ & -> & Q). apply U, called_app. by left.
Qed.

(** ** Subscribing *)
Lemma subscribed_step o s t : KSubscribed t ∈ (kstep o s).2 -> (kstep o s).2 = [KSubscribed t] /\ exists c, k_threads s !! t = Some (TCalled c).
Proof.
  assert (No : forall x, Forall (fun i => match i with KSubscribed _ => False | _ => True end) x -> KSubscribed t ∈ x -> x = [KSubscribed t] /\ exists c, k_threads s !! t = Some (TCalled c)).
  { intros x F I. by apply (proj1 (Forall_forall _ _) F) in I. }
  assert (Nil : KSubscribed t ∈ @nil kitem -> @nil kitem = [KSubscribed t] /\ exists c, k_threads s !! t = Some (TCalled c)) by (intros I; by apply elem_of_nil in I).
  assert (Fd : forall o n p s1, KSubscribed t ∈ (feed_node step o n p s1).2 -> (feed_node step o n p s1).2 = [KSubscribed t] /\ exists c, k_threads s !! t = Some (TCalled c)).
  { intros o1 n p s1. apply No. unfold feed_node. destruct (step o1 n) as [[n' x]|]; by repeat constructor. }
  assert (Sd : forall t' c, KSubscribed t ∈ (send t' c s).2 -> (send t' c s).2 = [KSubscribed t] /\ exists c, k_threads s !! t = Some (TCalled c)).
  { intros t' c. apply No. unfold send. destruct (command_of c); [destruct (k_node s); by repeat constructor|]. destruct c; try (apply Forall_nil; exact I). destruct (k_node s); [destruct (k_shutdown s); apply Forall_nil; exact I|by repeat constructor]. }
  destruct o as [|o| | | | | |t' c|t'|t'|t']; cbn [ClientModel.kstep].
  - destruct (k_phase s), (k_node s); try exact Nil. apply Fd.
  - destruct (k_node s); [|exact Nil]. destruct (input_now o (k_phase s)); [apply Fd|exact Nil].
  - destruct (k_phase s), (k_node s); try exact Nil. destruct (negb (k_woken s)); [exact Nil|]. destruct (k_shutdown s); [|exact Nil]. apply No. by repeat constructor.
  - destruct (k_phase s), (k_node s) as [n|]; try exact Nil. destruct (k_queue s) as [|[cm t'] q]; [exact Nil|].
    destruct (reply_of cm n); [|apply No; by repeat constructor]. destruct (step (WCommand cm) n) as [[n' x]|]; apply No; by repeat constructor.
  - destruct (k_phase s); exact Nil.
  - destruct (k_phase s), (k_node s) as [n|]; try exact Nil. destruct (step WNext n) as [[n' x]|]; [|apply No; by repeat constructor].
    destruct (emits x); [destruct (emitted_event x)|]; apply No; by repeat constructor.
  - destruct (k_node s); [|exact Nil]. apply No; by repeat constructor.
  - destruct (k_threads s !! t'); [exact Nil|]. apply No; by repeat constructor.
  - unfold run_thread. destruct (k_threads s !! t') as [th|] eqn:Et; [|exact Nil]. destruct th as [c|c|c|c|c known seen|f|r]; [| | | | | |exact Nil].
    + assert (Bc : KSubscribed t ∈ [KSubscribed t'] -> [KSubscribed t'] = [KSubscribed t] /\ exists c, k_threads s !! t = Some (TCalled c)).
      { intros I. apply elem_of_list_singleton in I as [= ->]. split; [done|]. by exists c. }
      destruct c as [cm| | | | | | |f|]; cbn [subscribes]; try exact Bc; try apply Sd. destruct cm; try apply Sd. destruct (b <? a); [apply No; by repeat constructor|apply Sd].
    + apply Sd.
    + destruct (receives c); [exact Nil|]. destruct (subscribes c); [exact Nil|]. apply No; by repeat constructor.
    + destruct (k_replies s !! t') as [r|].
      * destruct (with_reply H c r); [|exact Nil]. apply No; by repeat constructor.
      * destruct (k_node s); [exact Nil|]. apply No; by repeat constructor.
    + destruct (k_feeds s !! t') as [[f [|[e| |] q]]|]; try exact Nil. destruct (waits_for c known seen e); apply No; by repeat constructor.
    + destruct (k_feeds s !! t') as [[f1 [|i q]]|]; try exact Nil. apply No; by repeat constructor.
  - destruct (k_threads s !! t') as [[]|]; try exact Nil. apply No; by repeat constructor.
  - destruct (k_threads s !! t') as [[]|]; try exact Nil. apply No; by repeat constructor.
Qed.
Definition subs_ok (tr : list kitem) : Prop := forall a b t, tr = a ++ KSubscribed t :: b -> exists c, called t c a.
Lemma run_subs os n0 s tr : krun os (client0 n0) = (s, tr) -> subs_ok tr.
Proof.
  intros R. assert (Q : ginv n0 s tr /\ subs_ok tr); [|by destruct Q].
  refine (krun_inv (fun s tr => ginv n0 s tr /\ subs_ok tr) _ os _ [] _ _ _ R).
  - clear. intros o s tr [G S]. split; [by apply ginv_step|]. intros a b t E. symmetry in E. apply split_in in E as [(b' & E & _)|(a' & -> & E)]; [by eapply S|].
    destruct (subscribed_step o s t) as (Ex & c & Et); [rewrite E; apply elem_of_app; right; by left|].
    destruct (called_here _ _ _ _ Et (g_threads _ _ _ G t)) as (c0 & C & _). exists c0. apply called_app. by left.
  - split; [apply ginv0|]. intros a b t E. by destruct a.
Qed.
Lemma heard_in t e tr : forall es, heard t tr = Some es -> e ∈ es -> exists a b, tr = a ++ KPublished e :: b /\ KSubscribed t ∈ a.
Proof.
  induction tr as [|i tr IH] using rev_ind; intros es; [done|]. rewrite heard_app. cbn [foldl].
  assert (On : forall es, heard t tr = Some es -> e ∈ es -> exists a b, tr ++ [i] = a ++ KPublished e :: b /\ KSubscribed t ∈ a).
  { intros es0 E I. destruct (IH _ E I) as (a & b & -> & W). exists a, (b ++ [i]). split; [by rewrite <- app_assoc|done]. }
  destruct i; cbn [hears]; try (by apply On).
  - destruct (N.eqb_spec t0 t); [|by apply On]. intros [= <-] I. by apply elem_of_nil in I.
  - destruct (heard t tr) as [es0|] eqn:E; [|done]. intros [= <-] [I|I]%elem_of_app; [by eapply On|]. apply elem_of_list_singleton in I as ->.
    exists tr, []. split; [done|]. clear -E. revert es0 E. induction tr as [|i tr IH] using rev_ind; intros es0; [done|]. rewrite heard_app. cbn [foldl]. intros E.
    apply elem_of_app. destruct i; cbn [hears] in E; try (left; by eapply IH).
    + destruct (N.eqb_spec t0 t) as [->|]; [right; by left|left; by eapply IH].
    + destruct (heard t tr); [|done]. left. by eapply IH.
Qed.
Lemma during os n0 s tr a b t r c es e : krun os (client0 n0) = (s, tr) -> tr = a ++ KReturned t r :: b -> called t c tr -> heard t a = Some es -> e ∈ es ->
  exists a1 a2, a = a1 ++ KPublished e :: a2 /\ called t c a1.
Proof.
  intros R E C He I. destruct (heard_in _ _ _ _ He I) as (a1 & a2 & -> & Sb). exists a1, a2. split; [done|]. apply elem_of_list_split in Sb as (u & v & ->).
  destruct (run_subs _ _ _ _ R u (v ++ KPublished e :: a2 ++ KReturned t r :: b) t) as (c' & C'); [rewrite E, <- !app_assoc; cbn; by rewrite <- ?app_assoc|].
  assert (c' = c) as <-; [|apply called_app; by left]. eapply (called_once _ _ _ (run_ginv _ _ _ _ R)); [|exact C]. rewrite E, <- !app_assoc. apply called_app. by left.
Qed.
Lemma wait_last c es : forall known seen v, wait_result c known seen es = Some v -> exists es0 e known', es = es0 ++ [e] /\ waits_for c known' (seen ++ es0) e = Some v.
Proof.
  induction es as [|e es IH]; intros known seen v; [done|]. destruct es as [|e1 es].
  - cbn [wait_result]. intros W. exists [], e, known. by rewrite app_nil_r.
  - cbn [wait_result]. destruct (waits_for c known seen e); [done|]. intros W. destruct (IH _ _ _ W) as (es0 & e2 & known' & -> & Q). exists (e :: es0), e2, known'. split; [done|]. by rewrite <- app_assoc in Q.
Qed.
(** A wait that ended with an event. *)
Lemma waited os n0 s tr a b t v c : krun os (client0 n0) = (s, tr) -> tr = a ++ KReturned t (HOk v) :: b -> called t c tr -> subscribes c = true ->
  (receives c = true /\ exists n n' r, replied t c n n' r a /\ with_reply H c r = inl (HOk v)) \/
  exists a1 e a2 known seen, a = a1 ++ KPublished e :: a2 /\ called t c a1 /\ waits_for c known seen e = Some v.
Proof.
  intros R E C Sc. destruct (run_returns _ _ _ _ R) as (_ & _ & W). destruct (W _ _ _ _ E) as (c' & C' & U & Q). pose proof (U _ C) as Ec. subst c'. clear C'. inversion Q; subst; try done; try congruence.
  - left. split; [done|]. by eexists _, _, _.
  - right. match goal with X : wait_result _ _ _ _ = Some _ |- _ => destruct (wait_last _ _ _ _ _ X) as (es0 & e & known' & -> & Y) end.
    match goal with X : heard _ _ = Some _ |- _ => destruct (during _ _ _ _ _ _ _ _ _ _ e R eq_refl C X) as (a1 & a2 & -> & C1) end; [apply elem_of_app; left; apply elem_of_app; right; by left|].
    exists a1, e, a2, known', es0. split; [done|]. split; [exact C1|exact Y].
Qed.

Definition negotiated_with (sv : N) (x : sockaddr * (N * N)) (e : wev) : Prop :=
  exists l p ag rc v rl wt, e = WvPeer (KoNegotiated x.1 l x.2.2 p ag rc x.2.1 v rl wt) /\ has_services x.2.2 sv = true.
Lemma note_peer_in sv e known x : note_peer sv e known !! x.1 = Some x.2 -> known !! x.1 = Some x.2 \/ negotiated_with sv x e.
Proof.
  destruct x as [a0 [h0 s0]]. cbn [fst snd]. unfold note_peer. destruct e as [| | |o| | ]; try (by left). destruct o; try (by left). destruct (has_services services sv) eqn:Hs; [|by left].
  intros [[<- E]|[_ E]]%lookup_insert_Some; [|by left]. right. injection E as <- <-. unfold negotiated_with. cbn. eexists _, _, _, _, _, _, _. split; [reflexivity|exact Hs].
Qed.
Lemma wait_peers k sv es : forall known seen v, wait_result (HWaitPeers k sv) known seen es = Some v ->
  exists l, v = VPeers l /\ lenN l = k /\ NoDup l.*1 /\ forall x, x ∈ l -> known !! x.1 = Some x.2 \/ exists e, e ∈ es /\ negotiated_with sv x e.
Proof.
  induction es as [|e es IH]; intros known seen v; [done|]. destruct es as [|e1 es].
  - cbn [wait_result waits_for]. destruct e as [| | |o| | ]; try done. destruct o; try done. set (e := WvPeer _). destruct (N.eqb_spec (N.of_nat (size (note_peer sv e known))) k) as [Ek|]; [|done]. intros [= <-].
    eexists. split; [reflexivity|]. split; [|split].
    + unfold lenN. rewrite <- Ek. by f_equal.
    + apply NoDup_fst_map_to_list.
    + intros [a' y] I. apply elem_of_map_to_list in I. destruct (note_peer_in sv e known (a', y) I) as [W|W]; [by left|]. right. exists e. split; [by left|exact W].
  - cbn [wait_result]. destruct (waits_for (HWaitPeers k sv) known seen e); [done|]. intros W. destruct (IH _ _ _ W) as (l & -> & L & Nd & Q). exists l. split; [done|]. split; [done|]. split; [done|].
    intros x I. destruct (Q _ I) as [A|(e2 & I2 & A)]; [|right; exists e2; split; [by right|done]]. cbn [known_after] in A. apply note_peer_in in A as [A|A]; [by left|]. right. exists e. split; [by left|done].
Qed.
Lemma waited_peers os n0 s tr a b t v k sv : krun os (client0 n0) = (s, tr) -> tr = a ++ KReturned t (HOk v) :: b -> called t (HWaitPeers k sv) tr ->
  exists l n n' r, v = VPeers l /\ lenN l = k /\ replied t (HWaitPeers k sv) n n' r a /\
    forall x, x ∈ l -> (exists w, r = RpPeers w /\ x ∈ view_entry <$> w) \/
      exists a1 a2 e, a = a1 ++ KPublished e :: a2 /\ called t (HWaitPeers k sv) a1 /\ negotiated_with sv x e.
Proof.
  intros R E C. destruct (run_returns _ _ _ _ R) as (_ & _ & W). destruct (W _ _ _ _ E) as (c' & C' & U & Q). pose proof (U _ C) as Ec. subst c'. clear C'. inversion Q; subst; try done.
  - match goal with X : with_reply _ _ ?rp = _ |- _ => destruct rp; cbn in X; try done; rename X into Wr end. destruct (N.eqb_spec (lenN l) k) as [El|]; [|done]. injection Wr as <-.
    eexists _, _, _, _. split; [reflexivity|]. split; [by unfold lenN; rewrite fmap_length|]. split; [eassumption|]. intros x I. left. by exists l.
  - match goal with X : wait_result _ _ _ _ = Some _ |- _ => destruct (wait_peers _ _ _ _ _ _ X) as (l & -> & L & Nd & Y) end.
    match goal with X : if _ then _ else _ |- _ => cbn [receives] in X; destruct X as (n & n' & r & Re & Wr) end. exists l, n, n', r. split; [done|]. split; [done|]. split; [done|].
    intros x I. destruct (Y _ I) as [A|(e & I2 & A)].
    + left. destruct r; cbn in Wr; try (injection Wr as <-; by rewrite lookup_empty in A). destruct (lenN l0 =? k); [done|]. injection Wr as <-. exists l0. split; [done|].
      apply elem_of_list_to_map_2 in A. destruct x. by apply elem_of_list_In, in_rev, elem_of_list_In in A.
    + right. match goal with X : heard _ _ = Some _ |- _ => destruct (during _ _ _ _ _ _ _ _ _ _ e R eq_refl C X) as (a1 & a2 & -> & C1) end; [apply elem_of_app; by left|].
      exists a1, a2, e. by split.
Qed.
End Client.

(** ** The machine of FullModel.v *)
Section Full.
Context (H : header -> N) (scf : SyncModel.sconf) (P : CbfModel.params) (kcf : kconf) (acf : aconf) (ping_timeout : N).
Context (env : nat -> nenv) (wenv_of : nat -> wenv) (magic : N) (hook : sockaddr -> wmsg -> bool).
Notation fullstep := (full_step H scf P kcf acf ping_timeout env wenv_of magic hook).
Notation fullrun := (full_run H scf P kcf acf ping_timeout env wenv_of magic hook).
Lemma machine_full os s : machine fullstep os s = fullrun os s.
Proof. revert s. induction os as [|o os IH]; intros s; cbn [machine full_run]; [done|]. destruct (fullstep o s) as [[s1 x]|]; [|done]. cbn [mbind_M]. by rewrite IH. Qed.
Lemma queued_none {Msg Ev} l : Forall (fun i : fitem Msg Ev => match i with FEmitted _ _ => False | _ => True end) (fqueued l).
Proof. apply Forall_forall. intros i I. apply elem_of_list_In, in_map_iff in I as (p & <- & _). exact I. Qed.
Lemma full_only_next : only_next fullstep.
Proof.
  intros o n n' x. unfold full_step, fstep.
  assert (Fi : forall f, ('(st, l) <-- f (f_state n) ;; Val (Fsm st (queue l (f_box n)), fqueued l)) = Val (n', x) -> Forall (fun i => match i with FEmitted _ _ => False | _ => True end) x).
  { intros f. destruct (f (f_state n)) as [[st l]|]; [|done]. cbn [mbind_M]. intros [= <- <-]. apply queued_none. }
  destruct o; cbn [wop_fop]; try apply Fi.
  - unfold received_fop. destruct (negb (mg =? magic)); [apply Fi|]. destruct (negb (connected_at _ a)); [apply Fi|]. destruct (negb (hook a m)); [apply Fi|].
    destruct (event _ _ n) as [[s' l]|]; [|done]. cbn [mbind_M]. intros [= <- <-]. apply Forall_app. split; [apply queued_none|by repeat constructor].
  - exact (Fi (fun s => '(s, x, _) <-- exec H scf P kcf acf env wenv_of c s ;; Val (s, x))).
  - destruct (next _ _ n) as [[[s' l] y]|]; [|done]. cbn [mbind_M]. intros [= <- <-]. exists (fqueued l). split; [apply queued_none|]. destruct y as [[c y]|]; [right; by exists c, y|left; apply app_nil_r].
Qed.
End Full.
