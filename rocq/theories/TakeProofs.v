(** Which headers a node takes. *)
From Verif Require Import Base PowModel BlockModel BlockSpec FeeModel AddrModel DispModel DispSpec LoadModel NodeModel NodeSpec NodeProofs NodeTold NodeLogSpec NodeLog NodeSeen TakeSpec.
From Verif Require SyncModel SyncSpec SyncEvents SyncMain CbfModel CbfSpec InvModel.
Open Scope N_scope.

Lemma announced_app {M E} (l k : list (fitem M E)) : announced (l ++ k) = announced l ++ announced k.
Proof. apply flat_map_app. Qed.
Section Take.
Context (H : header -> N) (scf : SyncModel.sconf) (P : CbfModel.params) (sock : N -> sockaddr) (env : nat -> nenv) (magic : N).
Notation step := (node_step H scf P sock env magic).
Notation nexec := (NodeTold.nexec H scf P).
Notation step_calls := (NodeTold.step_calls H scf P env).
Notation explained := (NodeSeen.explained H scf P sock env magic).
Notation tells := (NodeSeen.tells H scf P sock env magic).

(** ** The call of the sync manager in a step *)
Definition sync_input (o : nop) (n : node) : option SyncModel.sync_op :=
  match o with
  | NInitialize => Some SyncModel.SInitialize
  | NTimer => Some SyncModel.STimer
  | NImport hds => Some (SyncModel.SImport (with_choices env n hds))
  | _ => None
  end.
Definition sync_of (o : nop) (es : list nev) (n : node) (op : option SyncModel.sync_op) : Prop :=
  match es with
  | e :: _ => exists n1, op = sync_event env e n1
  | [] => op = sync_input o n
  end.
Lemma sync_shape o es n cs : step_calls o es n cs -> exists op, sync_of o es n op /\ one_sync op cs.
Proof.
  assert (Ev : forall e, event_calls H scf P env e n cs -> exists op, sync_of o [e] n op /\ one_sync op cs).
  { intros e E. apply (event_shape H scf P env) in E as (_ & _ & n2 & O). exists (sync_event env e n2). split; [by exists n2|done]. }
  destruct o; cbn [NodeTold.step_calls].
  - intros (-> & a & b & n1 & -> & _ & Pa & Pb). apply part_sync in Pa as (_ & A2 & _). apply part_cbf in Pb as (_ & B2 & _).
    eexists. split; [reflexivity|]. exact (one_sync_app _ _ _ _ A2 B2 (or_intror eq_refl)).
  - intros [-> ->]. exists None. done.
  - intros [-> E]. by apply Ev.
  - intros (-> & a & b & d & n1 & n2 & -> & _ & _ & Pa & Pb & Pd). apply part_inv in Pa as (_ & A2 & _). apply part_sync in Pb as (_ & B2 & _). apply part_cbf in Pd as (_ & D2 & _).
    eexists. split; [reflexivity|]. pose proof (one_sync_app _ _ _ _ B2 D2 (or_intror eq_refl)) as Q. exact (one_sync_app _ _ _ _ A2 Q (or_introl eq_refl)).
  - intros (-> & Pa). apply part_sync in Pa as (_ & A2 & _). eexists. split; [reflexivity|]. exact A2.
  - intros (-> & Pa). apply part_cbf in Pa as (_ & A2 & _). by exists None.
  - intros (-> & Pa). apply part_cbf in Pa as (_ & A2 & _). by exists None.
  - intros (-> & Pa). apply part_cbf in Pa as (_ & A2 & _). by exists None.
  - intros (-> & Pa). apply part_inv in Pa as (_ & A2 & _). by exists None.
  - intros (-> & a & b & n1 & -> & _ & Pa & Pb). apply part_cbf in Pa as (_ & A2 & _). apply part_inv in Pb as (_ & B2 & _).
    exists None. split; [done|]. exact (one_sync_app _ _ _ _ A2 B2 (or_introl eq_refl)).
  - intros [[-> ->]|(e & -> & E)]; [by exists None|by apply Ev].
Qed.
Lemma x_sync e s cs s1 : explained e s cs s1 -> exists op, sync_of (e_op e) (announced (e_items e)) (f_state s) op /\ one_sync op cs.
Proof. intros X. exact (sync_shape _ _ _ _ (x_calls _ _ _ _ _ _ _ _ _ _ X)). Qed.

(** ** What is written and reported *)
Lemma in_sync cs oe z : KSync oe z ∈ cs -> oe ∈ sync_calls cs /\ z ∈ sync_outs cs.
Proof. intros I. unfold sync_calls, sync_outs. rewrite !elem_of_list_omap. split; eexists; (split; [exact I|done]). Qed.
Lemma sync_in cs z : z ∈ sync_outs cs -> exists oe, KSync oe z ∈ cs.
Proof. unfold sync_outs. rewrite elem_of_list_omap. intros (k & I & E). destruct k; try done. injection E as ->. by eexists. Qed.
Lemma written_getheaders e s cs s1 w l : explained e s cs s1 ->
  (w, MGetHeaders l) ∈ written (e_items e) <-> exists z a, z ∈ sync_outs cs /\ w = sock a /\ SyncModel.SoGetHeaders a l ∈ z.
Proof.
  intros X. rewrite written_in. split.
  - intros (c & I). apply (queued_call _ _ _ _ _ _ _ _ _ _ _ _ X) in I as [I|(k & Hk & I)].
    { destruct (e_op e) as [|[]| | | | | | | | |]; cbn in I; try (by apply elem_of_nil in I); by apply elem_of_list_singleton in I. }
    destruct k as [oe z|i z|i z]; cbn [call_out] in I; apply elem_of_list_In, in_flat_map in I as (y & Hy & I).
    + apply in_sync in Hk as [_ Hk]. destruct y; cbn in I; try done; destruct I as [I|[]]; try discriminate I. injection I as <- <- <-. exists z, addr. apply elem_of_list_In in Hy. done.
    + exfalso. destruct y; cbn in I; try done; destruct I as [I|[]]; discriminate I.
    + exfalso. destruct y; cbn in I; try done; destruct I as [I|[]]; discriminate I.
  - intros (z & a & Hz & -> & I). apply sync_in in Hz as (oe & Hk). exists CSync. apply (queued_call _ _ _ _ _ _ _ _ _ _ _ _ X). right. exists (KSync oe z). split; [done|]. cbn [call_out].
    apply elem_of_list_In, in_flat_map. exists (SyncModel.SoGetHeaders a l). split; [by apply elem_of_list_In|]. by left.
Qed.
Lemma asks_written e s cs s1 w : explained e s cs s1 ->
  existsb (asks_headers w) (written (e_items e)) = true <-> exists z a, z ∈ sync_outs cs /\ w = sock a /\ SyncSpec.asks a z <> [].
Proof.
  intros X. rewrite existsb_exists. split.
  - intros ([w' m] & I & A). unfold asks_headers in A. cbn [fst snd] in A. destruct m; try done. apply bool_decide_eq_true in A as ->. apply elem_of_list_In in I.
    apply (written_getheaders _ _ _ _ _ _ X) in I as (z & a & Hz & -> & I). exists z, a. split; [done|]. split; [done|]. intros Q.
    assert (l ∈ SyncSpec.asks a z) as J by (apply elem_of_list_omap; exists (SyncModel.SoGetHeaders a l); split; [exact I|]; by rewrite N.eqb_refl). rewrite Q in J. by apply elem_of_nil in J.
  - intros (z & a & Hz & -> & A). destruct (SyncSpec.asks a z) as [|l ls] eqn:Ea; [done|]. assert (l ∈ SyncSpec.asks a z) as J by (rewrite Ea; by left).
    apply elem_of_list_omap in J as (y & Hy & E). destruct y; try done. destruct (N.eqb_spec addr a) as [->|]; [|done]. injection E as ->.
    exists (sock a, MGetHeaders l). split; [|by apply bool_decide_eq_true]. apply elem_of_list_In, (written_getheaders _ _ _ _ _ _ X). by exists z, a.
Qed.

(** ** Folds over the log *)
Lemma joined_told a e s cs s1 v : explained e s cs s1 -> SyncSpec.joined a (sync_calls cs) v = log_joined a v e.
Proof.
  intros X. destruct (x_sync _ _ _ _ X) as (op & So & O). unfold log_joined. destruct (x_events _ _ _ _ _ _ _ _ _ _ X) as [Ea|(ev & Ea)]; rewrite Ea in *; cbn [sync_of foldl] in *.
  - subst op. destruct (e_op e); cbn [sync_input one_sync] in O; try (by destruct O as [-> _]); by destruct O as (i & z & -> & _).
  - destruct So as (n1 & ->). destruct ev as [a' h ob nw fl re wt pe|a'|a' m| | |]; cbn [sync_event one_sync join_event] in *; try (by destruct O as [-> _]).
    + destruct O as (i & z & -> & _). done.
    + destruct O as (i & z & -> & _). done.
    + destruct m; cbn [one_sync] in O; try (by destruct O as [-> _]); by destruct O as (i & z & -> & _).
Qed.
Lemma joined_app a l k : forall v, SyncSpec.joined a (l ++ k) v = SyncSpec.joined a k (SyncSpec.joined a l v).
Proof. induction l as [|o l IH]; intros v; cbn [app SyncSpec.joined]; [done|apply IH]. Qed.
Lemma tells_joined a L s css s' : tells L s css s' -> forall v, SyncSpec.joined a (sync_calls (concat css)) v = foldl (log_joined a) v L.
Proof.
  induction 1 as [|e L s cs s1 css s' X T IH]; intros v; cbn [concat foldl]; [done|]. rewrite sync_calls_app, joined_app, IH. by rewrite (joined_told _ _ _ _ _ _ X).
Qed.

Lemma outstanding_app T a l : forall k x y v, length l = length x ->
  SyncSpec.outstanding T a (l ++ k) (x ++ y) v = SyncSpec.outstanding T a k y (SyncSpec.outstanding T a l x v).
Proof. induction l as [|o l IH]; intros k [|z x] y v E; try done. cbn [app SyncSpec.outstanding]. apply IH. by injection E. Qed.
(** One step: a request that is outstanding has been seen; *)
Lemma asking_told T a e s cs s1 v b : explained e s cs s1 -> (v <> None -> b = true) ->
  SyncSpec.outstanding T a (sync_calls cs) (sync_outs cs) v <> None -> log_asking false a (sock a) b e = true.
Proof.
  intros X V. destruct (x_sync _ _ _ _ X) as (op & So & O). unfold log_asking. destruct (existsb (asks_headers (sock a)) (written (e_items e))) eqn:W; [done|].
  assert (Na : forall z, z ∈ sync_outs cs -> SyncSpec.asks a z = []).
  { intros z Hz. destruct (SyncSpec.asks a z) eqn:Ea; [done|]. enough (true = false) by done. rewrite <- W. symmetry. apply (asks_written _ _ _ _ _ X). exists z, a. by rewrite Ea. }
  cbn [andb]. rewrite orb_false_r. destruct op as [op|]; cbn [one_sync] in O.
  - destruct O as (ev & z & Ec & Eo). rewrite Ec, Eo in *. cbn [SyncSpec.outstanding]. unfold SyncSpec.outstanding_step. rewrite (Na z) by (by left).
    unfold SyncSpec.ended. cbn [fst snd]. destruct (x_events _ _ _ _ _ _ _ _ _ _ X) as [Ea|(w & Ea)]; rewrite Ea in *; cbn [sync_of existsb] in *; rewrite ?orb_false_r.
    + destruct (e_op e); cbn [sync_input] in So; try done; injection So as ->; try done. destruct v as [t|]; [|done]. intros _. by apply V.
    + destruct So as (n1 & So). destruct w as [? ? ? ? ? ? ? ?|a'|a' m| | |]; cbn [sync_event answers] in *; try done; [injection So as ->; exact V|injection So as ->; by destruct (a' =? a)|].
      destruct m; cbn in So; try done; injection So as ->; try exact V. by destruct (a' =? a).
  - destruct O as [Ec Eo]. rewrite Ec, Eo. cbn [SyncSpec.outstanding]. destruct (x_events _ _ _ _ _ _ _ _ _ _ X) as [Ea|(w & Ea)]; rewrite Ea in *; cbn [sync_of existsb] in *; [exact V|].
    destruct So as (n1 & So). destruct w as [? ? ? ? ? ? ? ?|a'|a' m| | |]; cbn [sync_event answers] in *; try done. by destruct m.
Qed.
(** one that was seen, with no timer since, is outstanding. *)
Lemma asked_told T a e s cs s1 v b : explained e s cs s1 -> (forall z a', z ∈ sync_outs cs -> SyncSpec.asks a' z <> [] -> sock a' = sock a -> a' = a) ->
  (b = true -> v <> None) -> log_asking true a (sock a) b e = true -> SyncSpec.outstanding T a (sync_calls cs) (sync_outs cs) v <> None.
Proof.
  intros X J V. destruct (x_sync _ _ _ _ X) as (op & So & O). unfold log_asking. destruct (existsb (asks_headers (sock a)) (written (e_items e))) eqn:W.
  - intros _. apply (asks_written _ _ _ _ _ X) in W as (z & a' & Hz & Es & A). pose proof (J _ _ Hz A (eq_sym Es)) as ->. destruct op as [op|]; cbn [one_sync] in O.
    + destruct O as (ev & z' & Ec & Eo). rewrite Ec, Eo in *. apply elem_of_list_singleton in Hz as ->. cbn [SyncSpec.outstanding]. unfold SyncSpec.outstanding_step. by destruct (SyncSpec.asks a z').
    + destruct O as [_ Eo]. rewrite Eo in Hz. by apply elem_of_nil in Hz.
  - assert (K : existsb (answers a) (announced (e_items e)) || true && fires (e_op e) = false -> v <> None -> SyncSpec.outstanding T a (sync_calls cs) (sync_outs cs) v <> None).
    2:{ destruct (existsb (answers a) (announced (e_items e)) || true && fires (e_op e)); [done|]. intros B. apply K; [done|by apply V]. }
    cbn [andb]. intros [K1 K2]%orb_false_iff Nv. destruct op as [op|]; cbn [one_sync] in O.
    + destruct O as (ev & z & Ec & Eo). rewrite Ec, Eo in *. cbn [SyncSpec.outstanding]. unfold SyncSpec.outstanding_step. destruct (SyncSpec.asks a z); [|done].
      unfold SyncSpec.ended. cbn [fst snd]. destruct (x_events _ _ _ _ _ _ _ _ _ _ X) as [Ea|(w & Ea)]; rewrite Ea in *; cbn [sync_of existsb] in *; rewrite ?orb_false_r in *.
      * destruct (e_op e); cbn [sync_input] in So; try done; injection So as ->; done.
      * destruct So as (n1 & So). destruct w as [? ? ? ? ? ? ? ?|a'|a' m| | |]; cbn [sync_event answers] in *; try done; [by injection So as ->|injection So as ->; by rewrite K1|].
        destruct m; cbn in So; try done; injection So as ->; try done. by rewrite K1.
    + destruct O as [Ec Eo]. by rewrite Ec, Eo.
Qed.
Lemma tells_asking T a L s css s' : tells L s css s' -> forall v b, (v <> None -> b = true) ->
  SyncSpec.outstanding T a (sync_calls (concat css)) (sync_outs (concat css)) v <> None -> foldl (log_asking false a (sock a)) b L = true.
Proof.
  induction 1 as [|e L s cs s1 css s' X Ts IH]; intros v b V; cbn [concat foldl]; [exact V|]. rewrite sync_calls_app, sync_outs_app, outstanding_app by apply sync_lengths.
  apply IH. by apply (asking_told _ _ _ _ _ _ _ _ X).
Qed.
Lemma tells_asked T a L s css s' : tells L s css s' -> (forall z a', z ∈ sync_outs (concat css) -> SyncSpec.asks a' z <> [] -> sock a' = sock a -> a' = a) -> forall v b, (b = true -> v <> None) ->
  foldl (log_asking true a (sock a)) b L = true -> SyncSpec.outstanding T a (sync_calls (concat css)) (sync_outs (concat css)) v <> None.
Proof.
  induction 1 as [|e L s cs s1 css s' X Ts IH]; intros J v b V; cbn [concat foldl]; [exact V|]. rewrite sync_calls_app, sync_outs_app, outstanding_app by apply sync_lengths.
  cbn [concat] in J. rewrite sync_outs_app in J. apply IH; [intros z a' Hz; apply J; apply elem_of_app; by right|]. refine (asked_told _ _ _ _ _ _ _ _ X _ V). intros z a' Hz. apply J. apply elem_of_app. by left.
Qed.
(** ** Reports *)
Definition tells_chain (p : comp * io nmsg nev) : option SyncModel.sout := match p.2 with IoEvent e => chain_report e | _ => None end.
Lemma flat_none {A} (f : A -> list (comp * io nmsg nev)) l : (forall y, omap tells_chain (f y) = []) -> omap tells_chain (flat_map f l) = [].
Proof. intros F. induction l as [|y l IH]; [done|]. cbn [flat_map]. by rewrite omap_app, F, IH. Qed.
Lemma outs_reported cs : omap tells_chain (outs sock cs) = concat (SyncSpec.chain_events <$> sync_outs cs).
Proof.
  induction cs as [|k cs IH]; [done|]. unfold outs. cbn [flat_map]. rewrite omap_app. fold (outs sock cs). rewrite IH. clear IH. destruct k as [oe z|i z|i z]; cbn [call_out].
  - change (sync_outs (KSync oe z :: cs)) with (z :: sync_outs cs). cbn [fmap list_fmap concat]. f_equal.
    induction z as [|y z IH]; [done|]. cbn [flat_map]. rewrite omap_app, IH. by destruct y.
  - rewrite flat_none; [done|]. by intros [].
  - rewrite flat_none; [done|]. by intros [].
Qed.
Lemma reported_app x y : reported (x ++ y) = reported x ++ reported y.
Proof. unfold reported, queued_events. by rewrite !omap_app. Qed.
Lemma reported_queued l : reported (fqueued l) = omap tells_chain l.
Proof.
  unfold reported, queued_events, fqueued. induction l as [|[c z] l IH]; [done|]. cbn [map omap list_omap fst snd]. unfold tells_chain at 1. cbn [snd].
  destruct z; try exact IH. cbn [omap list_omap]. destruct (chain_report e); [f_equal|]; exact IH.
Qed.
Lemma reported_told e s cs s1 : explained e s cs s1 -> reported (e_items e) = concat (SyncSpec.chain_events <$> sync_outs cs).
Proof.
  intros X. destruct (x_items _ _ _ _ _ _ _ _ _ _ X) as (y & -> & Q). rewrite reported_app, reported_queued, omap_app, outs_reported.
  replace (omap tells_chain (peer_outs (e_op e))) with (@nil SyncModel.sout) by (by destruct (e_op e) as [|[]| | | | | | | | |]). cbn [app].
  replace (reported y) with (@nil SyncModel.sout); [apply app_nil_r|]. unfold reported, queued_events. symmetry.
  induction y as [|i y IH]; [done|]. destruct i as [c z| |]; [exfalso; apply (Q c z); by left|apply IH; intros c1 z1 I; apply (Q c1 z1); by right..].
Qed.

(** ** Who is asked has completed a handshake *)
Lemma run_asks os : forall s c s' c' xs z a, SyncSpec.sync_run H scf os (s, c) = Val (s', c', xs) -> z ∈ xs -> SyncSpec.asks a z <> [] ->
  is_Some (SyncModel.sy_peers s !! a) \/ exists h nw fl ob e, (SyncModel.SNegotiated a h nw fl ob, e) ∈ os.
Proof.
  induction os as [|oe os IH]; intros s c s' c' xs z a R I A; cbn [SyncSpec.sync_run] in R; [injection R as <- <- <-; by apply elem_of_nil in I|].
  destruct (SyncModel.sync_step H scf oe (s, c)) as [[[s1 c1] x]|] eqn:E; [|done]. cbn [mbind_M] in R. destruct (SyncSpec.sync_run H scf os (s1, c1)) as [[[s2 c2] ys]|] eqn:R1; [|done].
  cbn [mbind_M] in R. injection R as <- <- <-. destruct (SyncMain.step_joined H scf oe _ _ _ _ _ a E) as [J1 J2].
  assert (G : is_Some (SyncModel.sy_peers s1 !! a) -> is_Some (SyncModel.sy_peers s !! a) \/ exists h nw fl ob e, (SyncModel.SNegotiated a h nw fl ob, e) ∈ oe :: os).
  { intros J. rewrite bool_decide_eq_true_2 in J1 by exact J. destruct oe as [o e]. cbn [fst] in J1. unfold SyncSpec.joined_step in J1.
    destruct o; try (left; symmetry in J1; by apply bool_decide_eq_true in J1).
    - destruct (N.eqb_spec addr a) as [->|]; [|left; symmetry in J1; by apply bool_decide_eq_true in J1]. right. do 5 eexists. by left.
    - destruct (addr =? a); [done|]. left. symmetry in J1. by apply bool_decide_eq_true in J1. }
  apply elem_of_cons in I as [I|I]; [subst z; by apply G, J2|]. destruct (IH _ _ _ _ _ _ _ R1 I A) as [J|(h & nw & fl & ob & e & J)]; [by apply G|]. right. exists h, nw, fl, ob, e. by right.
Qed.
Lemma tells_negotiated L s css s' a h nw fl ob e : tells L s css s' -> (SyncModel.SNegotiated a h nw fl ob, e) ∈ sync_calls (concat css) ->
  exists re wt pe, EvNegotiated a h ob nw fl re wt pe ∈ events L.
Proof.
  unfold events. induction 1 as [|en L s cs s1 css s' X T IH]; cbn [concat]; [intros I; by apply elem_of_nil in I|]. rewrite sync_calls_app, elem_of_app. intros [I|I].
  - destruct (x_sync _ _ _ _ X) as (op & So & O). destruct op as [op|]; [|destruct O as [O _]; rewrite O in I; by apply elem_of_nil in I].
    destruct O as (ev & z & O & _). rewrite O in I. apply elem_of_list_singleton in I. injection I as <- <-.
    destruct (x_events _ _ _ _ _ _ _ _ _ _ X) as [Ea|(w & Ea)]; rewrite Ea in So; cbn [sync_of] in So; [by destruct (e_op en)|]. destruct So as (n1 & So).
    destruct w as [a' h' ob' nw' fl' re wt pe| |? m| | |]; cbn in So; try done; [|by destruct m]. injection So as -> -> -> -> ->. exists re, wt, pe. cbn [fmap list_fmap concat]. rewrite announced_app, Ea. by left.
  - destruct (IH I) as (re & wt & pe & J). exists re, wt, pe. cbn [fmap list_fmap concat]. rewrite announced_app. apply elem_of_app. by right.
Qed.

(** ** The step in which headers are heard *)
Section Start.
Context (c0 : cache) (f0 : CbfModel.cbf) (Fe : fair_node env).
Notation start := (node0 c0 f0).
Notation chain s := (active (n_cache (f_state s))).

Lemma calls_fair css L s : tells L start css s -> SyncSpec.fair_envs (sync_calls (concat css)).
Proof.
  intros T. assert (G : forall L s css s', tells L s css s' -> SyncSpec.fair_envs (sync_calls (concat css))); [|by eapply G].
  clear -Fe. induction 1 as [|e L s cs s1 css s' X T IH]; cbn [concat]; [constructor|]. rewrite sync_calls_app. apply Forall_app. split; [|exact IH].
  apply Forall_forall. intros oe I. apply sync_call_in in I as (z & I). destruct (step_origin _ _ _ _ _ _ _ _ _ (x_calls _ _ _ _ _ _ _ _ _ _ X) I) as [(n & ->) _]. apply Fe.
Qed.
Lemma node_headers os s L o s' x a hds : node_log H step env os start = Val (s, L) -> step o s = Val (s', x) -> announced x = [EvMessage a (MHeaders hds)] ->
  (forall k, contains (n_cache (f_state s)) k = true <-> k ∈ H <$> chain s) ->
  ((forall a' h ob nw fl re wt pe, EvNegotiated a' h ob nw fl re wt pe ∈ events L -> sock a' = sock a -> a' = a) -> takes H true a (sock a) L hds (chain s) ->
    exists n t r, import_blocks H (n_cache (f_state s)) (with_choices env n hds) t = Val (n_cache (f_state s'), r) /\ reported x = SyncSpec.events_of r) /\
  (~ takes H false a (sock a) L hds (chain s) -> n_cache (f_state s') = n_cache (f_state s) /\ reported x = []).
Proof.
  intros R E A K. destruct (log_tells _ _ _ _ _ _ _ _ _ _ R) as (css & T & Eo). destruct (step_explained _ _ _ _ _ _ _ _ _ _ E) as (cs & X).
  destruct (x_sync _ _ _ _ X) as (op & So & O). pose proof (reported_told _ _ _ _ X) as Rp. cbn [log_step e_op e_items] in So, Rp. rewrite A in So. cbn [sync_of sync_event] in So. destruct So as (n1 & ->).
  destruct O as (ev & z & Oc & Oo). rewrite Oo in Rp. cbn [fmap list_fmap concat] in Rp. rewrite app_nil_r in Rp. rewrite Rp.
  pose proof (nexec_sync _ _ _ _ _ _ (x_exec _ _ _ _ _ _ _ _ _ _ X)) as Es. rewrite Oc, Oo in Es. cbn [SyncSpec.sync_run] in Es.
  destruct (SyncModel.sync_step H scf _ _) as [[[s1 c1] x1]|] eqn:E1; [|done]. cbn [mbind_M] in Es. injection Es as -> -> ->.
  pose proof (nexec_sync _ _ _ _ _ _ (tells_exec _ _ _ _ _ _ _ _ _ _ T)) as Rs. cbn [node0 f_state n_sync n_cache] in Rs.
  destruct (SyncEvents.headers_events H scf _ c0 _ _ _ a _ _ _ _ _ (calls_fair _ _ _ T) Rs E1 K) as [Tk Ig].
  assert (Eh : (with_choices env n1 hds).*1 = hds) by apply (with_choices_fst env).
  assert (El : lenN (with_choices env n1 hds) = lenN hds) by (rewrite <- Eh at 2; unfold lenN; by rewrite fmap_length).
  assert (Ea : forall hd, last hds = Some hd <-> exists c, last (with_choices env n1 hds) = Some (hd, c)).
  { intros hd. rewrite <- Eh at 1. rewrite fmap_last. destruct (last (with_choices env n1 hds)) as [[hd' c]|]; cbn; [|naive_solver]. split; [intros [= ->]; by exists c|intros (c' & [= -> _]); done]. }
  pose proof (tells_joined a _ _ _ _ T false) as Ej. split.
  - intros J (T1 & T2 & T3 & hd & T4 & T5). destruct Tk as (r & Ib & Ev).
    + split; [rewrite Ej; exact T1|]. split; [by rewrite El|]. split.
      * rewrite El. destruct T3 as [T3|T3]; [left|by right]. refine (tells_asked _ a _ _ _ _ T _ None false _ T3); [|done]. intros z0 a' Hz Az Es.
        destruct (run_asks _ _ _ _ _ _ _ _ Rs Hz Az) as [[p Q]|(h & nw & fl & ob & e & Q)]; [cbn in Q; by rewrite lookup_empty in Q|].
        destruct (tells_negotiated _ _ _ _ _ _ _ _ _ _ T Q) as (re & wt & pe & I). exact (J _ _ _ _ _ _ _ _ I Es).
      * apply Ea in T4 as (c & T4). exists (hd, c). split; [exact T4|exact T5].
    + exists n1, (SyncModel.se_block_time ev), r. done.
  - intros N0. apply Ig. intros (T1 & T2 & T3 & [hd c] & T4 & T5). apply N0. split; [unfold joined; by rewrite <- Ej|]. split; [by rewrite <- El|]. split.
    + rewrite El in T3. destruct T3 as [T3|T3]; [left|by right]. refine (tells_asking _ a _ _ _ _ T None false _ T3). done.
    + exists hd. split; [apply Ea; by exists c|exact T5].
Qed.
(** Otherwise only the user changes the chain. *)
Lemma node_quiet o s s' x : step o s = Val (s', x) -> (forall a hds, announced x <> [EvMessage a (MHeaders hds)]) -> (forall hds, o <> NImport hds) ->
  n_cache (f_state s') = n_cache (f_state s) /\ reported x = [].
Proof.
  intros E A No. destruct (step_explained _ _ _ _ _ _ _ _ _ _ E) as (cs & X). destruct (x_sync _ _ _ _ X) as (op & So & O). pose proof (reported_told _ _ _ _ X) as Rp.
  pose proof (x_events _ _ _ _ _ _ _ _ _ _ X) as Ev. cbn [log_step e_op e_items] in So, Rp, Ev. rewrite Rp.
  pose proof (nexec_sync _ _ _ _ _ _ (x_exec _ _ _ _ _ _ _ _ _ _ X)) as Es. destruct op as [op|]; cbn [one_sync] in O.
  2:{ destruct O as [Oc Oo]. rewrite Oc, Oo in *. cbn in Es. injection Es as _ <-. done. }
  destruct O as (ev & z & Oc & Oo). rewrite Oc, Oo in *. cbn [SyncSpec.sync_run] in Es. destruct (SyncModel.sync_step H scf _ _) as [[[s1 c1] x1]|] eqn:E1; [|done]. cbn [mbind_M] in Es. injection Es as -> -> ->.
  cbn [fmap list_fmap concat]. rewrite app_nil_r. refine (SyncEvents.other_events H scf _ _ _ _ _ _ _ E1). unfold SyncSpec.op_imports. cbn [fst].
  destruct Ev as [Ea|(w & Ea)]; rewrite Ea in *; cbn [sync_of] in So.
  - destruct o; cbn in So; try done; injection So as ->; try done. by destruct (No hds).
  - destruct So as (n1 & So). destruct w as [| |b m| | |]; cbn in So; try done; try (injection So as ->; done). destruct m; cbn in So; try done; try (injection So as ->; done). by destruct (A b hds).
Qed.
Lemma node_import hds s s' x : step (NImport hds) s = Val (s', x) ->
  let e := ne_sync (env (n_calls (f_state s))) in let hds' := with_choices env (f_state s) hds in
  exists r, import_blocks H (n_cache (f_state s)) hds' (SyncModel.se_block_time e) = Val (n_cache (f_state s'), r) /\ reported x = SyncSpec.events_of r.
Proof.
  intros E. destruct (step_explained _ _ _ _ _ _ _ _ _ _ E) as (cs & X). pose proof (reported_told _ _ _ _ X) as Rp. cbn [log_step e_op e_items] in Rp. rewrite Rp.
  pose proof (x_calls _ _ _ _ _ _ _ _ _ _ X) as C. cbn [log_step e_op e_items NodeTold.step_calls] in C. destruct C as [_ (z & ->)].
  pose proof (nexec_sync _ _ _ _ _ _ (x_exec _ _ _ _ _ _ _ _ _ _ X)) as Es. cbn in Es |- *. rewrite app_nil_r.
  destruct (SyncModel.sync_import H _ _ _ _) as [[[c1 x1] r]|] eqn:Im; [|done]. cbn in Es. injection Es as _ Ec Ez. exists r. rewrite <- Ec, <- Ez. exact (SyncEvents.import_events H _ _ _ _ _ _ _ Im).
Qed.
End Start.
End Take.
