(** Runs of the whole state machine as runs of the peer, address and ping
    managers. *)
From Verif Require Import Base PowModel UtilModel FeeModel BlockModel AddrModel AddrSpec AddrFacts PeerModel PeerSpec PeerProofs PeerMain PeerFacts PingModel
  DispModel DispSpec DispProofs LoadModel NodeModel FullModel FullSpec FullSim FullMgrSpec.
From Verif Require SyncModel CbfModel InvModel PingSpec.
Open Scope N_scope.

Notation wio := (io wmsg wev).
Notation boxed c l := (flat_map (fun p : comp * wio => if decide (p.1 = c) then [p.2] else []) l).

(** ** The draws of the peer manager *)
Section Draws.
Context (cf : kconf) (acf : aconf).
Definition sampled (am am' : amgr) : Prop :=
  exists aos axs, addr_run acf aos am = Val (am', axs) /\ fair_aenvs aos /\ omap (fun oe => of_addr oe.1) aos = [] /\
    Forall (fun oe => of_addr oe.1 = None) aos /\ flat_map (fun x => flat_map addr_io x) axs = [].
Lemma addr_run_app os : forall os' s, addr_run acf (os ++ os') s =
  ('(s, xs) <-- addr_run acf os s ;; '(s, ys) <-- addr_run acf os' s ;; Val (s, xs ++ ys)).
Proof.
  induction os as [|o os IH]; intros os' s; cbn [app addr_run mbind_M].
  - by destruct (addr_run acf os' s) as [[? ?]|].
  - destruct (addr_step acf o s) as [[s1 x]|]; cbn [mbind_M]; [|done]. rewrite IH.
    destruct (addr_run acf os s1) as [[s2 xs]|]; cbn [mbind_M]; [|done]. by destruct (addr_run acf os' s2) as [[s3 ys]|].
Qed.
Lemma sampled_refl am : sampled am am.
Proof. exists [], []. repeat split; try done; apply Forall_nil; exact I. Qed.
Lemma sampled_trans a b c : sampled a b -> sampled b c -> sampled a c.
Proof.
  intros (o1 & x1 & R1 & F1 & N1 & G1 & E1) (o2 & x2 & R2 & F2 & N2 & G2 & E2). exists (o1 ++ o2), (x1 ++ x2).
  rewrite addr_run_app, R1. cbn [mbind_M]. rewrite R2. cbn [mbind_M]. split; [done|]. split; [by apply Forall_app|].
  split; [rewrite omap_app'; by rewrite N1, N2|]. split; [by apply Forall_app|]. by rewrite flat_map_app, E1, E2.
Qed.
Lemma sampled_one e sv am am' r : fair_aenv e -> addr_sample acf e sv am = Val (am', r) -> sampled am am'.
Proof.
  intros F E. exists [(ASample sv, e)], [[AoSample r]]. cbn [addr_run]. unfold addr_step. cbn [fst snd]. rewrite E. cbn [mbind_M].
  split; [done|]. split; [by apply Forall_cons_2; [|apply Forall_nil]|]. split; [done|]. split; [by apply Forall_cons_2; [|apply Forall_nil]|done].
Qed.
Lemma draw_sampled e n below am am' r : fair_kenv e -> draw cf acf e n below am = Val (am', r) -> sampled am am'.
Proof.
  intros [_ F]. unfold draw. destruct (addr_sample acf (ke_draw e (3 * n)) _ am) as [[a1 r1]|] eqn:E1; cbn [mbind_M]; [|done].
  pose proof (sampled_one _ _ _ _ _ (F _) E1) as S1. destruct r1 as [?|]; [by intros [= <- <-]|].
  destruct below; [|by intros [= <- <-]]. destruct (addr_sample acf (ke_draw e (3 * n + 1)) _ a1) as [[a2 r2]|] eqn:E2; cbn [mbind_M]; [|done].
  pose proof (sampled_one _ _ _ _ _ (F _) E2) as S2. destruct r2 as [?|].
  - intros [= <- <-]. by apply (sampled_trans _ a1).
  - intros E3. pose proof (sampled_one _ _ _ _ _ (F _) E3) as S3. apply (sampled_trans _ a1); [done|]. by apply (sampled_trans _ a2).
Qed.
Lemma loop_sampled e d below : fair_kenv e -> forall fuel n dn s am s' am' x, connect_loop cf acf fuel n e d below dn s am = Val (s', am', x) -> sampled am am'.
Proof.
  intros F. induction fuel as [|fuel IH]; intros n dn s am s' am' x; cbn [connect_loop]; [done|].
  destruct (_ <? d); [|intros [= <- <- <-]; apply sampled_refl].
  destruct (draw cf acf e n below am) as [[a1 r]|] eqn:D; cbn [mbind_M]; [|done]. apply draw_sampled in D; [|done].
  destruct r as [[a src]|]; [|by intros [= <- <- <-]]. destruct (socket_addr a) as [sa|]; [|intros E; apply (sampled_trans _ a1); [done|by eapply IH]].
  destruct (connect cf (ke_now e) sa s) as [[ok s1] y]. destruct ok; [|intros E; apply (sampled_trans _ a1); [done|by eapply IH]].
  destruct (connect_loop cf acf fuel _ e d below _ s1 a1) as [[[s2 a2] z]|] eqn:L; cbn [mbind_M]; [|done]. intros [= <- <- <-].
  apply (sampled_trans _ a1); [done|by eapply IH].
Qed.
Lemma maintain_sampled e s am s' am' x : fair_kenv e -> maintain_connections cf acf e s am = Val (s', am', x) -> sampled am am'.
Proof.
  intros F. unfold maintain_connections. destruct (kc_persistent cf); [|intros [= <- <- <-]; apply sampled_refl].
  destruct (delta cf s); cbn [mbind_M]; [|done]. by apply loop_sampled.
Qed.
Lemma step_sampled o e s am s' am' x : fair_kenv e -> (forall o' ae, o <> KAddr o' ae) -> kstep cf acf (o, e) (s, am) = Val (s', am', x) -> sampled am am'.
Proof.
  intros F No. destruct o as [|a local l|a r|a m|a r| |a|o' ae]; cbn [kstep].
  - unfold PeerModel.initialize. destruct (connect_all cf (ke_now e) (kc_persistent cf) s) as [s1 y]. destruct (maintain_connections cf acf e s1 am) as [[[s2 a2] z]|] eqn:E; cbn [mbind_M]; [|done].
    intros [= <- <- <-]. by apply maintain_sampled in E.
  - intros [= _ <- _]. apply sampled_refl.
  - unfold peer_disconnected. destruct (bool_decide _).
    + destruct (persistent_disconnected _ _ _ _) as [[? ?]|]; cbn [mbind_M]; [|done]. intros [= _ <- _]. apply sampled_refl.
    + destruct (maintain_connections cf acf e _ am) as [[[s2 a2] z]|] eqn:E; cbn [mbind_M]; [|done]. intros [= _ <- _]. by apply maintain_sampled in E.
  - intros E. repeat case_match; simplify_eq; try apply sampled_refl.
    all: injection E as _ <- _; apply sampled_refl.
  - intros [= _ <- _]. apply sampled_refl.
  - unfold timer_expired. destruct (disconnect_all _ s) as [s1 y]. destruct (IDLE_TIMEOUT <=? _).
    + destruct (maintain_connections cf acf e s1 am) as [[[s2 a2] z]|] eqn:E; cbn [mbind_M]; [|done]. destruct (maintain_persistent _ _ _) as [s3 w].
      intros [= _ <- _]. by apply maintain_sampled in E.
    + cbn [mbind_M]. destruct (maintain_persistent _ _ _) as [s3 w]. intros [= _ <- _]. apply sampled_refl.
  - destruct (connect _ _ _ _) as [[? ?] ?]. intros [= _ <- _]. apply sampled_refl.
  - by destruct (No o' ae).
Qed.
End Draws.

Lemma unkey_key a : unkey (key a) = a.
Proof. unfold unkey, key. by rewrite decode_encode. Qed.
Lemma ping_run_app t os : forall os' s, PingSpec.ping_run t (os ++ os') s =
  let '(s1, xs) := PingSpec.ping_run t os s in let '(s2, ys) := PingSpec.ping_run t os' s1 in (s2, xs ++ ys).
Proof.
  induction os as [|o os IH]; intros os' s; cbn [app PingSpec.ping_run]; [by destruct (PingSpec.ping_run t os' s)|].
  destruct (ping_step t o s) as [s1 x]. rewrite IH. destruct (PingSpec.ping_run t os s1) as [s2 xs]. by destruct (PingSpec.ping_run t os' s2).
Qed.
Lemma krun_app kcf acf os : forall os' st, krun kcf acf (os ++ os') st =
  ('(st, t) <-- krun kcf acf os st ;; '(st, t') <-- krun kcf acf os' st ;; Val (st, t ++ t')).
Proof.
  induction os as [|[o e] os IH]; intros os' st; cbn [app krun mbind_M].
  - by destruct (krun kcf acf os' st) as [[? ?]|].
  - destruct (kstep kcf acf (o, e) st) as [[[s1 a1] x]|]; cbn [mbind_M]; [|done]. rewrite IH.
    destruct (krun kcf acf os (s1, a1)) as [[st1 t]|]; cbn [mbind_M]; [|done]. by destruct (krun kcf acf os' st1) as [[? ?]|].
Qed.

Section Did.
Context (H : header -> N) (scf : SyncModel.sconf) (P : CbfModel.params) (kcf : kconf) (acf : aconf) (ping_timeout : N).
Context (env : nat -> nenv) (wenv_of : nat -> wenv) (magic : N) (hook : sockaddr -> wmsg -> bool).
Notation wfun := (full -> M (full * list (comp * wio))).
Notation pdid := (peer_did kcf acf wenv_of).
Notation adid := (addr_did acf wenv_of).
Notation gdid := (ping_did ping_timeout wenv_of).
Definition did (cs : list mcall) (s s' : full) (l : list (comp * wio)) : Prop :=
  (w_calls s <= w_calls s')%nat /\ (exists tr, pdid cs s s' (boxed CPeer l) tr) /\ (exists aos, adid cs s s' (boxed CAddr l) aos) /\ (exists pos, gdid cs s s' (boxed CPing l) pos) /\
  Forall (fun p => plain p.2) l.
Definition does (cs : list mcall) (f : wfun) : Prop := forall s s' l, f s = Val (s', l) -> did cs s s' l.

Lemma read_wide w s1 s2 s1' s2' t : (w_calls s1' <= w_calls s1)%nat -> (w_calls s2 <= w_calls s2')%nat -> read w s1 s2 t -> read w s1' s2' t.
Proof. intros A B (n & L & E). exists n. split; [lia|done]. Qed.
Lemma read_addr_wide w s1 s2 s1' s2' t : (w_calls s1' <= w_calls s1)%nat -> (w_calls s2 <= w_calls s2')%nat -> read_addr w s1 s2 t -> read_addr w s1' s2' t.
Proof. intros A B (n & L & E). exists n. split; [lia|done]. Qed.

Lemma peer_did_app cs1 cs2 s1 s2 s3 x y t1 t2 : (w_calls s1 <= w_calls s2)%nat -> (w_calls s2 <= w_calls s3)%nat ->
  pdid cs1 s1 s2 x t1 -> pdid cs2 s2 s3 y t2 -> pdid (cs1 ++ cs2) s1 s3 (x ++ y) (t1 ++ t2).
Proof.
  intros L1 L2 ((k1 & R1 & F1) & C1 & T1 & ->) ((k2 & R2 & F2) & C2 & T2 & ->). split; [|split; [|split]].
  - exists (k1 ++ k2). rewrite krun_app, R1. cbn [mbind_M]. rewrite R2. split; [done|by apply Forall_app].
  - by rewrite fmap_app, omap_app', C1, C2.
  - apply Forall_app. split; [eapply Forall_impl; [exact T1|]|eapply Forall_impl; [exact T2|]]; intros t; apply read_wide; lia.
  - by rewrite flat_map_app, fmap_app.
Qed.
Lemma addr_did_app cs1 cs2 s1 s2 s3 x y t1 t2 : (w_calls s1 <= w_calls s2)%nat -> (w_calls s2 <= w_calls s3)%nat ->
  adid cs1 s1 s2 x t1 -> adid cs2 s2 s3 y t2 -> adid (cs1 ++ cs2) s1 s3 (x ++ y) (t1 ++ t2).
Proof.
  intros L1 L2 (k1 & R1 & F1 & C1 & T1 & ->) (k2 & R2 & F2 & C2 & T2 & ->). exists (k1 ++ k2). split; [|split; [|split; [|split]]].
  - rewrite addr_run_app, R1. cbn [mbind_M]. by rewrite R2.
  - by apply Forall_app.
  - by rewrite !omap_app', C1, C2.
  - apply Forall_app. split; [eapply Forall_impl; [exact T1|]|eapply Forall_impl; [exact T2|]]; intros t I J; (eapply read_addr_wide; [| |exact (I J)]); lia.
  - by rewrite flat_map_app, fmap_app.
Qed.
Lemma ping_did_app cs1 cs2 s1 s2 s3 x y t1 t2 : (w_calls s1 <= w_calls s2)%nat -> (w_calls s2 <= w_calls s3)%nat ->
  gdid cs1 s1 s2 x t1 -> gdid cs2 s2 s3 y t2 -> gdid (cs1 ++ cs2) s1 s3 (x ++ y) (t1 ++ t2).
Proof.
  intros L1 L2 (k1 & R1 & F1 & C1 & T1 & ->) (k2 & R2 & F2 & C2 & T2 & ->). exists (k1 ++ k2). split; [|split; [|split; [|split]]].
  - rewrite ping_run_app, R1. by rewrite R2.
  - by apply Forall_app.
  - by rewrite fmap_app, omap_app', C1, C2.
  - apply Forall_app. split; [eapply Forall_impl; [exact T1|]|eapply Forall_impl; [exact T2|]]; intros [] I; try exact I; (eapply read_wide; [| |exact I]); lia.
  - by rewrite flat_map_app, fmap_app.
Qed.
Lemma did_app cs1 cs2 s1 s2 s3 x y : did cs1 s1 s2 x -> did cs2 s2 s3 y -> did (cs1 ++ cs2) s1 s3 (x ++ y).
Proof.
  intros (L1 & (t1 & P1) & (a1 & A1) & (g1 & G1) & Z1) (L2 & (t2 & P2) & (a2 & A2) & (g2 & G2) & Z2). split; [lia|].
  rewrite !flat_map_app. split; [|split; [|split]]; [eexists; by eapply peer_did_app|eexists; by eapply addr_did_app|eexists; by eapply ping_did_app|by apply Forall_app].
Qed.
(** Nothing happened to these managers. *)
Lemma did_aside s s' l : w_peer s' = w_peer s -> w_addr s' = w_addr s -> w_ping s' = w_ping s -> w_calls s' = w_calls s ->
  boxed CPeer l = [] -> boxed CAddr l = [] -> boxed CPing l = [] -> Forall (fun p => plain p.2) l -> did [] s s' l.
Proof.
  intros Ep Ea Eg Ec B1 B2 B3 Z. unfold did. rewrite B1, B2, B3. split; [lia|]. split; [|split; [|split]].
  - exists []. split; [|split; [|split]]; [|done|by apply Forall_nil|done]. exists []. cbn [krun]. by rewrite Ep, Ea.
  - exists [], []. cbn [addr_run]. rewrite Ea. split; [done|]. split; [by apply Forall_nil|]. split; [done|]. split; [by apply Forall_nil|done].
  - exists [], []. cbn [PingSpec.ping_run]. rewrite Eg. split; [done|]. split; [by apply Forall_nil|]. split; [done|]. split; [by apply Forall_nil|done].
  - done.
Qed.
Lemma does_skip : does [] skip.
Proof. intros s s' l [= <- <-]. apply did_aside; try done; by apply Forall_nil. Qed.
Lemma does_emit e : (forall s, plain (IoEvent (e s))) -> does [] (emit e).
Proof. intros Pl s s' l [= <- <-]. apply did_aside; try done. apply Forall_singleton. exact (Pl s). Qed.
Lemma does_then cs1 cs2 f g : does cs1 f -> does cs2 g -> does (cs1 ++ cs2) (andthen f g).
Proof.
  intros F G s s' l. unfold andthen. destruct (f s) as [[s1 x]|] eqn:E1; cbn [mbind_M]; [|done].
  destruct (g s1) as [[s2 y]|] eqn:E2; cbn [mbind_M]; [|done]. intros [= <- <-]. apply (did_app _ _ _ s1); [by apply F|by apply G].
Qed.
Lemma inner_boxed c l : inner l -> node_comp c = false -> boxed c (map node_io l) = [].
Proof.
  intros I N. induction I as [|[c' x] l Hc I IH]; [done|]. cbn [map flat_map]. rewrite IH. cbn [node_io fst snd] in *.
  destruct (decide _) as [E|]; [|done]. cbn in E. congruence.
Qed.
Lemma does_node f : nodal f -> does [] (call_node f).
Proof.
  intros Nf s s' l. unfold call_node. destruct (f (w_node s)) as [[n x]|] eqn:E; cbn [mbind_M]; [|done]. intros [= <- <-].
  apply Nf in E. apply did_aside; try done; try (by apply inner_boxed). apply Forall_map, Forall_forall. intros [c y] _. by destruct y.
Qed.

Hypothesis Fw : fair_wenv wenv_of.
Hypothesis Fo : forall n l, we_order (wenv_of n) l ≡ₚ l.

Lemma boxed_peer c x : boxed c (flat_map peer_io x) = if decide (CPeer = c) then snd <$> flat_map peer_io x else [].
Proof.
  induction x as [|o x IH]; cbn [flat_map]; [by destruct (decide _)|]. rewrite flat_map_app, IH. rewrite fmap_app.
  destruct o; cbn [peer_io flat_map fst snd app fmap list_fmap]; by destruct (decide (CPeer = c)).
Qed.
Lemma boxed_addr c x : boxed c (flat_map addr_io x) = if decide (CAddr = c) then snd <$> flat_map addr_io x else [].
Proof.
  induction x as [|o x IH]; cbn [flat_map]; [by destruct (decide _)|]. rewrite flat_map_app, IH. rewrite fmap_app.
  destruct o; cbn [addr_io flat_map fst snd app fmap list_fmap]; by destruct (decide (CAddr = c)).
Qed.
Lemma boxed_ping c x : boxed c (flat_map ping_io x) = if decide (CPing = c) then snd <$> flat_map ping_io x else [].
Proof.
  induction x as [|o x IH]; cbn [flat_map]; [by destruct (decide _)|]. rewrite flat_map_app, IH. rewrite fmap_app.
  destruct o; cbn [ping_io flat_map fst snd app fmap list_fmap]; by destruct (decide (CPing = c)).
Qed.
Lemma plain_flat {A} (f : A -> list (comp * wio)) (l : list A) : (forall a, Forall (fun p => plain p.2) (f a)) -> Forall (fun p => plain p.2) (flat_map f l).
Proof. intros Pf. induction l as [|a l IH]; cbn [flat_map]; [by apply Forall_nil|]. by apply Forall_app. Qed.
Lemma plain_peer x : Forall (fun p => plain p.2) (flat_map peer_io x).
Proof. apply plain_flat. intros []; repeat constructor. Qed.
Lemma plain_addr x : Forall (fun p => plain p.2) (flat_map addr_io x).
Proof. apply plain_flat. intros []; repeat constructor. Qed.
Lemma plain_ping x : Forall (fun p => plain p.2) (flat_map ping_io x).
Proof. apply plain_flat. intros []; repeat constructor. Qed.
Lemma fair_at s : fair_kenv (kenv_at wenv_of s).
Proof. destruct (Fw (w_calls s)) as [[O D] _]. split; [exact O|exact D]. Qed.

Lemma does_peer o : (forall o' ae, o <> KAddr o' ae) -> does [ToPeer o] (call_peer kcf acf wenv_of o).
Proof.
  intros No s s' l. unfold call_peer. destruct (kstep kcf acf (o, kenv_at wenv_of s) (w_peer s, w_addr s)) as [[[p am] x]|] eqn:E; cbn [mbind_M]; [|done].
  intros [= <- <-]. split; [cbn; lia|]. rewrite !boxed_peer. cbn [decide decide_rel comp_eq_dec comp_rect]. split; [|split; [|split; [|apply plain_peer]]].
  - exists [(o, ke_now (we_peer (wenv_of (w_calls s))), x)]. split; [|split; [|split]].
    + exists [(o, kenv_at wenv_of s)]. cbn [krun w_peer w_addr]. rewrite E. cbn [mbind_M]. split; [done|]. apply Forall_singleton. split; [apply fair_at|].
      destruct o; try done. by destruct (No o e).
    + destruct o; try done. by destruct (No o e).
    + apply Forall_singleton. exists (w_calls s). cbn. split; [lia|done].
    + cbn [flat_map snd]. by rewrite app_nil_r.
  - apply step_sampled in E as (aos & axs & R & F & Nn & G & Z); [|apply fair_at|done]. exists aos, axs. split; [done|]. split; [done|]. split; [done|].
    split; [|by rewrite Z]. eapply Forall_impl; [exact G|]. intros oe Z' [? Y]. congruence.
  - exists [], []. split; [done|]. split; [by apply Forall_nil|]. split; [done|]. split; [by apply Forall_nil|done].
Qed.
Lemma does_addr o : is_Some (of_addr o) -> does [ToAddr o] (call_addr acf wenv_of o).
Proof.
  intros [m So] s s' l. unfold call_addr. destruct (addr_step acf (o, we_addr (wenv_of (w_calls s))) (w_addr s)) as [[am x]|] eqn:E; cbn [mbind_M]; [|done].
  intros [= <- <-]. assert (m = ToAddr o) as -> by (destruct o; cbn in So; congruence).
  split; [cbn; lia|]. rewrite !boxed_addr. cbn [decide decide_rel comp_eq_dec comp_rect]. split; [|split; [|split; [|apply plain_addr]]].
  - exists [(KAddr o (we_addr (wenv_of (w_calls s))), ke_now (we_peer (wenv_of (w_calls s))), [])]. split; [|split; [|split]].
    + exists [(KAddr o (we_addr (wenv_of (w_calls s))), kenv_at wenv_of s)]. cbn [krun kstep w_peer w_addr]. rewrite E. cbn [mbind_M]. split; [done|].
      apply Forall_singleton. split; [apply fair_at|]. apply Fw.
    + done.
    + apply Forall_singleton. exists (w_calls s). cbn. split; [lia|done].
    + done.
  - exists [(o, we_addr (wenv_of (w_calls s)))], [x]. cbn [addr_run w_addr]. rewrite E. cbn [mbind_M]. split; [done|]. split; [apply Forall_singleton, Fw|].
    split; [cbn; by rewrite So|]. split; [|cbn [flat_map]; by rewrite app_nil_r]. apply Forall_singleton. intros _. exists (w_calls s). cbn. split; [lia|done].
  - exists [], []. split; [done|]. split; [by apply Forall_nil|]. split; [done|]. split; [by apply Forall_nil|done].
Qed.
Lemma does_ping c (o : wenv -> ping_op) : (forall w, of_ping (o w) = ToPing c) ->
  (forall n, PingSpec.fair_order (o (wenv_of n))) ->
  (forall w, match o w with PingModel.PNegotiated t _ _ | PPong t _ _ | PTimer t _ _ => t = ke_now (we_peer w) | _ => True end) ->
  does [ToPing c] (call_ping ping_timeout wenv_of o).
Proof.
  intros Ec Fa Ti s s' l. unfold call_ping. destruct (ping_step ping_timeout (o (wenv_of (w_calls s))) (w_ping s)) as [p x] eqn:E.
  intros [= <- <-]. split; [cbn; lia|]. rewrite !boxed_ping. cbn [decide decide_rel comp_eq_dec comp_rect]. split; [|split; [|split; [|apply plain_ping]]].
  - exists []. split; [|split; [|split]]; [|done|by apply Forall_nil|done]. by exists [].
  - exists [], []. split; [done|]. split; [by apply Forall_nil|]. split; [done|]. split; [by apply Forall_nil|done].
  - exists [o (wenv_of (w_calls s))], [x]. cbn [PingSpec.ping_run w_ping]. rewrite E. split; [done|]. split; [apply Forall_singleton, Fa|].
    split; [cbn; by rewrite Ec|]. split; [|cbn [flat_map]; by rewrite app_nil_r]. apply Forall_singleton. specialize (Ti (wenv_of (w_calls s))).
    destruct (o (wenv_of (w_calls s))); try exact I; (exists (w_calls s); cbn; split; [lia|done]).
Qed.

(** *** Events *)
Notation onev := (FullModel.on_event H scf P kcf acf ping_timeout env wenv_of).
Definition only_peer (c : mcall) : option mcall := match c with ToPeer _ => Some c | _ => None end.
Definition part (c : comp) (e : wev) : list mcall :=
  match c with
  | CPing => omap only_ping (event_calls e)
  | CAddr => omap only_addr (event_calls e)
  | CPeer => omap only_peer (event_calls e)
  | _ => []
  end.
Lemma parts e : flat_map (fun c => part c e) receivers = event_calls e.
Proof.
  cbn [receivers flat_map part]. destruct e as [| |a m|o|o|e]; try done.
  - by destruct m.
  - by destruct o.
  - destruct e as [| | |e|e|e]; try done; by destruct e.
Qed.
Lemma does_on c e : does (part c e) (onev c e).
Proof.
  assert (Nd : forall c, does [] (fun s => match node_view e with Some e' => call_node (NodeModel.on_event H scf P unkey env c e') s | None => skip s end)).
  { intros c0. destruct (node_view e) as [e'|]; [|apply does_skip]. apply does_node. intros n n' l E. by eapply nodal_event. }
  destruct c; cbn [FullModel.on_event]; try apply Nd; try apply does_skip.
  - assert (Ev : omap only_peer (event_calls e) = match peer_event_of e with Some o => [ToPeer o] | None => [] end /\
      forall o, peer_event_of e = Some o -> forall o' ae, o <> KAddr o' ae).
    { destruct e as [| |a m|o|o|e]; try (by split).
      - destruct m; split; try done; by intros ? [= <-].
      - split; [by destruct o|done].
      - destruct e as [| | |e|e|e]; try (by split); destruct e; split; try done; by intros ? [= <-]. }
    destruct Ev as [E No]. cbn [part]. rewrite E. intros s s' l. cbn [FullModel.on_event]. destruct (peer_event_of e) as [o|]; [|apply does_skip]. refine (does_peer o _ s s' l). by apply No.
  - assert (Ev : match ping_event e with Some o => exists c, omap only_ping (event_calls e) = [ToPing c] /\ (forall w, of_ping (o w) = ToPing c) /\
        (forall n, PingSpec.fair_order (o (wenv_of n))) /\
        (forall w, match o w with PingModel.PNegotiated t _ _ | PPong t _ _ | PTimer t _ _ => t = ke_now (we_peer w) | _ => True end)
      | None => omap only_ping (event_calls e) = [] end).
    { destruct e as [| |a m|o|o|e]; try done.
      - destruct m; try done; eexists; (split; [reflexivity|]); (split; [intros w; unfold of_ping; by rewrite unkey_key|]); by split.
      - destruct o; try done; eexists; (split; [reflexivity|]); (split; [intros w; unfold of_ping; by rewrite unkey_key|]); by split.
      - destruct e as [| | |e|e|e]; try done; by destruct e. }
    cbn [part]. intros s s' l. cbn [FullModel.on_event]. destruct (ping_event e) as [o|]; [|rewrite Ev; apply does_skip]. destruct Ev as (c & -> & A & B & C). by refine (does_ping c o _ _ _ s s' l).
  - assert (Ev : omap only_addr (event_calls e) = match addr_event e with Some o => [ToAddr o] | None => [] end /\
      forall o, addr_event e = Some o -> is_Some (of_addr o)).
    { destruct e as [| |a m|o|o|e]; try (by split).
      - destruct m; split; try done; intros ? [= <-]; by eexists.
      - destruct o; split; try done; intros ? [= <-]; by eexists.
      - destruct e as [| | |e|e|e]; try (by split); by destruct e. }
    destruct Ev as [E So]. cbn [part]. rewrite E. intros s s' l. cbn [FullModel.on_event]. destruct (addr_event e) as [o|]; [|apply does_skip]. refine (does_addr o _ s s' l). by apply So.
Qed.
Lemma deliver_did cs e : forall s s' l, deliver onev cs e s = Val (s', l) -> did (flat_map (fun c => part c e) cs) (f_state s) (f_state s') l.
Proof.
  induction cs as [|c cs IH]; intros s s' l; cbn [deliver flat_map].
  - intros [= <- <-]. apply did_aside; try done; by apply Forall_nil.
  - destruct (onev c e (f_state s)) as [[st x]|] eqn:E; cbn [mbind_M]; [|done].
    destruct (deliver onev cs e (Fsm st (queue x (f_box s)))) as [[s2 y]|] eqn:E2; cbn [mbind_M]; [|done]. intros [= <- <-].
    apply (did_app _ _ _ st); [by apply does_on in E|]. by apply IH in E2.
Qed.
Lemma event_did e s s' l : event onev e s = Val (s', l) -> did (event_calls e) (f_state s) (f_state s') l.
Proof. intros E%deliver_did. by rewrite parts in E. Qed.

(** *** Inputs *)
Lemma does_initialize : does [ToAddr AInitialize; ToPeer KInit] (FullModel.initialize H scf P kcf acf env wenv_of).
Proof.
  change [ToAddr AInitialize; ToPeer KInit] with ([] ++ [ToAddr AInitialize] ++ [] ++ [ToPeer KInit] ++ [] ++ []).
  unfold FullModel.initialize. repeat apply does_then.
  - by apply does_emit.
  - apply does_addr. by eexists.
  - apply does_node, nodal_sync.
  - by apply does_peer.
  - apply does_node, nodal_cbf.
  - by apply does_emit.
Qed.
Lemma does_timer : does [ToPing PcTimer; ToAddr ATimer; ToPeer KTimer] (timer H scf P kcf acf ping_timeout env wenv_of).
Proof.
  change [ToPing PcTimer; ToAddr ATimer; ToPeer KTimer] with ([] ++ [] ++ [ToPing PcTimer] ++ [ToAddr ATimer] ++ [ToPeer KTimer] ++ []).
  unfold timer. repeat apply does_then.
  - apply does_node. intros n n' l. cbn zeta. apply nodal_inv.
  - apply does_node, nodal_sync.
  - by apply does_ping.
  - apply does_addr. by eexists.
  - by apply does_peer.
  - apply does_node, nodal_cbf.
Qed.
Notation exec := (FullModel.exec H scf P kcf acf env wenv_of).
Lemma ran cs (f : wfun) s (r : reply) s' l r' : does cs f -> ('(s, x) <-- f s ;; Val (s, x, r)) = Val (s', l, r') -> did cs s s' l.
Proof. intros D. destruct (f s) as [[s1 x]|] eqn:E; cbn [mbind_M]; [|done]. intros [= <- <- <-]. by apply D. Qed.
Lemma exec_did c s s' l r : exec c s = Val (s', l, r) -> did (input_calls magic (WCommand c)) s s' l.
Proof.
  assert (A : forall r' : reply, @Val (full * list (comp * wio) * reply) (s, [], r') = Val (s', l, r) -> did [] s s' l).
  { intros r' [= <- <- <-]. apply did_aside; try done; by apply Forall_nil. }
  destruct c; cbn [FullModel.exec input_calls]; cbn zeta; try apply A.
  - destruct (find_branch _ _); cbn [mbind_M]; [apply A|done].
  - intros E. eapply ran; [|exact E]. by apply does_peer.
  - intros E. eapply ran; [|exact E]. by apply does_peer.
  - clear A. intros [= <- <- <-]. apply did_aside; try done.
    1-3: match goal with |- boxed _ (map _ ?k) = [] => let i := fresh in let q := fresh in induction k as [|? q i]; [done|exact i] end.
    by apply Forall_map, Forall_forall.
  - destruct (SyncModel.sync_import _ _ _ _ _) as [[[? ?] ?]|]; cbn [mbind_M]; [|done]. intros E. eapply ran; [|exact E]. apply does_node, nodal_sync.
  - intros E. eapply ran; [|exact E]. apply does_addr. by eexists.
  - destruct (CbfModel.cbf_step _ _ _ _ _ _) as [[? ?]|]; cbn [mbind_M]; [|done]. intros E. eapply ran; [|exact E]. apply does_node, nodal_cbf.
  - intros E. eapply ran; [|exact E]. apply does_node, nodal_inv.
  - intros E. eapply ran; [|exact E]. apply (does_then [] []); apply does_node; [apply nodal_cbf|apply nodal_inv].
  - intros E. eapply ran; [|exact E]. apply does_node, nodal_cbf.
  - intros E. eapply ran; [|exact E]. apply does_node, nodal_cbf.
Qed.

(** *** Steps *)
Notation fullstep := (full_step H scf P kcf acf ping_timeout env wenv_of magic hook).
Definition did_all (cs : list mcall) (s s' : wstate) (q : comp -> list wio) : Prop :=
  (w_calls (f_state s) <= w_calls (f_state s'))%nat /\ (exists tr, pdid cs (f_state s) (f_state s') (q CPeer) tr) /\
  (exists aos, adid cs (f_state s) (f_state s') (q CAddr) aos) /\ (exists pos, gdid cs (f_state s) (f_state s') (q CPing) pos) /\
  forall c, Forall plain (q c).
Lemma all_queued cs (s s' : wstate) l : did cs (f_state s) (f_state s') l -> did_all cs s s' (fun c => queued_by c (fqueued l)).
Proof.
  intros (A & B & C & D & E). unfold did_all. rewrite !queued_fqueued. split; [done|]. split; [done|]. split; [done|]. split; [done|].
  intros c. rewrite queued_fqueued. clear -E. induction E as [|[c' x] l Px E IH]; cbn [flat_map]; [by apply Forall_nil|]. apply Forall_app. split; [|done].
  cbn [fst snd] in *. destruct (decide _); [by apply Forall_singleton|by apply Forall_nil].
Qed.
Lemma queued_silent c (l : list (comp * wio)) (i : fitem wmsg wev) : (forall c' x, i <> FQueued c' x) -> queued_by c (fqueued l ++ [i]) = queued_by c (fqueued l).
Proof. intros Ni. rewrite queued_by_app. destruct i as [c' x| |]; [by destruct (Ni c' x)|by rewrite app_nil_r..]. Qed.
Lemma all_ext cs s s' q q' : (forall c, q c = q' c) -> did_all cs s s' q -> did_all cs s s' q'.
Proof. intros E. unfold did_all. rewrite !E. intros (A & B & C & D & F). repeat split; try done. intros c. rewrite <- E. apply F. Qed.
Lemma input_did cs f (s s' : wstate) x : does cs f -> fstep onev magic (FInput f) s = Val (s', x) ->
  did_all cs s s' (fun c => queued_by c x) /\ announced x = [].
Proof.
  intros D. cbn [fstep]. destruct (f (f_state s)) as [[st l]|] eqn:E; cbn [mbind_M]; [|done]. intros [= <- <-]. apply D in E.
  split; [|by rewrite announced_fqueued]. by apply all_queued.
Qed.
Lemma step_did o s s' x : fullstep o s = Val (s', x) -> did_all (calls_of magic o x) s s' (fun c => queued_by c x).
Proof.
  assert (In : forall f, does (input_calls magic o) f -> fstep onev magic (FInput f) s = Val (s', x) -> did_all (calls_of magic o x) s s' (fun c => queued_by c x)).
  { intros f D E. destruct (input_did _ _ _ _ _ D E) as [R A]. unfold calls_of. rewrite A. cbn [flat_map]. rewrite app_nil_r. exact R. }
  unfold full_step. destruct o as [|a mg m|a local l|a r|a| |c|]; cbn [wop_fop].
  - apply In, does_initialize.
  - unfold received_fop. cbn [input_calls] in In. destruct (mg =? magic) eqn:Em; cbn [negb]; [|apply In; by apply does_peer].
    destruct (connected_at _ _); cbn [negb]; [|apply In, does_skip]. destruct (hook a m); cbn [negb]; [|apply In, does_skip].
    cbn [fstep]. destruct (event onev (WvMessage a m) s) as [[s1 l]|] eqn:E; cbn [mbind_M]; [|done]. intros [= <- <-].
    unfold calls_of. rewrite announced_app, announced_fqueued. cbn [input_calls]. rewrite Em. cbn [announced flat_map app]. rewrite !app_nil_r.
    apply (all_ext _ _ _ (fun c => queued_by c (fqueued l))); [intros c; by rewrite queued_silent|]. by apply all_queued, event_did.
  - apply In. by apply does_peer.
  - apply In. by apply does_peer.
  - apply In. by apply does_peer.
  - apply In, does_timer.
  - apply In. intros st st' l. destruct (exec c st) as [[[? ?] ?]|] eqn:E; cbn [mbind_M]; [|done]. intros [= <- <-]. by eapply exec_did.
  - cbn [fstep]. unfold next. destruct (take_first sources (f_box s)) as [[[c y] b]|]; cbn [mbind_M].
    + assert (Q : forall z, did_all [] s (Fsm (f_state s) b) (fun c' : comp => queued_by c' (fqueued [] ++ [FEmitted c z]))).
      { intros z. apply (all_ext _ _ _ (fun c' => queued_by c' (fqueued []))); [intros c'; by rewrite queued_silent|]. apply all_queued, did_aside; try done; by apply Forall_nil. }
      destruct y; cbn [stamp mbind_M]; try (intros [= <- <-]; apply Q).
      destruct (event onev e (Fsm (f_state s) b)) as [[s1 l]|] eqn:E; cbn [mbind_M]; [|done]. intros [= <- <-].
      unfold calls_of. rewrite announced_app, announced_fqueued. cbn [input_calls announced flat_map app]. rewrite !app_nil_r.
      apply (all_ext _ _ _ (fun c => queued_by c (fqueued l))); [intros c'; by rewrite queued_silent|]. apply all_queued. by apply event_did in E.
    + intros [= <- <-]. cbn. apply (all_queued [] s s []), did_aside; try done; by apply Forall_nil.
Qed.
Lemma log_did s l s' : logged fullstep s l s' -> did_all (log_calls magic l) s s' (fun c => log_queued c l).
Proof.
  induction 1 as [s|s l s1 o x s2 L IH E]; [apply (all_queued [] s s []), did_aside; try done; by apply Forall_nil|]. apply step_did in E.
  unfold log_calls, log_queued, did_all in *. rewrite !flat_map_app. cbn [flat_map fst snd]. rewrite !app_nil_r.
  destruct IH as (L1 & (t1 & P1) & (a1 & A1) & (g1 & G1) & Z1), E as (L2 & (t2 & P2) & (a2 & A2) & (g2 & G2) & Z2). split; [lia|].
  split; [|split; [|split]]; [eexists; by eapply peer_did_app|eexists; by eapply addr_did_app|eexists; by eapply ping_did_app|].
  intros c. rewrite flat_map_app. cbn [flat_map fst snd]. rewrite app_nil_r. apply Forall_app. split; [apply Z1|apply Z2].
Qed.
End Did.

(** ** Logs *)
Section Logs.
Context (H : header -> N) (scf : SyncModel.sconf) (P : CbfModel.params) (kcf : kconf) (acf : aconf) (ping_timeout : N).
Context (env : nat -> nenv) (wenv_of : nat -> wenv) (magic : N) (hook : sockaddr -> wmsg -> bool).
Notation fullstep := (full_step H scf P kcf acf ping_timeout env wenv_of magic hook).
Hypothesis Fw : fair_wenv wenv_of.
Hypothesis Fo : forall n l, we_order (wenv_of n) l ≡ₚ l.

Lemma logged_app s l s1 l' s2 : logged fullstep s l s1 -> logged fullstep s1 l' s2 -> logged fullstep s (l ++ l') s2.
Proof.
  intros L. induction 1 as [s1|s1 l' s2 o x s3 L' IH E]; [by rewrite app_nil_r|]. rewrite app_assoc. eapply logged_snoc; [by apply IH|exact E].
Qed.
Lemma logged_cons s p l s' : logged fullstep s (p :: l) s' <-> exists s1, fullstep p.1 s = Val (s1, p.2) /\ logged fullstep s1 l s'.
Proof.
  split.
  - intros L. remember (p :: l) as k eqn:Ek. revert p l Ek. induction L as [s|s k s1 o x s2 L IH E]; intros p l Ek; [done|].
    destruct k as [|q k]; cbn in Ek.
    + injection Ek as <- <-. inversion L; [|by destruct l]. subst. exists s2. split; [exact E|apply logged_nil].
    + injection Ek as -> <-. destruct (IH p k eq_refl) as (s' & E' & L'). exists s'. split; [done|]. by eapply logged_snoc.
  - destruct p as [o x]. intros (s1 & E & L). change ((o, x) :: l) with ([] ++ [(o, x)] ++ l). eapply logged_app; [apply logged_nil|].
    eapply logged_app; [|exact L]. apply (logged_snoc _ _ [] s); [apply logged_nil|exact E].
Qed.

(** *** The peer manager *)
Definition peer_log (s : wstate) (l : wlog) (s' : wstate) : Prop :=
  exists kos trs, krun kcf acf kos (w_peer (f_state s), w_addr (f_state s)) = Val (w_peer (f_state s'), w_addr (f_state s'), concat trs) /\ Forall fair_kop kos /\
    Forall (fun t => shown wenv_of t.1.2) (concat trs) /\ Forall2 (peer_part magic) l trs.
Lemma log_peer s l s' : logged fullstep s l s' -> peer_log s l s'.
Proof.
  induction 1 as [s|s l s1 o x s2 L (kos & trs & R & F & T & G) E]; [exists [], []; repeat split; by constructor|].
  apply step_did in E as (_ & (tr & (k2 & R2 & F2) & C2 & T2 & Q2) & _); [|done..].
  exists (kos ++ k2), (trs ++ [tr]). rewrite krun_app, R. cbn [mbind_M]. rewrite R2. cbn [mbind_M]. rewrite concat_app. cbn [concat]. rewrite app_nil_r.
  split; [done|]. split; [by apply Forall_app|]. split.
  - apply Forall_app. split; [done|]. eapply Forall_impl; [exact T2|]. intros t (n & _ & En). by exists n.
  - apply Forall2_app; [done|]. apply Forall2_cons. split; [|by apply Forall2_nil]. by split.
Qed.
(** *** The address manager *)
Definition addr_log (s : wstate) (l : wlog) (s' : wstate) : Prop :=
  exists hs, addr_run acf (concat (map fst hs)) (w_addr (f_state s)) = Val (w_addr (f_state s'), concat (map snd hs)) /\ fair_aenvs (concat (map fst hs)) /\
    Forall2 (addr_part magic) l hs.
Lemma addr_run_length os : forall s s' xs, addr_run acf os s = Val (s', xs) -> length os = length xs.
Proof.
  induction os as [|o os IH]; intros s s' xs; cbn [addr_run]; [by intros [= _ <-]|]. destruct (addr_step acf o s) as [[s1 x]|]; cbn [mbind_M]; [|done].
  destruct (addr_run acf os s1) as [[s2 ys]|] eqn:R; cbn [mbind_M]; [|done]. intros [= _ <-]. cbn. f_equal. by eapply IH.
Qed.
Lemma log_addr s l s' : logged fullstep s l s' -> addr_log s l s'.
Proof.
  induction 1 as [s|s l s1 o x s2 L (hs & R & F & G) E]; [exists []; repeat split; by constructor|].
  apply step_did in E as (_ & _ & (aos & axs & R2 & F2 & C2 & T2 & Q2) & _); [|done..].
  exists (hs ++ [(aos, axs)]). rewrite !map_app, !concat_app. cbn [map concat fst snd]. rewrite !app_nil_r, addr_run_app, R. cbn [mbind_M]. rewrite R2. cbn [mbind_M].
  split; [done|]. split; [by apply Forall_app|]. apply Forall2_app; [done|]. apply Forall2_cons. split; [|by apply Forall2_nil].
  split; [done|]. split; [by eapply addr_run_length|done].
Qed.
(** *** The ping manager *)
Definition ping_log (s : wstate) (l : wlog) (s' : wstate) : Prop :=
  exists hs, PingSpec.ping_run ping_timeout (concat (map fst hs)) (w_ping (f_state s)) = (w_ping (f_state s'), concat (map snd hs)) /\
    Forall PingSpec.fair_order (concat (map fst hs)) /\
    Forall (fun o => match o with PingModel.PNegotiated t _ _ | PPong t _ _ | PTimer t _ _ => shown wenv_of t | _ => True end) (concat (map fst hs)) /\
    Forall2 (ping_part magic) l hs.
Lemma ping_run_length os : forall s s' xs, PingSpec.ping_run ping_timeout os s = (s', xs) -> length os = length xs.
Proof.
  induction os as [|o os IH]; intros s s' xs; cbn [PingSpec.ping_run]; [by intros [= _ <-]|]. destruct (ping_step ping_timeout o s) as [s1 x].
  destruct (PingSpec.ping_run ping_timeout os s1) as [s2 ys] eqn:R. intros [= _ <-]. cbn. f_equal. by eapply IH.
Qed.
Lemma log_ping s l s' : logged fullstep s l s' -> ping_log s l s'.
Proof.
  induction 1 as [s|s l s1 o x s2 L (hs & R & F & T & G) E]; [exists []; repeat split; by constructor|].
  apply step_did in E as (_ & _ & _ & (aos & axs & R2 & F2 & C2 & T2 & Q2) & _); [|done..].
  exists (hs ++ [(aos, axs)]). rewrite !map_app, !concat_app. cbn [map concat fst snd]. rewrite !app_nil_r, ping_run_app, R. rewrite R2.
  split; [done|]. split; [by apply Forall_app|]. split.
  - apply Forall_app. split; [done|]. eapply Forall_impl; [exact T2|]. intros [] I; try exact I; destruct I as (n & _ & En); by exists n.
  - apply Forall2_app; [done|]. apply Forall2_cons. split; [|by apply Forall2_nil]. split; [done|]. split; [by eapply ping_run_length|done].
Qed.

(** *** From the start *)
Context (c0 : cache) (f0 : CbfModel.cbf) (white : gset ip) (am : amgr).
Let s0 := full0 c0 f0 white am.
Lemma start_init s x : fullstep WInitialize s0 = Val (s, x) ->
  exists am1 x1 l, addr_step acf (AInitialize, we_addr (wenv_of 0)) am = Val (am1, x1) /\
    did kcf acf ping_timeout wenv_of [ToPeer KInit] (Full (w_node (f_state s0)) (pm_new white) am1 ∅ 1) (f_state s) l /\
    (forall c, queued_by c x = boxed c ((CMain, IoEvent WvInitializing) :: flat_map addr_io x1 ++ l)) /\ announced x = [].
Proof.
  unfold full_step. cbn [wop_fop fstep]. unfold FullModel.initialize. unfold andthen at 1. cbn [emit mbind_M]. unfold andthen at 1. unfold call_addr at 1.
  change (w_calls (f_state s0)) with 0%nat. change (w_addr (f_state s0)) with am.
  destruct (addr_step acf (AInitialize, we_addr (wenv_of 0)) am) as [[am1 x1]|] eqn:Ea; cbn [mbind_M]; [|done].
  match goal with |- context [andthen ?f ?g ?s1] => destruct (andthen f g s1) as [[s2 y]|] eqn:E; cbn [mbind_M]; [|done]; set (f' := f) in E; set (g' := g) in E end.
  intros [= <- <-]. exists am1, x1, y. split; [done|]. split; [|split].
  - assert (D : does kcf acf ping_timeout wenv_of ([] ++ [ToPeer KInit] ++ [] ++ []) (andthen f' g')).
    { unfold f', g'. repeat apply (does_then _ _ _ env); [eapply does_node; intros ? ? ?; apply nodal_sync|by apply does_peer|eapply does_node; intros ? ? ?; apply nodal_cbf|by apply does_emit]. }
    by apply D in E.
  - intros c. exact (queued_fqueued c ((CMain, IoEvent WvInitializing) :: flat_map addr_io x1 ++ y)).
  - exact (announced_fqueued ((CMain, IoEvent WvInitializing) :: flat_map addr_io x1 ++ y)).
Qed.
Context (e0 : aenv) (store : gmap ip known).
Hypothesis Fe0 : fair_aenv e0.
Hypothesis New : addr_new e0 store = Val am.

Lemma history0 am1 x1 : addr_step acf (AInitialize, we_addr (wenv_of 0)) am = Val (am1, x1) -> addr_history acf store (ae_now (we_addr (wenv_of 0))) [] am1.
Proof. intros E. exists e0, (we_addr (wenv_of 0)), am, am1, x1, []. repeat split; try done; try apply Fe0. by apply Forall_nil. Qed.

Lemma whole_peer x0 l s : logged fullstep s0 ((WInitialize, x0) :: l) s ->
  exists kos tr0 trs, khistory kcf acf white kos (tr0 ++ concat trs) (w_peer (f_state s)) (w_addr (f_state s)) /\
    Forall (fun t => shown wenv_of t.1.2) (tr0 ++ concat trs) /\
    ToAddr AInitialize :: called tr0 = omap not_ping (calls_of magic WInitialize x0) /\ queued_by CPeer x0 = put_peer tr0 /\ Forall2 (peer_part magic) l trs.
Proof.
  intros (s1 & E & L)%logged_cons. cbn [fst snd] in E. apply start_init in E as (am1 & x1 & q & Ea & (_ & (tr & (k0 & R0 & F0) & C0 & T0 & Q0) & _) & Q & An).
  apply log_peer in L as (kos & trs & R & F & T & G). exists (k0 ++ kos), tr, trs. split; [|split; [|split; [|split]]].
  - split; [|by apply Forall_app]. exists store, (ae_now (we_addr (wenv_of 0))), [], am1. split; [by eapply history0|].
    rewrite krun_app. cbn [w_peer w_addr] in R0. rewrite R0. cbn [mbind_M]. by rewrite R.
  - apply Forall_app. split; [|done]. eapply Forall_impl; [exact T0|]. intros t (n & _ & En). by exists n.
  - unfold called. rewrite C0. unfold calls_of. by rewrite An.
  - rewrite Q. cbn [flat_map fst snd]. rewrite flat_map_app, boxed_addr. cbn [app decide decide_rel comp_eq_dec comp_rect]. exact Q0.
  - done.
Qed.
Lemma whole_addr x0 l s : logged fullstep s0 ((WInitialize, x0) :: l) s ->
  exists x1 h0 hs s1 s2, addr_new e0 store = Val s1 /\ addr_step acf (AInitialize, we_addr (wenv_of 0)) s1 = Val (s2, x1) /\
    addr_run acf (h0.1 ++ concat (map fst hs)) s2 = Val (w_addr (f_state s), h0.2 ++ concat (map snd hs)) /\
    addr_history acf store (ae_now (we_addr (wenv_of 0))) (h0.1 ++ concat (map fst hs)) (w_addr (f_state s)) /\
    omap (fun oe => of_addr oe.1) h0.1 = [] /\ omap only_addr (calls_of magic WInitialize x0) = [ToAddr AInitialize] /\
    queued_by CAddr x0 = put_addr (x1 :: h0.2) /\ Forall2 (addr_part magic) l hs.
Proof.
  intros (s1 & E & L)%logged_cons. cbn [fst snd] in E. apply start_init in E as (am1 & x1 & q & Ea & (_ & _ & (a0 & y0 & R0 & F0 & C0 & T0 & Q0) & _) & Q & An).
  apply log_addr in L as (hs & R & F & G). cbn [w_addr] in R0. exists x1, (a0, y0), hs, am, am1. cbn [fst snd].
  assert (Ra : addr_run acf (a0 ++ concat (map fst hs)) am1 = Val (w_addr (f_state s), y0 ++ concat (map snd hs))).
  { rewrite addr_run_app, R0. cbn [mbind_M]. by rewrite R. }
  split; [done|]. split; [done|]. split; [done|]. split; [|split; [|split; [|split]]].
  - exists e0, (we_addr (wenv_of 0)), am, am1, x1, (y0 ++ concat (map snd hs)). repeat split; try done; try apply Fe0. by apply Forall_app.
  - by rewrite C0.
  - unfold calls_of. by rewrite An.
  - rewrite Q. cbn [flat_map fst snd]. rewrite flat_map_app, boxed_addr. cbn [app decide decide_rel comp_eq_dec comp_rect]. unfold put_addr. cbn [flat_map].
    rewrite fmap_app, <- Q0. done.
  - done.
Qed.
Lemma whole_ping x0 l s : logged fullstep s0 ((WInitialize, x0) :: l) s ->
  exists hs, PingSpec.ping_run ping_timeout (concat (map fst hs)) ∅ = (w_ping (f_state s), concat (map snd hs)) /\ Forall PingSpec.fair_order (concat (map fst hs)) /\
    Forall (fun o => match o with PingModel.PNegotiated t _ _ | PPong t _ _ | PTimer t _ _ => shown wenv_of t | _ => True end) (concat (map fst hs)) /\
    Forall2 (ping_part magic) ((WInitialize, x0) :: l) hs.
Proof. apply log_ping. Qed.
End Logs.
