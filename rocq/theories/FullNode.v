(** What is known of the chain, filter and inventory managers from the log of
    NodeModel.v is so in the whole client. *)
From Verif Require Import Base PowModel BlockModel BlockSpec UtilModel FeeModel AddrModel AddrSpec PeerModel PeerSpec PeerMain PingModel DispModel DispSpec DispProofs LoadModel
  NodeModel NodeSpec NodeProofs NodeLogSpec NodeLog NodeSeen NodeFetch FullModel FullSpec FullSim FullProofs FullMgrSpec FullMgr FullNodeSpec.
From Verif Require SyncModel CbfModel CbfSpec InvModel InvSpec PingSpec.
Open Scope N_scope.

(** ** Entries that tell the same *)
Definition idle (o : nop) : Prop := match o with NNext | NMessage _ _ | NPeer _ => True | _ => False end.
Record similar (e e' : entry) : Prop := {
  si_op : e_op e = e_op e' \/ (idle (e_op e) /\ idle (e_op e'));
  si_time : e_time e = e_time e';
  si_height : e_height e = e_height e';
  si_announced : announced (e_items e) = announced (e_items e');
  si_events : queued_events (e_items e) = queued_events (e_items e');
  si_written : written (e_items e) = written (e_items e');
}.
Record neutral (e : entry) : Prop := {
  ne_idle : idle (e_op e);
  ne_announced : announced (e_items e) = [];
  ne_events : queued_events (e_items e) = [];
  ne_written : written (e_items e) = [];
}.
Inductive corr : list entry -> list entry -> Prop :=
| corr_nil : corr [] []
| corr_skip e l l' : neutral e -> corr l l' -> corr (e :: l) l'
| corr_same e e' l l' : similar e e' -> corr l l' -> corr (e :: l) (e' :: l').

Lemma corr_app l k : forall l' k', corr l l' -> corr k k' -> corr (l ++ k) (l' ++ k').
Proof. intros l' k' C D. induction C; cbn [app]; [done|by constructor..]. Qed.
Lemma corr_split l1 l2 : forall l', corr (l1 ++ l2) l' -> exists l1' l2', l' = l1' ++ l2' /\ corr l1 l1' /\ corr l2 l2'.
Proof.
  induction l1 as [|e l1 IH]; intros l' C; cbn [app] in C; [exists [], l'; split; [done|split; [constructor|done]]|]. inversion C as [|? ? ? Ne C'|? e' ? l'' Si C']; subst.
  - destruct (IH _ C') as (l1' & l2' & -> & C1 & C2). exists l1', l2'. split; [done|]. split; [by constructor|done].
  - destruct (IH _ C') as (l1' & l2' & -> & C1 & C2). exists (e' :: l1'), l2'. split; [done|]. split; [by constructor|done].
Qed.
Lemma corr_mid l1 e l2 l' : corr (l1 ++ e :: l2) l' -> ~ neutral e -> exists l1' e' l2', l' = l1' ++ e' :: l2' /\ corr l1 l1' /\ similar e e' /\ corr l2 l2'.
Proof.
  intros (l1' & k & -> & C1 & C)%corr_split Nn. inversion C as [|? ? ? Ne C'|? e' ? l'' Si C']; subst; [done|]. exists l1', e', l''. done.
Qed.
Lemma corr_fold {A} (f : A -> entry -> A) : (forall v e e', similar e e' -> f v e = f v e') -> (forall v e, neutral e -> f v e = v) ->
  forall l l', corr l l' -> forall v, foldl f v l = foldl f v l'.
Proof. intros F G l l' C. induction C as [|e l l' Ne C IH|e e' l l' Si C IH]; intros v; cbn [foldl]; [done|by rewrite G|by rewrite (F v e e')]. Qed.
Lemma corr_Forall (Q : entry -> Prop) : (forall e e', similar e e' -> Q e -> Q e') -> forall l l', corr l l' -> Forall Q l -> Forall Q l'.
Proof.
  intros F l l' C. induction C as [|e l l' Ne C IH|e e' l l' Si C IH]; intros Fo; [done| |]; apply Forall_cons in Fo as [Q1 Q2]; [by apply IH|].
  apply Forall_cons. split; [by apply (F e)|by apply IH].
Qed.

Lemma same_scripts v e e' : similar e e' -> log_scripts v e = log_scripts v e'.
Proof. intros [[E|[I J]] _ _ _ _ _]; unfold log_scripts; [by rewrite E|]. destruct (e_op e), (e_op e'); done. Qed.
Lemma none_scripts v e : neutral e -> log_scripts v e = v.
Proof. intros [I _ _ _]; unfold log_scripts. by destruct (e_op e). Qed.
Lemma same_txs v e e' : similar e e' -> log_txs v e = log_txs v e'.
Proof. intros [[E|[I J]] _ _ A _ _]; unfold log_txs; rewrite A; [by rewrite E|]. destruct (e_op e), (e_op e'); done. Qed.
Lemma none_txs v e : neutral e -> log_txs v e = v.
Proof. intros [I A _ _]; unfold log_txs. rewrite A. by destruct (e_op e). Qed.
Lemma same_awaits h v e e' : similar e e' -> log_awaits h v e = log_awaits h v e'.
Proof. intros [_ _ _ A Q _]. unfold log_awaits. by rewrite A, Q. Qed.
Lemma none_awaits h v e : neutral e -> log_awaits h v e = v.
Proof. intros [_ A _ _]. unfold log_awaits. by rewrite A. Qed.
Lemma same_asked h v e e' : similar e e' -> log_asked h v e = log_asked h v e'.
Proof. intros [_ T _ A _ W]. unfold log_asked. by rewrite A, W, T. Qed.
Lemma none_asked h v e : neutral e -> log_asked h v e = v.
Proof. intros [_ A _ W]. unfold log_asked. by rewrite A, W. Qed.
Lemma same_serves a v e e' : similar e e' -> log_serves a v e = log_serves a v e'.
Proof. intros [_ _ _ A Q _]. unfold log_serves. by rewrite A, Q. Qed.
Lemma none_serves a v e : neutral e -> log_serves a v e = v.
Proof. intros [_ A Q _]. unfold log_serves. by rewrite A, Q. Qed.
Lemma corr_looked P l l' f block : corr l l' -> looked_for P l f block <-> looked_for P l' f block.
Proof.
  intros C. unfold looked_for, scripts_watched, txs_watched.
  rewrite (corr_fold log_scripts same_scripts none_scripts _ _ C), (corr_fold log_txs same_txs none_txs _ _ C). done.
Qed.
Lemma corr_awaited h l l' : corr l l' -> awaited h l = awaited h l'.
Proof. intros C. apply (corr_fold _ (same_awaits h) (none_awaits h) _ _ C). Qed.
Lemma corr_asked h l l' : corr l l' -> last_asked h l = last_asked h l'.
Proof. intros C. apply (corr_fold _ (same_asked h) (none_asked h) _ _ C). Qed.
Lemma corr_serves a l l' : corr l l' -> serves a l = serves a l'.
Proof. intros C. apply (corr_fold _ (same_serves a) (none_serves a) _ _ C). Qed.
Lemma same_keeps h e e' : similar e e' -> keeps h e -> keeps h e'.
Proof.
  intros [O _ Hh A _ _] [K1 K2]. split; [by rewrite <- A|]. rewrite <- Hh. intros E. apply K2. destruct O as [->|[_ J]]; [done|]. by rewrite E in J.
Qed.

(** ** Events and messages *)
Lemma bit_has (sv : N) k : has_services sv (2 ^ k) = N.testbit sv k.
Proof.
  unfold has_services. destruct (N.testbit sv k) eqn:E.
  - apply N.eqb_eq, N.bits_inj. intros n. rewrite N.land_spec, N.pow2_bits_eqb. destruct (N.eqb_spec k n) as [->|]; [by rewrite E|by rewrite andb_false_r].
  - apply N.eqb_neq. intros F. enough (N.testbit (2 ^ k) k = false) by (rewrite N.pow2_bits_true in *; done). by rewrite <- F, N.land_spec, E.
Qed.
Lemma told_view e : told_of e = node_view e.
Proof.
  destruct e as [|? ?|? []|[]|?|?]; try reflexivity. cbn [told_of node_view].
  pose proof (bit_has services 0) as B0. pose proof (bit_has services 6) as B6. change (2 ^ 0) with NETWORK in B0. change (2 ^ 6) with COMPACT_FILTERS in B6. rewrite B0, B6. by destruct l.
Qed.
Lemma announced_app {M E} (l k : list (fitem M E)) : announced (l ++ k) = announced l ++ announced k.
Proof. apply flat_map_app. Qed.
Section Items.
Context (magic : N).
Lemma item_announced x : announced (omap item_of x) = announced (omap (erase_item magic) x).
Proof.
  induction x as [|i x IH]; [done|]. change (i :: x) with ([i] ++ x). rewrite !omap_app, !announced_app, IH. f_equal. clear.
  destruct i as [c y|c y|e]; cbn [omap list_omap item_of erase_item].
  - destruct y as [a m|a|a r|d|e]; cbn [erase]; try (by destruct (node_comp c)).
    + destruct m; try done. destruct (decide (c = CMain)), (node_comp c); done.
    + rewrite told_view. by destruct (node_view e).
  - destruct y as [a [mg m]|a|a r|d|e]; cbn [unstamp erase]; try (by destruct (node_comp c)).
    + destruct m; try done. by destruct (node_comp c).
    + rewrite told_view. by destruct (node_view e).
  - rewrite told_view. by destruct (node_view e).
Qed.
Lemma item_events x : queued_events (omap item_of x) = queued_events (omap (erase_item magic) x).
Proof.
  unfold queued_events. induction x as [|i x IH]; [done|]. change (i :: x) with ([i] ++ x). rewrite !omap_app, IH. f_equal. clear.
  destruct i as [c y|c y|e]; cbn [omap list_omap item_of erase_item].
  - destruct y as [a m|a|a r|d|e]; cbn [erase]; try (by destruct (node_comp c)).
    + destruct m; try done. destruct (decide (c = CMain)), (node_comp c); done.
    + rewrite told_view. by destruct (node_view e).
  - destruct y as [a [mg m]|a|a r|d|e]; cbn [unstamp erase]; try (by destruct (node_comp c)).
    + destruct m; try done. by destruct (node_comp c).
    + rewrite told_view. by destruct (node_view e).
  - rewrite told_view. by destruct (node_view e).
Qed.
Definition writers (x : list (fitem wmsg wev)) : Prop := Forall (fun i => match i with FQueued c (IoWrite _ (WNode _)) => node_comp c = true \/ c = CMain | _ => True end) x.
Lemma item_written x : writers x -> written (omap item_of x) = written (omap (erase_item magic) x).
Proof.
  unfold written. induction x as [|i x IH]; [done|]. intros [Wi Wx]%Forall_cons. change (i :: x) with ([i] ++ x). rewrite !omap_app, (IH Wx). f_equal. clear -Wi.
  destruct i as [c y|c y|e]; cbn [omap list_omap item_of erase_item].
  - destruct y as [a m|a|a r|d|e]; cbn [erase]; try (by destruct (node_comp c)).
    + destruct m; try done. destruct (decide (c = CMain)) as [->|]; [done|]. destruct Wi as [->|]; [|done]. done.
    + rewrite told_view. by destruct (node_view e).
  - destruct y as [a [mg m]|a|a r|d|e]; cbn [unstamp erase]; try (by destruct (node_comp c)).
    + destruct m; try done. by destruct (node_comp c).
    + rewrite told_view. by destruct (node_view e).
  - rewrite told_view. by destruct (node_view e).
Qed.
End Items.
Lemma in_queued_by {M E} (c : comp) (y : io M E) (x : list (fitem M E)) : FQueued c y ∈ x <-> y ∈ queued_by c x.
Proof.
  unfold queued_by. rewrite !elem_of_list_In, in_flat_map. split.
  - intros I. exists (FQueued c y). split; [done|]. rewrite decide_True by done. by left.
  - intros (i & I & J). destruct i as [c' y'| |]; try done. destruct (decide (c' = c)) as [->|]; [|done]. destruct J as [<-|[]]. done.
Qed.

Section Whole.
Context (H : header -> N) (scf : SyncModel.sconf) (P : CbfModel.params) (kcf : kconf) (acf : aconf) (ping_timeout : N).
Context (env : nat -> nenv) (wenv_of : nat -> wenv) (magic : N) (hook : sockaddr -> wmsg -> bool).
Notation fullstep := (full_step H scf P kcf acf ping_timeout env wenv_of magic hook).
Notation fullrun := (full_run H scf P kcf acf ping_timeout env wenv_of magic hook).
Notation nstep := (node_step H scf P unkey env magic).
Notation nrun := (node_run H scf P unkey env magic).
Notation nop_at := (nop_of magic hook).
Context (Sn : sane kcf) (Fw : fair_wenv wenv_of) (Fo : forall n l, we_order (wenv_of n) l ≡ₚ l).

Lemma step_writers o s s' x : fullstep o s = Val (s', x) -> writers x.
Proof.
  intros E. destruct (step_did H scf P kcf acf ping_timeout env wenv_of magic hook Fw Fo o s s' x E) as (_ & (tr & _ & _ & _ & Qp) & (aos & axs & _ & _ & _ & _ & Qa) & (pos & pxs & _ & _ & _ & _ & Qg) & _).
  apply Forall_forall. intros i I. destruct i as [c y| |]; try done. destruct y as [a m| | | |]; try done. destruct m as [m| | | | | | | | |]; try done.
  apply in_queued_by in I. destruct c; try (by left); try (by right); exfalso.
  all: match goal with I : _ ∈ queued_by ?c ?y, Q : queued_by ?c ?y = _ |- _ => rewrite Q in I end.
  all: apply elem_of_list_fmap in I as ([c y] & Ey & I); cbn in Ey; subst y; apply elem_of_list_In, in_flat_map in I as (t & It & I).
  - apply in_flat_map in I as (k & _ & I). destruct k; cbn in I; try done; destruct I as [[= ]|[]].
  - apply in_flat_map in I as (k & _ & I). destruct k; cbn in I; try done; destruct I as [[= ]|[]].
  - apply in_flat_map in I as (k & _ & I). destruct k; cbn in I; try done; destruct I as [[= ]|[]].
Qed.
Lemma nop_input o s no : nop_at o s = Some no -> input_of o = no \/ (idle (input_of o) /\ idle no).
Proof.
  intros E. destruct o as [|a mg m|a local l|a r|a| |c|]; cbn [nop_of input_of] in *; try discriminate E; try (injection E as <-; by left).
  - right. destruct (passes magic hook a mg m (f_state s)); [|done]. destruct m; try done; [by injection E as <-|]. destruct (verack_of a (f_state s)); [|done]. by injection E as <-.
  - right. destruct (_ || _); [|done]. by injection E as <-.
  - destruct c; try discriminate E; injection E as <-; by left.
  - right. destruct (take_first sources (f_box s)) as [[[c x] b]|]; [|done]. destruct (erase c x); [|done]. by injection E as <-.
Qed.
Lemma nop_idle o s : nop_at o s = None -> idle (input_of o).
Proof. intros E. destruct o as [|a mg m|a local l|a r|a| |c|]; try done. by destruct c. Qed.

Lemma log_sim os : forall s n s' L, wok (f_state s) -> sim s n -> whole_log H fullstep env os s = Val (s', L) ->
  exists ns n' L', node_log H nstep env ns n = Val (n', L') /\ sim s' n' /\ wok (f_state s') /\ corr (entry_of <$> L) L' /\
    (forall (Q : state -> state -> Prop) (Q' : wstate -> wstate -> Prop), (forall s n s1 n1, sim s n -> sim s1 n1 -> Q n n1 -> Q' s s1) -> some_step nstep Q ns n -> wsome_step fullstep Q' os s).
Proof.
  induction os as [|o os IH]; intros s n s' L O S R; cbn [whole_log] in R.
  - injection R as <- <-. exists [], n, []. split; [done|]. split; [done|]. split; [done|]. split; [constructor|done].
  - pose proof (wstep_sim H scf P kcf acf ping_timeout env wenv_of magic hook Sn Fw o s n O S) as W. unfold wstep_ok, step_ok in W.
    destruct (fullstep o s) as [[s1 x]|p] eqn:E; cbn [mbind_M] in R; [|discriminate R].
    destruct (whole_log H fullstep env os s1) as [[s2 L2]|p] eqn:R2; cbn [mbind_M] in R; [|discriminate R]. injection R as <- <-. destruct W as [O1 W].
    pose proof (step_writers _ _ _ _ E) as Wr. pose proof S as (En & _).
    destruct (nop_at o s) as [no|] eqn:No.
    + destruct W as (n1 & E1 & S1). destruct (IH s1 n1 s2 L2 O1 S1 R2) as (ns & n2 & L' & R' & S2 & O2 & C & So). exists (no :: ns), n2, (log_step H env no n (omap (erase_item magic) x) :: L').
      split; [cbn [node_log]; rewrite E1; cbn [mbind_M]; by rewrite R'|]. split; [done|]. split; [done|]. split.
      * cbn [fmap list_fmap]. apply corr_same; [|exact C]. constructor; cbn [entry_of wlog_step log_step e_op e_time e_height e_items wl_op wl_time wl_height wl_items].
        -- by apply (nop_input o s).
        -- by rewrite En.
        -- by rewrite En.
        -- apply item_announced.
        -- apply item_events.
        -- by apply item_written.
      * intros Q Q' T. cbn [some_step wsome_step]. rewrite E1, E. intros [K|K]; [left; by apply (T s n s1 n1)|right]. by apply (So Q Q').
    + destruct W as [S1 W]. destruct (IH s1 n s2 L2 O1 S1 R2) as (ns & n2 & L' & R' & S2 & O2 & C & So). exists ns, n2, L'.
      split; [done|]. split; [done|]. split; [done|]. split.
      * cbn [fmap list_fmap]. apply corr_skip; [|exact C]. constructor; cbn [entry_of wlog_step log_step e_op e_time e_height e_items wl_op wl_time wl_height wl_items].
        -- by apply (nop_idle o s).
        -- by rewrite (item_announced magic), W.
        -- by rewrite (item_events magic), W.
        -- by rewrite (item_written magic), W.
      * intros Q Q' T. cbn [wsome_step]. rewrite E. intros K. right. by apply (So Q Q').
Qed.
Lemma one_sim o s n s' x : wok (f_state s) -> sim s n -> fullstep o s = Val (s', x) ->
  let e := entry_of (wlog_step H env o s x) in
  wok (f_state s') /\
  ((exists no n', nop_at o s = Some no /\ nstep no n = Val (n', omap (erase_item magic) x) /\ sim s' n' /\ similar e (log_step H env no n (omap (erase_item magic) x))) \/
   (neutral e /\ sim s' n)).
Proof.
  intros O S E e. pose proof (wstep_sim H scf P kcf acf ping_timeout env wenv_of magic hook Sn Fw o s n O S) as W. unfold wstep_ok, step_ok in W. rewrite E in W.
  destruct W as [O1 W]. split; [done|]. pose proof (step_writers _ _ _ _ E) as Wr. pose proof S as (En & _). destruct (nop_at o s) as [no|] eqn:No.
  - left. destruct W as (n1 & E1 & S1). exists no, n1. split; [done|]. split; [done|]. split; [done|].
    constructor; cbn [e entry_of wlog_step log_step e_op e_time e_height e_items wl_op wl_time wl_height wl_items].
    + by apply (nop_input o s).
    + by rewrite En.
    + by rewrite En.
    + apply item_announced.
    + apply item_events.
    + by apply item_written.
  - right. destruct W as [S1 W]. split; [|done]. constructor; cbn [e entry_of wlog_step e_op e_time e_height e_items wl_op wl_time wl_height wl_items].
    + by apply (nop_idle o s).
    + by rewrite (item_announced magic), W.
    + by rewrite (item_events magic), W.
    + by rewrite (item_written magic), W.
Qed.

(** ** From the start *)
Context (cap : N) (st : list (N * N)) (c0 : cache) (white : gset ip) (am : amgr).
Context (e0 : aenv) (known : gmap ip known) (F0 : fair_aenv e0) (Ea : addr_new e0 known = Val am).
Notation s0 := (full0 c0 (CbfModel.cbf0 cap st) white am).
Notation n0 := (node0 c0 (CbfModel.cbf0 cap st)).
Notation logs os := (whole_log H fullstep env (WInitialize :: os) s0).
Lemma start_log os s L : logs os = Val (s, L) ->
  exists ns n L', node_log H nstep env ns n0 = Val (n, L') /\ sim s n /\ wok (f_state s) /\ corr (entry_of <$> L) L' /\
    (forall (Q : state -> state -> Prop) (Q' : wstate -> wstate -> Prop), (forall s n s1 n1, sim s n -> sim s1 n1 -> Q n n1 -> Q' s s1) ->
      (forall a b, Q' (full0 c0 (CbfModel.cbf0 cap st) white a) b <-> Q' s0 b) -> some_step nstep Q ns n0 -> wsome_step fullstep Q' (WInitialize :: os) s0).
Proof.
  intros R. assert (whole_log H fullstep env (WInitialize :: os) (full0 c0 (CbfModel.cbf0 cap st) white (am' am)) = Val (s, L)) as R'.
  { cbn [whole_log] in *. by rewrite <- init_same. }
  destruct (log_sim _ _ n0 _ _ (start_ok cap st c0 white e0 known am F0 Ea) (start_sim cap st c0 white am) R') as (ns & n & L' & R1 & S & O & C & So).
  exists ns, n, L'. repeat (split; [done|]). intros Q Q' T T0 K. specialize (So Q Q' T K). cbn [wsome_step] in *. rewrite <- init_same in So.
  destruct (fullstep WInitialize s0) as [[s1 x]|]; [|done]. destruct So as [So|So]; [left; by apply T0 in So|by right].
Qed.

Lemma says_events x e : (forall a h ob nw fl re wt pe, e <> EvNegotiated a h ob nw fl re wt pe) -> (forall a, e <> EvDisconnected a) -> (forall a m, e <> EvMessage a m) ->
  says x e <-> e ∈ queued_events (omap item_of x).
Proof.
  intros N1 N2 N3. unfold says, queued_events. split.
  - intros (c & I). apply elem_of_list_omap. exists (FQueued c (IoEvent e)). split; [|done]. apply elem_of_list_omap. eexists. split; [exact I|reflexivity].
  - intros I. apply elem_of_list_omap in I as (i & I & J). apply elem_of_list_omap in I as (w & I & K). destruct i as [c [| | | |e']| |]; try done. injection J as ->.
    destruct w as [c' [? m| | | |w]|c' [? [? m]| | | |w]|w]; cbn [item_of] in K; try done.
    + destruct m; try done. by destruct (decide (c' = CMain)).
    + destruct w as [|? ?|? m|k|?|w]; cbn [told_of] in K; try done.
      * destruct m; try done. injection K as -> <-. by destruct (N3 (key from) m).
      * destruct k; try done; injection K as -> <-; exfalso; first [by eapply N1|by eapply N2].
      * injection K as -> ->. by exists c.
    + by destruct (told_of w).
    + by destruct (told_of w).
Qed.
Lemma one_announced o (n n' : state) x e : nstep o n = Val (n', x) -> e ∈ announced x -> announced x = [e].
Proof.
  intros E I. assert (length (announced x) <= 1)%nat as L.
  { assert (forall l : list (comp * io nmsg nev), announced (fqueued l) = []) as Q by (intros l; induction l as [|[] l IH]; [done|exact IH]).
    revert E. unfold node_step. destruct (nop_fop H scf P unkey env o) as [f|e'|]; cbn [fstep].
    - destruct (f (f_state n)) as [[? l]|]; cbn [mbind_M]; [|done]. intros [= <- <-]. rewrite Q. cbn. lia.
    - destruct (event _ e' n) as [[? l]|]; cbn [mbind_M]; [|done]. intros [= <- <-]. rewrite announced_app, Q. cbn. lia.
    - destruct (next _ _ n) as [[[? l] y]|]; cbn [mbind_M]; [|done]. intros [= <- <-]. rewrite announced_app, Q. destruct y as [[c [| | | |]]|]; cbn; lia. }
  destruct (announced x) as [|a [|b l]]; [by apply elem_of_nil in I| |cbn in L; lia]. by apply elem_of_list_singleton in I as ->.
Qed.
Lemma told_in x e : e ∈ announced (omap item_of x) <-> exists w, w ∈ announced x /\ told_of w = Some e.
Proof.
  unfold announced. split.
  - intros I. apply elem_of_list_In, in_flat_map in I as (i & I & J). apply elem_of_list_In, elem_of_list_omap in I as (w & I & K).
    destruct w as [c' [? m| | | |w]|c' [? [? m]| | | |w]|w]; cbn [item_of] in K; try done.
    + destruct m; try done. destruct (decide (c' = CMain)); [done|]. injection K as <-. destruct J.
    + destruct (told_of w); [|done]. injection K as <-. destruct J.
    + destruct (told_of w) eqn:T; [|done]. injection K as <-. destruct J as [->|[]]. exists w. split; [|done]. apply elem_of_list_In, in_flat_map. eexists. split; [apply elem_of_list_In; exact I|by left].
    + destruct (told_of w) eqn:T; [|done]. injection K as <-. destruct J as [->|[]]. exists w. split; [|done]. apply elem_of_list_In, in_flat_map. eexists. split; [apply elem_of_list_In; exact I|by left].
  - intros (w & I & T). apply elem_of_list_In, in_flat_map in I as (i & I & J). apply elem_of_list_In, in_flat_map.
    destruct i as [c' y|c' [? [? m]| | | |w']|w']; try done; cbn in J; destruct J as [->|[]].
    + exists (FEmitted c' (IoEvent e)). split; [|by left]. apply elem_of_list_In, elem_of_list_omap. eexists. split; [apply elem_of_list_In; exact I|]. cbn [item_of]. by rewrite T.
    + exists (FPassed e). split; [|by left]. apply elem_of_list_In, elem_of_list_omap. eexists. split; [apply elem_of_list_In; exact I|]. cbn [item_of]. by rewrite T.
Qed.
Lemma told_node w e : (forall a h ob nw fl re wt pe, e <> EvNegotiated a h ob nw fl re wt pe) -> (forall a, e <> EvDisconnected a) -> (forall a m, e <> EvMessage a m) -> told_of w = Some e -> w = WvNode e.
Proof.
  intros N1 N2 N3 K. destruct w as [|? ?|? m|k|?|w]; cbn [told_of] in K; try done.
  - destruct m; try done. injection K as <-. by destruct (N3 (key from) m).
  - destruct k; try done; injection K as <-; exfalso; first [by eapply N1|by eapply N2].
  - by injection K as ->.
Qed.
Lemma authentic_same s n s1 n1 h block f : sim s n -> sim s1 n1 -> vouches H P h block f n n1 -> wvouches H P h block f s s1.
Proof. intros (E & _) (E1 & _). unfold vouches, wvouches. by rewrite E, E1. Qed.
Lemma some_last (step : wop -> wstate -> M (wstate * list (fitem wmsg wev))) (Q : wstate -> wstate -> Prop) (Hs : header -> N) (en : nat -> nenv) o os : forall s s1 L s2 x, whole_log Hs step en os s = Val (s1, L) -> step o s1 = Val (s2, x) ->
  wsome_step step Q (os ++ [o]) s <-> wsome_step step Q os s \/ Q s1 s2.
Proof.
  induction os as [|p os IH]; intros s s1 L s2 x R E; cbn [whole_log app wsome_step] in *.
  - injection R as <- <-. rewrite E. tauto.
  - destruct (step p s) as [[s' y]|]; cbn [mbind_M] in R; [|done]. destruct (whole_log Hs step en os s') as [[s3 L3]|] eqn:R3; cbn [mbind_M] in R; [|done]. injection R as -> <-.
    rewrite (IH _ _ _ _ _ R3 E). tauto.
Qed.
Lemma some_last_node (Q : state -> state -> Prop) o os : forall n n1 L n2 x, node_log H nstep env os n = Val (n1, L) -> nstep o n1 = Val (n2, x) ->
  some_step nstep Q (os ++ [o]) n <-> some_step nstep Q os n \/ Q n1 n2.
Proof.
  induction os as [|p os IH]; intros n n1 L n2 x R E; cbn [node_log app some_step] in *.
  - injection R as <- <-. rewrite E. tauto.
  - destruct (nstep p n) as [[n' y]|]; cbn [mbind_M] in R; [|done]. destruct (node_log H nstep env os n') as [[n3 L3]|] eqn:R3; cbn [mbind_M] in R; [|done]. injection R as -> <-.
    rewrite (IH _ _ _ _ _ R3 E). tauto.
Qed.

Context (Ch : CbfSpec.chained P ((CbfModel.p_genesis P, CbfModel.p_header P (CbfModel.p_genesis P) 0) :: st)).
Theorem whole_matched os s L o s' x block h v m c : logs os = Val (s, L) -> fullstep o s = Val (s', x) ->
  says x (EvCbf (CbfModel.CoFilterProcessed block h v m c)) ->
  exists f, wsome_step fullstep (wvouches H P h block f) ((WInitialize :: os) ++ [o]) s0 /\
    (m = true <-> looked_for P (entry_of <$> L ++ [wlog_step H env o s x]) f block).
Proof.
  intros R E Y. apply says_events in Y; [|done..]. destruct (start_log _ _ _ R) as (ns & n & L' & Rn & S & O & C & So).
  destruct (one_sim o s n s' x O S E) as [_ [(no & n' & _ & En & S' & Si)|[Ne _]]]; [|pose proof (ne_events _ Ne) as Z; cbn [e_items entry_of wlog_step wl_items] in Z; rewrite Z in Y; by apply elem_of_nil in Y].
  pose proof (si_events _ _ Si) as Z. cbn [e_items entry_of wlog_step wl_items log_step] in Z. rewrite Z in Y.
  destruct (node_matched H scf P unkey env magic c0 cap st Ch ns n L' no n' _ block h v m c Rn En Y) as (f & K & M). exists f. split.
  - apply (some_last fullstep _ H env o _ _ _ _ _ _ R E). apply (some_last_node _ no _ _ _ _ _ _ Rn En) in K. destruct K as [K|K]; [left|right; exact (authentic_same _ _ _ _ _ _ _ S S' K)].
    refine (So _ _ _ _ K); [intros ? ? ? ?; apply authentic_same|intros a b; reflexivity].
  - rewrite M. symmetry. rewrite fmap_app. apply corr_looked, corr_app; [exact C|]. apply corr_same; [exact Si|constructor].
Qed.
Theorem whole_reported os s L o s' x block h : logs os = Val (s, L) -> fullstep o s = Val (s', x) ->
  says x (EvCbf (CbfModel.CoBlockMatched block h)) <->
  (exists b f, WvNode (EvInv (InvModel.IoBlock b h f)) ∈ announced x /\ InvModel.b_hash b = block) /\ awaited h (entry_of <$> L) = true.
Proof.
  intros R E. rewrite says_events by done. destruct (start_log _ _ _ R) as (ns & n & L' & Rn & S & O & C & So). rewrite (corr_awaited h _ _ C).
  assert (forall b f, WvNode (EvInv (InvModel.IoBlock b h f)) ∈ announced x <-> EvInv (InvModel.IoBlock b h f) ∈ announced (omap item_of x)) as Q.
  { intros b f. rewrite told_in. split; [intros I; eauto|]. intros (w & I & T). apply told_node in T as ->; done. }
  destruct (one_sim o s n s' x O S E) as [_ [(no & n' & _ & En & S' & Si)|[Ne _]]].
  - pose proof (si_events _ _ Si) as Z. pose proof (si_announced _ _ Si) as A. cbn [e_items entry_of wlog_step wl_items log_step] in Z, A. rewrite Z.
    rewrite (node_reported H scf P unkey env magic c0 cap st Ch ns n L' no n' _ block h Rn En). f_equiv. split.
    + intros (b & f & K & Hb). exists b, f. split; [|done]. apply Q. rewrite A, K. by left.
    + intros (b & f & K & Hb). exists b, f. split; [|done]. apply Q in K. rewrite A in K. by apply (one_announced _ _ _ _ _ En).
  - pose proof (ne_events _ Ne) as Z. pose proof (ne_announced _ Ne) as A. cbn [e_items entry_of wlog_step wl_items] in Z, A. rewrite Z. split; [by intros I%elem_of_nil|].
    intros [(b & f & K & _) _]. apply Q in K. rewrite A in K. by apply elem_of_nil in K.
Qed.
Lemma same_wanted h l l' e e' : corr l l' -> similar e e' -> makes_wanted h l e -> makes_wanted h l' e'.
Proof.
  intros C Si [W|(k & v & c & I & A)].
  - left. destruct (si_op _ _ Si) as [<-|[J _]]; [done|]. by rewrite W in J.
  - right. exists k, v, c. rewrite <- (si_events _ _ Si), <- (corr_awaited k _ _ C). done.
Qed.
Lemma wanted_not_neutral h l e : makes_wanted h l e -> ~ neutral e.
Proof. intros [W|(k & v & c & I & A)] Ne; [pose proof (ne_idle _ Ne) as J; by rewrite W in J|]. rewrite (ne_events _ Ne) in I. by apply elem_of_nil in I. Qed.
Theorem whole_fetched os s L1 e L2 s' x h a : logs os = Val (s, L1 ++ e :: L2) -> fullstep WTimer s = Val (s', x) ->
  let l := entry_of (wlog_step H env WTimer s x) in
  makes_wanted h (entry_of <$> L1) (entry_of e) -> Forall (fun e => existsb (block_message h) (announced (e_items (entry_of e))) = false) L2 ->
  default 0 (last_asked h (entry_of <$> L1 ++ e :: L2)) + 15000 <= e_time l -> serves a ((entry_of <$> L1 ++ e :: L2) ++ [l]) = Some true ->
  exists b, writes x b (MGetData [InvModel.InvBlock h]).
Proof.
  intros R E l W Fm Tm Sv. subst l. destruct (start_log _ _ _ R) as (ns & n & L' & Rn & S & O & C & So). pose proof C as C0. rewrite fmap_app, fmap_cons in C.
  destruct (corr_mid _ _ _ _ C (wanted_not_neutral _ _ _ W)) as (L1' & e' & L2' & -> & C1 & Si & C2).
  destruct (one_sim WTimer s n s' x O S E) as [_ [(no & n' & No & En & S' & Sl)|[Ne _]]]; [|by destruct (ne_idle _ Ne)]. cbn [nop_of] in No. injection No as <-.
  rewrite (corr_asked h _ _ C0) in Tm. rewrite (corr_serves a _ _ (corr_app _ _ _ _ C0 (corr_same _ _ _ _ Sl corr_nil))) in Sv. rewrite (si_time _ _ Sl) in Tm.
  destruct (node_fetched H scf P unkey env magic c0 cap st Ch ns n L1' e' L2' n' _ h a Rn En (same_wanted _ _ _ _ _ C1 Si W)) as (b & I); [|exact Tm|exact Sv|].
  - refine (corr_Forall (fun e => existsb (block_message h) (announced (e_items e)) = false) _ _ _ C2 _); [|by apply Forall_fmap].
    intros e2 e2' K Q. by rewrite <- (si_announced _ _ K).
  - pose proof (si_written _ _ Sl) as Z. cbn [e_items entry_of wlog_step wl_items log_step] in Z. rewrite <- Z in I. exists (unkey b).
    unfold written in I. apply elem_of_list_omap in I as (i & I & J). apply elem_of_list_omap in I as (w & I & K). destruct i as [c [| | | |]| |]; try done. injection J as -> ->.
    destruct w as [c' [? q| | | |w]|c' [? [? q]| | | |w]|w]; cbn [item_of] in K; try done; try (by destruct (told_of w)). destruct q; try done. destruct (decide (c' = CMain)); [done|]. injection K as -> -> ->. by exists c.
Qed.
Theorem whole_reverted os s L1 e L2 o s' x id hash h b k th rv cn : logs os = Val (s, L1 ++ e :: L2) -> fullstep o s = Val (s', x) ->
  says (wl_items e) (EvInv (InvModel.IoStatus id (InvModel.StConfirmed hash h))) -> Forall (fun e => keeps h (entry_of e)) L2 ->
  WvNode (EvSync (SyncModel.SoImported b k th rv cn)) ∈ announced x -> h ∈ rv.*1 ->
  exists t, t_id t = id /\ says x (EvInv (InvModel.IoStatus id (InvModel.StReverted t))).
Proof.
  intros R E Y Kp An Ih. apply says_events in Y; [|done..]. destruct (start_log _ _ _ R) as (ns & n & L' & Rn & S & O & C & So). rewrite fmap_app, fmap_cons in C.
  assert (~ neutral (entry_of e)) as Nn. { intros Ne. pose proof (ne_events _ Ne) as Z. cbn [e_items entry_of wlog_step wl_items] in Z. rewrite Z in Y. by apply elem_of_nil in Y. }
  destruct (corr_mid _ _ _ _ C Nn) as (L1' & e' & L2' & -> & C1 & Si & C2).
  assert (EvSync (SyncModel.SoImported b k th rv cn) ∈ announced (omap item_of x)) as Q. { apply told_in. eauto. }
  destruct (one_sim o s n s' x O S E) as [_ [(no & n' & _ & En & S' & Sl)|[Ne _]]]; [|pose proof (ne_announced _ Ne) as Z; cbn [e_items entry_of wlog_step wl_items] in Z; rewrite Z in Q; by apply elem_of_nil in Q].
  pose proof (si_announced _ _ Sl) as Z. cbn [e_items entry_of wlog_step wl_items log_step] in Z. rewrite Z in Q. pose proof (si_events _ _ Si) as Z1. cbn [e_items entry_of] in Z1. rewrite Z1 in Y.
  assert (Forall (keeps h) L2') as F2 by (apply (corr_Forall _ (same_keeps h) _ _ C2); by apply Forall_fmap).
  destruct (node_reverted H scf P unkey env magic c0 cap st ns n L1' e' L2' no n' _ id hash h b k th rv cn Rn En Y F2 Q Ih) as (t & It & Qt). exists t. split; [done|].
  apply says_events; [done..|]. pose proof (si_events _ _ Sl) as Z2. cbn [e_items entry_of wlog_step wl_items log_step] in Z2. by rewrite Z2.
Qed.
End Whole.
