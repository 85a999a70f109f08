(** What a node writes, given what it has announced. *)
From Verif Require Import Base PowModel BlockModel UtilModel FeeModel AddrModel PeerModel
  DispModel DispSpec DispProofs LoadModel NodeModel NodeSpec NodeTold NodeLogSpec.
From Verif Require SyncModel SyncSpec SyncMain SyncFacts SyncAsk CbfModel CbfSpec CbfWatch InvModel InvSpec InvProofs InvTrack InvViews InvOrigin.
Open Scope N_scope.

Section Log.
Context (H : header -> N) (scf : SyncModel.sconf) (P : CbfModel.params) (sock : N -> sockaddr) (env : nat -> nenv) (magic : N).
Notation nexec := (nexec H scf P).
Notation step_calls := (step_calls H scf P env).

Lemma nexec_split a : forall b n n', nexec (a ++ b) n n' -> exists m, nexec a n m /\ nexec b m n'.
Proof.
  induction a as [|k a IH]; intros b n n' X; cbn [app] in X; [exists n; split; [apply nexec_refl|exact X]|].
  inversion X; subst; match goal with Y : NodeTold.nexec _ _ _ (a ++ b) _ _ |- _ => destruct (IH _ _ _ Y) as (m & A & B) end; exists m; (split; [|exact B]);
    [eapply XSync|eapply XInv|eapply XCbf]; eassumption.
Qed.

(** ** Where calls come from *)
Definition origin (o : nop) (es : list nev) (k : ncall) : Prop :=
  match k with
  | KSync oe _ => (exists n, oe.2 = ne_sync (env n)) /\
      ((exists e n, es = [e] /\ sync_event env e n = Some oe.1) \/
       es = [] /\ match oe.1 with SyncModel.SInitialize | SyncModel.STimer | SyncModel.SImport _ => True | _ => False end)
  | KInv i _ =>
      (exists e n, es = [e] /\ inv_event H e n = Some i) \/ (exists h, i = InvModel.IGetBlock h) \/
      es = [] /\ match i with InvModel.ITimer _ _ _ => o = NTimer | InvModel.IAnnounce t => o = NSubmit t | _ => False end
  | KCbf i _ => (exists n, CbfSpec.i_k i = ne_cbf (env n)) /\
      ((exists e, es = [e] /\ cbf_event e = Some (CbfSpec.i_op i)) \/
       es = [] /\ match CbfSpec.i_op i with
         | CbfModel.CInitialize => o = NInitialize
         | CbfModel.CTimer => o = NTimer
         | CbfModel.CRescan a b w => o = NRescan a b w
         | CbfModel.CWatch w => o = NWatch w
         | CbfModel.CRequestFilters a b => o = NRequestFilters a b
         | CbfModel.CWatchTx i os => exists t, o = NSubmit t /\ i = t_id t /\ os = (t_outs t).*2
         | _ => False
         end)
  end.

Lemma wants_origin o es x k : k ∈ wants x -> origin o es k.
Proof. unfold wants. intros (h & -> & _)%elem_of_list_fmap. right. left. by exists h. Qed.
Lemma cbf_part_origin o es n c cs k : cbf_part H env (Some c) n cs -> k ∈ cs ->
  (forall i y, k = KCbf i y -> CbfSpec.i_op i = c -> (exists n, CbfSpec.i_k i = ne_cbf (env n)) -> origin o es k) -> origin o es k.
Proof.
  intros (x & ->) Hk G. apply elem_of_cons in Hk as [ -> |Hk]; [|by eapply wants_origin]. eapply G; [reflexivity|reflexivity|]. by eexists.
Qed.
Lemma event_origin o e n cs k : event_calls H scf P env e n cs -> k ∈ cs -> origin o [e] k.
Proof.
  intros (a & b & d & n1 & n2 & -> & _ & _ & Pa & Pb & Pd). rewrite !elem_of_app. intros [Hk|[Hk|Hk]].
  - destruct (cbf_event e) as [c|] eqn:E; [|cbn in Pa; subst a; by apply elem_of_nil in Hk].
    eapply cbf_part_origin; [exact Pa|exact Hk|]. intros i y -> <- K. split; [exact K|]. left. by exists e.
  - destruct (inv_event H e n1) as [c|] eqn:E; [|cbn in Pb; subst b; by apply elem_of_nil in Hk].
    destruct Pb as (x & -> ). apply elem_of_list_singleton in Hk as -> . left. by exists e, n1.
  - destruct (sync_event env e n2) as [c|] eqn:E; [|cbn in Pd; subst d; by apply elem_of_nil in Hk].
    destruct Pd as (x & -> ). apply elem_of_list_singleton in Hk as -> . split; [by eexists|]. left. by exists e, n2.
Qed.
Lemma step_origin o es n cs k : step_calls o es n cs -> k ∈ cs -> origin o es k.
Proof.
  destruct o; cbn [NodeTold.step_calls].
  - intros (-> & a & b & n1 & -> & _ & (x & ->) & Pb) [Hk|Hk]%elem_of_app.
    + apply elem_of_list_singleton in Hk as -> . split; [by eexists|by right].
    + eapply cbf_part_origin; [exact Pb|exact Hk|]. intros i y -> E K. split; [exact K|]. right. by rewrite E.
  - intros (-> & _) Hk. by apply elem_of_nil in Hk.
  - intros (-> & E) Hk. by eapply event_origin.
  - intros (-> & a & b & d & n1 & n2 & -> & _ & _ & (x & ->) & (y & ->) & Pd). rewrite !elem_of_app, !elem_of_list_singleton. intros [-> |[-> |Hk]].
    + right. by right.
    + split; [by eexists|by right].
    + eapply cbf_part_origin; [exact Pd|exact Hk|]. intros i z -> E K. split; [exact K|]. right. by rewrite E.
  - intros (-> & x & ->) Hk. apply elem_of_list_singleton in Hk as -> . split; [by eexists|by right].
  - intros (-> & Pd) Hk. eapply cbf_part_origin; [exact Pd|exact Hk|]. intros i z -> E K. split; [exact K|]. right. by rewrite E.
  - intros (-> & Pd) Hk. eapply cbf_part_origin; [exact Pd|exact Hk|]. intros i z -> E K. split; [exact K|]. right. by rewrite E.
  - intros (-> & Pd) Hk. eapply cbf_part_origin; [exact Pd|exact Hk|]. intros i z -> E K. split; [exact K|]. right. by rewrite E.
  - intros (-> & x & ->) Hk. apply elem_of_list_singleton in Hk as -> . right. left. by eexists.
  - intros (-> & a & b & n1 & -> & _ & Pa & (x & ->)) [Hk|Hk]%elem_of_app.
    + eapply cbf_part_origin; [exact Pa|exact Hk|]. intros i z -> E K. split; [exact K|]. right. rewrite E. split; [done|]. by exists t.
    + apply elem_of_list_singleton in Hk as -> . right. by right.
  - intros [(-> & ->)|(e & -> & E)] Hk; [by apply elem_of_nil in Hk|by eapply event_origin].
Qed.
Lemma step_events o es n cs : step_calls o es n cs -> es = [] \/ exists e, es = [e].
Proof. destruct o; cbn [NodeTold.step_calls]; intros S; try (by left; apply S); [right; destruct S as [-> _]; by eexists|]. destruct S as [[-> _]|(e & -> & _)]; [by left|right; by exists e]. Qed.

(** ** One call of each manager *)
Lemma wants_sync x : sync_calls (wants x) = [] /\ sync_outs (wants x) = [].
Proof. unfold wants. induction (blocks_of x); [done|]. exact IHl. Qed.
Lemma wants_cbf x : cbf_calls (wants x) = [] /\ cbf_outs (wants x) = [].
Proof. unfold wants. induction (blocks_of x); [done|]. exact IHl. Qed.
Lemma wants_inv x : inv_calls (wants x) = InvModel.IGetBlock <$> blocks_of x /\ inv_outs (wants x) = (fun _ => [InvModel.IoTimer 1000]) <$> blocks_of x.
Proof. unfold wants. induction (blocks_of x) as [|h l [A B]]; [done|]. unfold inv_calls, inv_outs in *. cbn. by rewrite A, B. Qed.
Lemma calls_app {A} (f : ncall -> option A) a b : omap f (a ++ b) = omap f a ++ omap f b.
Proof. apply omap_app. Qed.

Definition one_sync (o : option SyncModel.sync_op) (cs : list ncall) : Prop :=
  match o with
  | None => sync_calls cs = [] /\ sync_outs cs = []
  | Some o => exists e x, sync_calls cs = [(o, e)] /\ sync_outs cs = [x]
  end.
Definition one_cbf (o : option CbfModel.cbf_op) (cs : list ncall) : Prop :=
  match o with
  | None => cbf_calls cs = [] /\ cbf_outs cs = []
  | Some o => exists i x, CbfSpec.i_op i = o /\ cbf_calls cs = [i] /\ cbf_outs cs = [x]
  end.
Definition one_inv (o : option InvModel.inv_op) (cs : list ncall) : Prop :=
  exists l1 l2, match o with
  | None => inv_calls cs = InvModel.IGetBlock <$> l1 /\ inv_outs cs = (fun _ => [InvModel.IoTimer 1000]) <$> l1
  | Some o => exists x, inv_calls cs = (InvModel.IGetBlock <$> l1) ++ o :: (InvModel.IGetBlock <$> l2) /\
      inv_outs cs = ((fun _ => [InvModel.IoTimer 1000]) <$> l1) ++ x :: ((fun _ => [InvModel.IoTimer 1000]) <$> l2)
  end.

Lemma part_cbf o n cs : cbf_part H env o n cs -> one_cbf o cs /\ one_sync None cs /\ one_inv None cs.
Proof.
  destruct o as [o|]; cbn [cbf_part].
  - intros (x & -> ). unfold one_cbf, one_sync, one_inv, sync_calls, sync_outs, cbf_calls, cbf_outs, inv_calls, inv_outs. cbn [omap list_omap].
    destruct (wants_sync x) as [A1 A2]. destruct (wants_cbf x) as [B1 B2]. destruct (wants_inv x) as [C1 C2].
    unfold sync_calls, sync_outs, cbf_calls, cbf_outs, inv_calls, inv_outs in *. rewrite A1, A2, B1, B2, C1, C2.
    split; [|split; [done|by exists (blocks_of x), []]]. eexists _, x. split; [|split; reflexivity]. done.
  - intros -> . split; [done|]. split; [done|]. by exists [], [].
Qed.
Lemma part_sync o n cs : sync_part env o n cs -> one_cbf None cs /\ one_sync o cs /\ one_inv None cs.
Proof. destruct o as [o|]; cbn [sync_part]; [intros (x & -> )|intros -> ]; (split; [done|]); (split; [|by exists [], []]); [|done]. by eexists _, x. Qed.
Lemma part_inv o cs : inv_part o cs -> one_cbf None cs /\ one_sync None cs /\ one_inv o cs.
Proof. destruct o as [o|]; cbn [inv_part]; [intros (x & -> )|intros -> ]; (split; [done|]); (split; [done|]); exists [], []; [|done]. by exists x. Qed.

Lemma one_sync_app o1 o2 a b : one_sync o1 a -> one_sync o2 b -> o1 = None \/ o2 = None -> one_sync (match o1 with Some _ => o1 | None => o2 end) (a ++ b).
Proof.
  intros A B D. unfold one_sync in *. unfold sync_calls, sync_outs in *. destruct o1 as [o1|], o2 as [o2|]; try (by destruct D); rewrite !calls_app.
  - destruct A as (e & x & -> & -> ), B as [-> ->]. by exists e, x.
  - destruct B as (e & x & -> & -> ), A as [-> ->]. by exists e, x.
  - by destruct A as [-> ->], B as [-> ->].
Qed.
Lemma one_cbf_app o1 o2 a b : one_cbf o1 a -> one_cbf o2 b -> o1 = None \/ o2 = None -> one_cbf (match o1 with Some _ => o1 | None => o2 end) (a ++ b).
Proof.
  intros A B D. unfold one_cbf in *. unfold cbf_calls, cbf_outs in *. destruct o1 as [o1|], o2 as [o2|]; try (by destruct D); rewrite !calls_app.
  - destruct A as (e & x & ? & -> & -> ), B as [-> ->]. by exists e, x.
  - destruct B as (e & x & ? & -> & -> ), A as [-> ->]. by exists e, x.
  - by destruct A as [-> ->], B as [-> ->].
Qed.
Lemma one_inv_app o1 o2 a b : one_inv o1 a -> one_inv o2 b -> o1 = None \/ o2 = None -> one_inv (match o1 with Some _ => o1 | None => o2 end) (a ++ b).
Proof.
  intros (l1 & l2 & A) (l3 & l4 & B) D. unfold one_inv. unfold inv_calls, inv_outs in *. destruct o1 as [o1|], o2 as [o2|]; try (by destruct D); rewrite !calls_app.
  - destruct A as (x & -> & -> ), B as [-> ->]. exists l1, (l2 ++ l3), x. rewrite !fmap_app, <- !app_assoc. done.
  - destruct B as (x & -> & -> ), A as [-> ->]. exists (l1 ++ l3), l4, x. rewrite !fmap_app, <- !app_assoc. done.
  - destruct A as [-> ->], B as [-> ->]. exists (l1 ++ l3), []. by rewrite !fmap_app.
Qed.

(** The calls of the managers in a step. *)
Definition quiet_sync (o : option SyncModel.sync_op) : Prop :=
  match o with None | Some SyncModel.SInitialize | Some SyncModel.STimer | Some (SyncModel.SImport _) => True | _ => False end.
Definition inv_input (o : nop) (n : node) : option InvModel.inv_op :=
  match o with
  | NTimer => Some (InvModel.ITimer (SyncModel.se_now (ne_sync (env (n_calls n)))) (CbfModel.tr_height (tree_of H (n_cache n))) (ne_pick (env (n_calls n))))
  | NRequestBlock h => Some (InvModel.IGetBlock h)
  | NSubmit t => Some (InvModel.IAnnounce t)
  | _ => None
  end.
Definition cbf_input (o : nop) : option CbfModel.cbf_op :=
  match o with
  | NInitialize => Some CbfModel.CInitialize
  | NTimer => Some CbfModel.CTimer
  | NRescan a b w => Some (CbfModel.CRescan a b w)
  | NWatch w => Some (CbfModel.CWatch w)
  | NRequestFilters a b => Some (CbfModel.CRequestFilters a b)
  | NSubmit t => Some (CbfModel.CWatchTx (t_id t) (t_outs t).*2)
  | _ => None
  end.
Lemma event_shape e n cs : event_calls H scf P env e n cs ->
  one_cbf (cbf_event e) cs /\ (exists n1, one_inv (inv_event H e n1) cs) /\ exists n2, one_sync (sync_event env e n2) cs.
Proof.
  intros (a & b & d & n1 & n2 & -> & _ & _ & Pa & Pb & Pd). apply part_cbf in Pa as (A1 & A2 & A3). apply part_inv in Pb as (B1 & B2 & B3).
  apply part_sync in Pd as (D1 & D2 & D3). split; [|split; [exists n1|exists n2]].
  - pose proof (one_cbf_app _ _ _ _ B1 D1 (or_introl eq_refl)) as Q. pose proof (one_cbf_app _ _ _ _ A1 Q (or_intror eq_refl)) as R. by destruct (cbf_event e).
  - pose proof (one_inv_app _ _ _ _ B3 D3 (or_intror eq_refl)) as Q. pose proof (one_inv_app _ _ _ _ A3 Q (or_introl eq_refl)) as R. cbn in R. by destruct (inv_event H e n1).
  - pose proof (one_sync_app _ _ _ _ B2 D2 (or_introl eq_refl)) as Q. exact (one_sync_app _ _ _ _ A2 Q (or_introl eq_refl)).
Qed.
Lemma step_shape o es n cs : step_calls o es n cs ->
  (es = [] /\ one_cbf (match o with NMessage _ _ | NNext => None | _ => cbf_input o end) cs /\
   one_inv (match o with NMessage _ _ | NNext => None | _ => inv_input o n end) cs /\ exists so, quiet_sync so /\ one_sync so cs) \/
  (exists e, es = [e] /\ one_cbf (cbf_event e) cs /\ (exists n1, one_inv (inv_event H e n1) cs) /\ exists n2, one_sync (sync_event env e n2) cs).
Proof.
  assert (Ev : forall e, event_calls H scf P env e n cs -> exists e', [e] = [e'] /\ one_cbf (cbf_event e') cs /\ (exists n1, one_inv (inv_event H e' n1) cs) /\ exists n2, one_sync (sync_event env e' n2) cs).
  { intros e E. exists e. split; [done|]. by apply (event_shape _ n). }
  destruct o; cbn [NodeTold.step_calls cbf_input inv_input].
  - intros (-> & a & b & n1 & -> & _ & Pa & Pb). left. split; [done|]. apply part_sync in Pa as (A1 & A2 & A3). apply part_cbf in Pb as (B1 & B2 & B3).
    split; [exact (one_cbf_app _ _ _ _ A1 B1 (or_introl eq_refl))|]. split; [exact (one_inv_app _ _ _ _ A3 B3 (or_introl eq_refl))|].
    exists (Some SyncModel.SInitialize). split; [done|]. exact (one_sync_app _ _ _ _ A2 B2 (or_intror eq_refl)).
  - intros [-> ->]. left. split; [done|]. split; [done|]. split; [by exists [], []|]. by exists None.
  - intros [-> E]. right. by apply Ev.
  - intros (-> & a & b & d & n1 & n2 & -> & _ & _ & Pa & Pb & Pd). left. split; [done|]. apply part_inv in Pa as (A1 & A2 & A3). apply part_sync in Pb as (B1 & B2 & B3).
    apply part_cbf in Pd as (D1 & D2 & D3). split.
    + pose proof (one_cbf_app _ _ _ _ B1 D1 (or_introl eq_refl)) as Q. exact (one_cbf_app _ _ _ _ A1 Q (or_introl eq_refl)).
    + split.
      * pose proof (one_inv_app _ _ _ _ B3 D3 (or_introl eq_refl)) as Q. exact (one_inv_app _ _ _ _ A3 Q (or_intror eq_refl)).
      * exists (Some SyncModel.STimer). split; [done|]. pose proof (one_sync_app _ _ _ _ B2 D2 (or_intror eq_refl)) as Q. exact (one_sync_app _ _ _ _ A2 Q (or_introl eq_refl)).
  - intros (-> & Pa). left. split; [done|]. apply part_sync in Pa as (A1 & A2 & A3). split; [done|]. split; [done|]. eexists. split; [|exact A2]. done.
  - intros (-> & Pa). left. split; [done|]. apply part_cbf in Pa as (A1 & A2 & A3). split; [done|]. split; [done|]. by exists None.
  - intros (-> & Pa). left. split; [done|]. apply part_cbf in Pa as (A1 & A2 & A3). split; [done|]. split; [done|]. by exists None.
  - intros (-> & Pa). left. split; [done|]. apply part_cbf in Pa as (A1 & A2 & A3). split; [done|]. split; [done|]. by exists None.
  - intros (-> & Pa). left. split; [done|]. apply part_inv in Pa as (A1 & A2 & A3). split; [done|]. split; [done|]. by exists None.
  - intros (-> & a & b & n1 & -> & _ & Pa & Pb). left. split; [done|]. apply part_cbf in Pa as (A1 & A2 & A3). apply part_inv in Pb as (B1 & B2 & B3).
    split; [exact (one_cbf_app _ _ _ _ A1 B1 (or_intror eq_refl))|]. split; [exact (one_inv_app _ _ _ _ A3 B3 (or_introl eq_refl))|].
    exists None. split; [done|]. exact (one_sync_app _ _ _ _ A2 B2 (or_introl eq_refl)).
  - intros [[-> ->]|(e & -> & E)]; [|right; by apply Ev]. left. split; [done|]. split; [done|]. split; [by exists [], []|]. by exists None.
Qed.

(** ** What the managers know of a peer *)
Definition sync_knows (a : N) (v : option SyncSpec.pview) (l : list handshake) : Prop :=
  forall p, v = Some p -> exists h, h ∈ l /\ sh_outbound h = SyncSpec.pv_outbound p /\ negb (sh_outbound h) || sh_network h = true.
Definition inv_knows (a : N) (v : option InvSpec.pview) (l : list handshake) : Prop :=
  forall p, v = Some p -> exists h l', l = h :: l' /\ sh_network h = InvSpec.pv_network p /\ sh_wtx h = InvSpec.pv_wtx p.
Definition cbf_knows (a : N) (w : CbfSpec.watch) (l : list handshake) : Prop :=
  a ∈ CbfSpec.w_peers w -> exists h, h ∈ l /\ sh_outbound h = true /\ sh_filters h = true.

Lemma sync_knows_step a oe x v l e : (match e with Some e => exists n, sync_event env e n = Some oe.1 | None => quiet_sync (Some oe.1) end) ->
  sync_knows a v l -> sync_knows a (SyncSpec.remember (SyncSpec.asks a x) (SyncSpec.heard a oe x v)) (match e with Some e => shake_step a l e | None => l end).
Proof.
  intros E K. assert (R : forall v' l', sync_knows a v' l' -> sync_knows a (SyncSpec.remember (SyncSpec.asks a x) v') l').
  { intros v' l' K'. unfold SyncSpec.remember. destruct v' as [p|]; [|done]. destruct (last _); [|done]. intros q [= <- ]. exact (K' p eq_refl). }
  apply R. clear R. unfold SyncSpec.heard. destruct e as [e|].
  - destruct E as (n & E). destruct e as [a' h ob nw fl re wt pe|a'|from m| | |]; cbn [sync_event] in E; try done.
    + injection E as <- . cbn [shake_step]. destruct (N.eqb_spec a' a) as [-> |]; cbn [andb]; [|exact K]. destruct (negb ob || nw) eqn:Q.
      * intros p [= <- ]. exists (Shake ob nw fl wt). split; [by left|done].
      * intros p Hp. destruct (K p Hp) as (s & ? & ?). exists s. split; [by right|done].
    + injection E as <- . cbn [shake_step]. by destruct (a' =? a).
    + cbn [shake_step]. destruct m; try done; injection E as <- ; try exact K. destruct v as [p|]; [|done]. destruct (SyncSpec.imported x); [|done].
      destruct (from =? a); [|exact K]. intros q [= <- ]. exact (K p eq_refl).
  - destruct (oe.1); cbn in E; done.
Qed.
Lemma sync_knows_none a v l e n : sync_event env e n = None -> sync_knows a v l -> sync_knows a v (shake_step a l e).
Proof. intros E K. by destruct e. Qed.
Lemma sync_told o es n cs a v l : step_calls o es n cs -> sync_knows a v l -> sync_knows a (SyncSpec.seen a (sync_calls cs) (sync_outs cs) v) (foldl (shake_step a) l es).
Proof.
  intros S K. apply step_shape in S as [(-> & _ & _ & so & Q & O)|(e & -> & _ & _ & n2 & O)].
  - destruct so as [so|]; cbn [one_sync] in O; [|destruct O as [-> ->]; exact K]. destruct O as (ev & x & -> & -> ). cbn [SyncSpec.seen foldl].
    exact (sync_knows_step a (so, ev) x v l None Q K).
  - cbn [foldl]. destruct (sync_event env e n2) as [so|] eqn:E; cbn [one_sync] in O.
    + destruct O as (ev & x & -> & -> ). cbn [SyncSpec.seen]. refine (sync_knows_step a (so, ev) x v l (Some e) _ K). by exists n2.
    + destruct O as [-> ->]. by eapply sync_knows_none.
Qed.

Lemma views_app a os : forall xs os' xs' v, length os = length xs -> InvSpec.views a (os ++ os') (xs ++ xs') v = InvSpec.views a os' xs' (InvSpec.views a os xs v).
Proof. induction os as [|o os IH]; intros [|x xs] os' xs' v L; try done. cbn. apply IH. by injection L. Qed.
Lemma views_wants a l : forall v, InvSpec.views a (InvModel.IGetBlock <$> l) ((fun _ => [InvModel.IoTimer 1000]) <$> l) v = v.
Proof. induction l as [|h l IH]; intros v; [done|]. cbn. apply IH. Qed.
Lemma inv_knows_map (f : InvSpec.pview -> InvSpec.pview) a v l : (forall p, InvSpec.pv_network (f p) = InvSpec.pv_network p /\ InvSpec.pv_wtx (f p) = InvSpec.pv_wtx p) ->
  inv_knows a v l -> inv_knows a (f <$> v) l.
Proof. intros F K p. destruct v as [q|]; [|done]. cbn. intros [= <- ]. destruct (K q eq_refl) as (h & l' & -> & ? & ?), (F q) as [-> ->]. by exists h, l'. Qed.
Lemma inv_knows_quiet a o x v l : (match o with InvModel.INegotiated _ _ _ _ | InvModel.IDisconnected _ => False | _ => True end) ->
  inv_knows a v l -> inv_knows a (InvSpec.view_step a o x v) l.
Proof.
  intros Q K. destruct o; try done; cbn [InvSpec.view_step]; repeat match goal with |- context [existsb ?f x] => destruct (existsb f x) end; try done; by apply inv_knows_map.
Qed.
Lemma inv_knows_step a o x v l e n : inv_event H e n = Some o -> inv_knows a v l -> inv_knows a (InvSpec.view_step a o x v) (shake_step a l e).
Proof.
  intros E K. destruct e as [a' h ob nw fl re wt pe|a'|from m|so|co|io]; cbn [inv_event] in E; try done.
  - injection E as <- . cbn [InvSpec.view_step shake_step]. destruct (N.eqb_spec a' a) as [-> |]; [|exact K]. intros p [= <- ]. by exists (Shake ob nw fl wt), l.
  - injection E as <- . cbn [InvSpec.view_step shake_step]. by destruct (a' =? a).
  - cbn [shake_step]. apply inv_knows_quiet; [|exact K]. by destruct m; try done; injection E as <- .
  - cbn [shake_step]. apply inv_knows_quiet; [|exact K]. by destruct so; try done; injection E as <- .
Qed.
Lemma inv_told o es n cs a v l : step_calls o es n cs -> inv_knows a v l -> inv_knows a (InvSpec.views a (inv_calls cs) (inv_outs cs) v) (foldl (shake_step a) l es).
Proof.
  intros S K. apply step_shape in S as [(-> & _ & (l1 & l2 & O) & _)|(e & -> & _ & (n1 & l1 & l2 & O) & _)]; cbn [foldl].
  - match type of O with match ?z with _ => _ end => destruct z as [io|] eqn:E end.
    + destruct O as (x & -> & -> ). rewrite views_app by (by rewrite !fmap_length). cbn [InvSpec.views]. rewrite !views_wants. apply inv_knows_quiet; [|exact K].
      by destruct o; cbn in E; try done; injection E as <- .
    + destruct O as [-> ->]. by rewrite views_wants.
  - destruct (inv_event H e n1) as [io|] eqn:E.
    + destruct O as (x & -> & -> ). rewrite views_app by (by rewrite !fmap_length). cbn [InvSpec.views]. rewrite !views_wants. by eapply inv_knows_step.
    + destruct O as [-> ->]. rewrite views_wants. by destruct e.
Qed.

Lemma cbf_knows_outs a i x : forall w l, cbf_knows a w l -> cbf_knows a (foldl (CbfSpec.watch_out i) w x) l.
Proof.
  induction x as [|o x IH]; intros w l K; cbn [foldl]; [done|]. apply IH. destruct o; try done; cbn.
  intros Q. apply K. set_solver.
Qed.
Lemma cbf_knows_in a i w l : (match CbfSpec.i_op i with CbfModel.CNegotiated _ _ _ _ | CbfModel.CDisconnected _ => False | _ => True end) ->
  cbf_knows a w l -> cbf_knows a (CbfSpec.watch_in w i) l.
Proof. intros Q K. unfold CbfSpec.watch_in. by destruct (CbfSpec.i_op i). Qed.
Lemma cbf_knows_event a e i w l : cbf_event e = Some (CbfSpec.i_op i) -> cbf_knows a w l -> cbf_knows a (CbfSpec.watch_in w i) (shake_step a l e).
Proof.
  intros E K. destruct e as [a' h ob nw fl re wt pe|a'|from m|so|co|io]; cbn [cbf_event] in E; try done.
  - injection E as E. unfold CbfSpec.watch_in. rewrite <- E. cbn [shake_step].
    assert (L : cbf_knows a w (if a' =? a then Shake ob nw fl wt :: l else l)).
    { intros Q. destruct (K Q) as (s & ? & ?). exists s. split; [|done]. destruct (a' =? a); [by right|done]. }
    destruct ob, fl; try exact L. cbn. intros Q. destruct (N.eqb_spec a' a) as [-> |]; [exists (Shake true nw true wt); split; [by left|done]|].
    apply L. cbn in Q. set_solver.
  - injection E as E. unfold CbfSpec.watch_in. rewrite <- E. cbn [shake_step]. intros Q. cbn in Q. destruct (N.eqb_spec a' a) as [-> |]; [set_solver|]. apply K. set_solver.
  - cbn [shake_step]. apply cbf_knows_in; [|exact K]. by destruct m; try done; injection E as <- .
  - cbn [shake_step]. apply cbf_knows_in; [|exact K]. by destruct so; try done; injection E as <- .
  - cbn [shake_step]. apply cbf_knows_in; [|exact K]. destruct io; try done; try (by injection E as <- ). match type of E with match ?z with _ => _ end = _ => destruct z end; try done; by injection E as <- .
Qed.
Lemma cbf_input_quiet o op : cbf_input o = Some op -> match op with CbfModel.CNegotiated _ _ _ _ | CbfModel.CDisconnected _ => False | _ => True end.
Proof. by destruct o; cbn; try done; intros [= <- ]. Qed.
Lemma cbf_told o es n cs a w l : step_calls o es n cs -> cbf_knows a w l -> cbf_knows a (CbfSpec.watches (cbf_calls cs) (cbf_outs cs) w) (foldl (shake_step a) l es).
Proof.
  intros S K. apply step_shape in S as [(-> & O & _)|(e & -> & O & _)]; cbn [foldl].
  - match type of O with one_cbf ?z _ => destruct z as [io|] eqn:E end; cbn [one_cbf] in O; [|destruct O as [-> ->]; exact K].
    destruct O as (i & x & Ei & -> & -> ). cbn [CbfSpec.watches]. apply cbf_knows_outs, cbf_knows_in; [|exact K]. rewrite Ei.
    apply (cbf_input_quiet o). by destruct o.
  - destruct (cbf_event e) as [io|] eqn:E; cbn [one_cbf] in O.
    + destruct O as (i & x & Ei & -> & -> ). cbn [CbfSpec.watches]. apply cbf_knows_outs, cbf_knows_event; [by rewrite Ei|exact K].
    + destruct O as [-> ->]. by destruct e.
Qed.

(** ** Runs *)
Lemma seen_app a os : forall xs os' xs' v, length os = length xs -> SyncSpec.seen a (os ++ os') (xs ++ xs') v = SyncSpec.seen a os' xs' (SyncSpec.seen a os xs v).
Proof. induction os as [|o os IH]; intros [|x xs] os' xs' v L; try done. cbn. apply IH. by injection L. Qed.
Lemma watches_app os : forall xs os' xs' v, length os = length xs -> CbfSpec.watches (os ++ os') (xs ++ xs') v = CbfSpec.watches os' xs' (CbfSpec.watches os xs v).
Proof. induction os as [|o os IH]; intros [|x xs] os' xs' v L; try done. cbn. apply IH. by injection L. Qed.
Lemma sync_lengths cs : length (sync_calls cs) = length (sync_outs cs).
Proof. unfold sync_calls, sync_outs. induction cs as [|[] cs IH]; cbn; congruence. Qed.
Lemma inv_lengths cs : length (inv_calls cs) = length (inv_outs cs).
Proof. unfold inv_calls, inv_outs. induction cs as [|[] cs IH]; cbn; congruence. Qed.
Lemma cbf_lengths cs : length (cbf_calls cs) = length (cbf_outs cs).
Proof. unfold cbf_calls, cbf_outs. induction cs as [|[] cs IH]; cbn; congruence. Qed.
Lemma sync_calls_app a b : sync_calls (a ++ b) = sync_calls a ++ sync_calls b. Proof. apply calls_app. Qed.
Lemma sync_outs_app a b : sync_outs (a ++ b) = sync_outs a ++ sync_outs b. Proof. apply calls_app. Qed.
Lemma inv_calls_app a b : inv_calls (a ++ b) = inv_calls a ++ inv_calls b. Proof. apply calls_app. Qed.
Lemma inv_outs_app a b : inv_outs (a ++ b) = inv_outs a ++ inv_outs b. Proof. apply calls_app. Qed.
Lemma cbf_calls_app a b : cbf_calls (a ++ b) = cbf_calls a ++ cbf_calls b. Proof. apply calls_app. Qed.
Lemma cbf_outs_app a b : cbf_outs (a ++ b) = cbf_outs a ++ cbf_outs b. Proof. apply calls_app. Qed.

Notation told := (told H scf P sock env magic).
Lemma told_knows os s css xs s' : told os s css xs s' -> forall a v i w l, sync_knows a v l -> inv_knows a i l -> cbf_knows a w l ->
  let l' := foldl (shake_step a) l (announced (concat xs)) in
  sync_knows a (SyncSpec.seen a (sync_calls (concat css)) (sync_outs (concat css)) v) l' /\
  inv_knows a (InvSpec.views a (inv_calls (concat css)) (inv_outs (concat css)) i) l' /\
  cbf_knows a (CbfSpec.watches (cbf_calls (concat css)) (cbf_outs (concat css)) w) l'.
Proof.
  induction 1 as [s|o os s cs y x s1 css xs s' E X Ex A Q Sc T IH]; intros a v i w l K1 K2 K3; cbn [concat]; [done|].
  rewrite announced_app, foldl_app, sync_calls_app, sync_outs_app, inv_calls_app, inv_outs_app, cbf_calls_app, cbf_outs_app.
  rewrite seen_app by apply sync_lengths. rewrite views_app by apply inv_lengths. rewrite watches_app by apply cbf_lengths.
  apply IH; [by eapply sync_told|by eapply inv_told|by eapply cbf_told].
Qed.
Lemma told_origin os s css xs s' k : told os s css xs s' -> k ∈ concat css -> exists o es, o ∈ os /\ origin o es k.
Proof.
  induction 1 as [s|o os s cs y x s1 css xs s' E X Ex A Q Sc T IH]; cbn [concat]; [intros Hk; by apply elem_of_nil in Hk|].
  intros [Hk|Hk]%elem_of_app; [exists o, (announced x); split; [by left|by eapply step_origin]|]. destruct (IH Hk) as (o' & es & ? & ?). exists o', es. split; [by right|done].
Qed.
Lemma sync_call_in cs oe : oe ∈ sync_calls cs -> exists x, KSync oe x ∈ cs.
Proof. unfold sync_calls. intros (k & Hk & E)%elem_of_list_omap. destruct k; try done. injection E as ->. by eexists. Qed.
Lemma inv_call_in cs o : o ∈ inv_calls cs -> exists x, KInv o x ∈ cs.
Proof. unfold inv_calls. intros (k & Hk & E)%elem_of_list_omap. destruct k; try done. injection E as ->. by eexists. Qed.
Lemma told_submitted os s css xs s' t : told os s css xs s' -> InvModel.IAnnounce t ∈ inv_calls (concat css) -> submitted os t.
Proof.
  intros T I. apply inv_call_in in I as (x & I). destruct (told_origin _ _ _ _ _ _ T I) as (o & es & Ho & [(e & n & -> & E)|[(h & ?)|(-> & ->)]]); [|done|exact Ho].
  destruct e as [| |? m|so| |]; try done; cbn in E; [by destruct m|by destruct so].
Qed.

Section Start.
Context (c0 : cache) (cap : N) (st : list (N * N)).
Notation start := (node0 c0 (CbfModel.cbf0 cap st)).

Lemma said_last (l : list nev) e : last (l ++ [e]) = Some e.
Proof. apply last_snoc. Qed.

Lemma sync_write os css xs s o cs y x (s' : state) k : told os start css xs s -> fair_node env ->
  nexec cs (f_state s) (f_state s') -> step_calls o (announced x) (f_state s) cs -> k ∈ cs ->
  (forall oe z, k = KSync oe z -> y ∈ z -> forall a,
    (forall l, y = SyncModel.SoGetHeaders a l -> exists h, h ∈ handshakes a (announced (concat xs ++ x)) /\ negb (sh_outbound h) || sh_network h = true) /\
    (forall l, y = SyncModel.SoHeaders a l -> (exists l, just_said a (MGetHeaders l) (announced (concat xs ++ x))) \/ exists h, h ∈ handshakes a (announced (concat xs ++ x)) /\ sh_outbound h = false)).
Proof.
  intros T Fe X Sc Hk oe z -> Hy a. pose proof (told_exec _ _ _ _ _ _ _ _ _ _ _ T) as Xs. pose proof (nexec_sync _ _ _ _ _ _ Xs) as R. pose proof (nexec_sync _ _ _ _ _ _ X) as R1.
  destruct (told_knows _ _ _ _ _ T a None None CbfSpec.watch0 [] ltac:(done) ltac:(done) ltac:(intros Q; cbn in Q; set_solver)) as (K & _ & _). cbv zeta in K.
  pose proof (sync_told _ _ _ _ a _ _ Sc K) as K1. rewrite <- foldl_app, <- announced_app in K1. fold (handshakes a (announced (concat xs ++ x))) in K1.
  assert (F : SyncSpec.fair_envs (sync_calls (concat css)) /\ SyncSpec.fair_env oe.2).
  { split; [apply Forall_forall; intros q Hq; apply sync_call_in in Hq as (u & Hu); destruct (told_origin _ _ _ _ _ _ T Hu) as (? & ? & _ & (n & ->) & _); apply (Fe n)|].
    destruct (step_origin _ _ _ _ _ Sc Hk) as ((n & ->) & _). apply (Fe n). }
  destruct F as [F1 F2].
  assert (O : sync_calls cs = [oe] /\ sync_outs cs = [z]).
  { assert (I1 : oe ∈ sync_calls cs) by (apply elem_of_list_omap; by exists (KSync oe z)). assert (I2 : z ∈ sync_outs cs) by (apply elem_of_list_omap; by exists (KSync oe z)).
    assert (G : forall so, one_sync so cs -> sync_calls cs = [oe] /\ sync_outs cs = [z]).
    { intros [so|]; cbn [one_sync]; [intros (e & x' & E1 & E2)|intros [E1 _]; rewrite E1 in I1; by apply elem_of_nil in I1].
      rewrite E1 in I1. rewrite E2 in I2. apply elem_of_list_singleton in I1 as ->. by apply elem_of_list_singleton in I2 as ->. }
    destruct (step_shape _ _ _ _ Sc) as [(_ & _ & _ & so & _ & Q)|(e & _ & _ & _ & n2 & Q)]; by apply (G _ Q). }
  destruct O as [O1 O2]. rewrite O1, O2 in K1, R1. cbn [SyncSpec.sync_run] in R1.
  destruct (SyncModel.sync_step H scf oe (n_sync (f_state s), n_cache (f_state s))) as [[[s1 c1] z']|] eqn:E; [|done]. cbn [mbind_M] in R1. injection R1 as E1 E2 ->.
  cbn [f_state n_sync n_cache node0] in R.
  pose proof (SyncAsk.seen_peer H scf _ c0 _ _ _ a F1 R) as Sn.
  assert (R2 : SyncSpec.sync_run H scf (sync_calls (concat css) ++ [oe]) (SyncModel.sync_init, c0) = Val (s1, c1, sync_outs (concat css) ++ [z])).
  { clear -R E. revert R. generalize SyncModel.sync_init, c0, (sync_outs (concat css)). induction (sync_calls (concat css)) as [|q l IH]; intros i c l'; cbn [SyncSpec.sync_run app].
    - intros [= -> -> <-]. rewrite E. done.
    - destruct (SyncModel.sync_step H scf q (i, c)) as [[[i1 c1'] x1]|]; [|done]. cbn [mbind_M]. destruct (SyncSpec.sync_run H scf l (i1, c1')) as [[[i2 c2] x2]|] eqn:E2; [|done]. cbn [mbind_M].
      intros [= -> -> <-]. rewrite (IH _ _ _ E2). done. }
  assert (F3 : SyncSpec.fair_envs (sync_calls (concat css) ++ [oe])) by (apply Forall_app; split; [exact F1|by constructor]).
  pose proof (SyncAsk.seen_peer H scf _ c0 _ _ _ a F3 R2) as Sn2.
  split.
  - intros l ->. destruct (SyncMain.step_joined H scf oe _ _ _ _ _ a E) as [_ J].
    assert (J' : is_Some (SyncModel.sy_peers s1 !! a)).
    { apply J. unfold SyncSpec.asks. intros Q. assert (l ∈ SyncSpec.asks a z) as I; [|unfold SyncSpec.asks in I; rewrite Q in I; by apply elem_of_nil in I].
      apply elem_of_list_omap. exists (SyncModel.SoGetHeaders a l). by rewrite N.eqb_refl. }
    destruct J' as (p & Jp). rewrite Jp in Sn2. cbn in Sn2. rewrite seen_app in Sn2 by apply sync_lengths. destruct (K1 _ Sn2) as (h & ? & _ & ?). by exists h.
  - intros l ->. apply SyncFacts.step_import in E as [[-> Fx]|(hds & s3 & x1 & y1 & r & Eo & Im & -> & N1 & N2 & Fy)].
    { rewrite Forall_forall in Fx. destruct (Fx _ Hy) as (l' & El). left. exists l'. unfold just_said. destruct (step_origin _ _ _ _ _ Sc Hk) as (_ & [(e & n & Ee & Es)|(_ & Q)]); [|by rewrite El in Q].
      rewrite announced_app, Ee, said_last. destruct e as [| |? m| | |]; try done; cbn in Es; rewrite El in Es; try done. destruct m; try done. by injection Es as -> ->. }
    right.
    assert (Qp : exists p, SyncModel.sy_peers (n_sync (f_state s)) !! a = Some p /\ SyncModel.sp_outbound p = false).
    { assert (B : forall order k c s2, (forall l, order l ≡ₚ l) -> SyncModel.SoHeaders a l ∈ SyncModel.broadcast_tip order k c s2 ->
        (forall a p2, SyncModel.sy_peers s2 !! a = Some p2 -> exists p, SyncModel.sy_peers (n_sync (f_state s)) !! a = Some p /\ SyncModel.sp_outbound p2 = SyncModel.sp_outbound p) ->
        exists p, SyncModel.sy_peers (n_sync (f_state s)) !! a = Some p /\ SyncModel.sp_outbound p = false).
      { intros order k c s2 _ B Q. unfold SyncModel.broadcast_tip in B. destruct (get_block c k) as [[height best]|]; [|by apply elem_of_nil in B].
        apply elem_of_list_fmap in B as (q & Eq & B). injection Eq as <- _. apply elem_of_list_In, filter_In in B as [_ B]. destruct (SyncModel.sy_peers s2 !! a) as [p2|] eqn:P2; [|done].
        destruct (Q _ _ P2) as (p & Pp & Po). exists p. split; [done|]. rewrite <- Po. apply andb_true_iff in B as [B _]. by destruct (SyncModel.sp_outbound p2). }
      apply elem_of_app in Hy as [I|I].
      - unfold SyncModel.sync_import in Im. destruct (import_blocks H _ hds _) as [[c2 r1]|]; [cbn in Im|done]. injection Im as <- <- <-.
        destruct r1 as [[hd k h rv cn|]|]; [|by apply elem_of_nil in I..]. rewrite !elem_of_app, !elem_of_list_fmap, elem_of_cons in I.
        destruct I as [(q & ? & _)|[(q & ? & _)|[?|I]]]; [done..|]. eapply B; [apply F2|exact I|]. intros a' p2 P2. destruct (N2 _ _ P2) as (p & ? & ? & _). by exists p.
      - apply Fy in I as (tip & k & h & rv & cn & s2 & Er & Bt & Q). eapply B; [apply F2|exact Bt|]. intros a' p2 P2. destruct (Q _ _ P2) as (p & ? & ? & _). by exists p. }
    destruct Qp as (p & Pp & Po). rewrite Pp in Sn. cbn in Sn. destruct (K _ Sn) as (h & Hh & Ho & Hn). exists h.
    assert (Hh' : h ∈ foldl (shake_step a) [] (announced (concat xs ++ x))).
    { rewrite announced_app, foldl_app. destruct (step_shape _ _ _ _ Sc) as [(-> & _)|(e & -> & _ & _ & n2 & Os)]; [exact Hh|]. cbn [foldl].
      destruct e as [a' ? ? ? ? ? ? ?|a'| | | |]; cbn [shake_step]; try exact Hh; [destruct (a' =? a); [by right|exact Hh]|]. exfalso.
      cbn [sync_event one_sync] in Os. destruct Os as (e' & x' & Os & _). rewrite O1 in Os. injection Os as ->. done. }
    split; [exact Hh'|]. rewrite Ho. unfold SyncAsk.pabs. done.
Qed.

Lemma views_quiet a cs v l : Forall (fun o => match o with InvModel.INegotiated _ _ _ _ | InvModel.IDisconnected _ => False | _ => True end) (inv_calls cs) ->
  inv_knows a v l -> inv_knows a (InvSpec.views a (inv_calls cs) (inv_outs cs) v) l.
Proof.
  unfold inv_calls, inv_outs. revert v. induction cs as [|k cs IH]; intros v F K; [done|]. destruct k as [oe x|o x|i x]; cbn [omap list_omap] in *; [by apply IH| |by apply IH].
  apply Forall_cons in F as [F1 F2]. cbn [InvSpec.views]. apply IH; [done|]. by apply inv_knows_quiet.
Qed.
Lemma quiet_calls o n cs : step_calls o [] n cs -> Forall (fun o => match o with InvModel.INegotiated _ _ _ _ | InvModel.IDisconnected _ => False | _ => True end) (inv_calls cs).
Proof.
  intros Sc. apply Forall_forall. intros q Hq. apply inv_call_in in Hq as (u & Hu). destruct (step_origin _ _ _ _ _ Sc Hu) as [(e & ? & ? & _)|[(h & ->)|(_ & Q)]]; [done|done|]. by destruct q.
Qed.

Lemma inv_write os css xs s o cs y x (s' : state) io z a : told os start css xs s ->
  nexec cs (f_state s) (f_state s') -> step_calls o (announced x) (f_state s) cs -> KInv io z ∈ cs -> y ∈ z ->
  let es := announced (concat xs ++ x) in
  (forall h, y = InvModel.IoGetData a h -> exists h l, handshakes a es = h :: l /\ sh_network h = true) /\
  (forall is, y = InvModel.IoInv a is -> forall i, i ∈ is -> exists h l t, handshakes a es = h :: l /\ submitted (os ++ [o]) t /\
      i = (if sh_wtx h then InvModel.InvWTx (t_wid t) else InvModel.InvTx (t_id t))) /\
  (forall t, y = InvModel.IoTx a t -> submitted (os ++ [o]) t /\ exists is i, just_said a (MGetData is) es /\ i ∈ is /\ InvSpec.names i t).
Proof.
  intros T X Sc Hk Hy es. pose proof (told_exec _ _ _ _ _ _ _ _ _ _ _ T) as Xs.
  destruct (told_knows _ _ _ _ _ T a None None CbfSpec.watch0 [] ltac:(done) ltac:(done) ltac:(intros Q; cbn in Q; set_solver)) as (_ & K & _). cbv zeta in K.
  apply elem_of_list_split in Hk as (p & q & Ec). rewrite Ec in X. apply nexec_split in X as (m & Xp & Xk).
  pose proof (nexec_inv _ _ _ _ _ _ (nexec_app _ _ _ _ _ _ _ _ Xs Xp)) as R. cbn [f_state n_inv node0] in R.
  assert (E : exists i', InvModel.inv_step io (n_inv m) = Val (i', z)) by (inversion Xk; subst; by eexists). destruct E as (i' & E). clear Xk.
  assert (Sub : forall t, InvModel.IAnnounce t ∈ inv_calls (concat css ++ p) ++ [io] -> submitted (os ++ [o]) t).
  { intros t. unfold submitted. rewrite inv_calls_app, !elem_of_app. intros [[I|I]|I].
    - left. by eapply told_submitted.
    - right. apply inv_call_in in I as (u & Hu). destruct (step_origin _ _ _ _ (KInv (InvModel.IAnnounce t) u) Sc) as [(e & n & _ & Q)|[(h & ?)|(_ & ->)]]; [rewrite Ec; apply elem_of_app; by left| |done|by left].
      destruct e as [| |? m'|so| |]; try done; cbn in Q; [by destruct m'|by destruct so].
    - right. apply elem_of_list_singleton in I as <-. destruct (step_origin _ _ _ _ (KInv (InvModel.IAnnounce t) z) Sc) as [(e & n & _ & Q)|[(h & ?)|(_ & ->)]]; [rewrite Ec; apply elem_of_app; right; by left| |done|by left].
      destruct e as [| |? m'|so| |]; try done; cbn in Q; [by destruct m'|by destruct so]. }
  pose proof (InvOrigin.step_kinds _ _ _ _ E) as Kd. rewrite Forall_forall in Kd. specialize (Kd _ Hy).
  assert (Ti : (exists now th pick, io = InvModel.ITimer now th pick) -> es = announced (concat xs) /\ announced x = []).
  { intros (now & th & pick & ->). destruct (step_origin _ _ _ _ (KInv (InvModel.ITimer now th pick) z) Sc) as [(e & n & _ & Q)|[(h & ?)|(En & _)]]; [rewrite Ec; apply elem_of_app; right; by left| |done|].
    { destruct e as [| |? m'|so| |]; try done; cbn in Q; [by destruct m'|by destruct so]. }
    subst es. by rewrite announced_app, En, app_nil_r. }
  assert (Kp : announced x = [] -> inv_knows a (InvSpec.views a (inv_calls (concat css ++ p)) (inv_outs (concat css ++ p)) None) (handshakes a (announced (concat xs)))).
  { intros En. rewrite inv_calls_app, inv_outs_app, views_app by apply inv_lengths. apply views_quiet; [|exact K]. rewrite En in Sc. pose proof (quiet_calls _ _ _ Sc) as Q.
    rewrite Ec, inv_calls_app in Q. by apply Forall_app in Q as [Q _]. }
  split; [|split].
  - intros h ->. destruct (Ti Kd) as [-> En]. destruct (InvViews.requested _ _ _ _ _ _ _ _ R E Hy) as (now & th & pick & last & v & -> & _ & _ & V & Nw & _).
    rewrite views_app in V by apply inv_lengths. cbn [InvSpec.views] in V.
    destruct (inv_knows_quiet a (InvModel.ITimer now th pick) z _ _ I (Kp En) v V) as (h0 & l & -> & Hn & _). exists h0, l. split; [done|]. by rewrite Hn.
  - intros is -> i Hi. destruct (Ti Kd) as [-> En]. destruct (InvViews.announced_only _ _ _ _ _ _ _ _ _ R E Hy Hi) as (v & w & t & V & M & ->).
    destruct (Kp En v V) as (h & l & Eh & _ & Hw). exists h, l, t. split; [exact Eh|].
    pose proof (InvProofs.inv_run_ok _ _ _ _ InvProofs.inv0_ok R) as (I1 & _). pose proof (I1 _ _ M) as ->. split; [|by rewrite Hw].
    apply Sub, elem_of_app. left. pose proof (InvOrigin.run_owned (inv_calls (concat css ++ p)) (fun t => InvModel.IAnnounce t ∈ inv_calls (concat css ++ p)) _ _ _ (InvOrigin.owned0 _) (fun t I => I) R) as O.
    exact (InvOrigin.ow_mempool _ _ O _ _ M).
  - intros t ->. destruct Kd as (is & ->). pose proof (InvOrigin.submitted_only _ _ _ _ _ _ R E) as (_ & F). rewrite Forall_forall in F. split; [apply Sub; exact (F _ Hy)|].
    destruct (InvViews.served _ _ _ _ _ _ _ R E) as [Sv _]. destruct (Sv _ _ Hy) as (_ & _ & i & Hi & Hn). exists is, i. split; [|done].
    destruct (step_origin _ _ _ _ (KInv (InvModel.IGetDataMsg a is) z) Sc) as [(e & n & Ee & Q)|[(h & ?)|(_ & Q)]]; [rewrite Ec; apply elem_of_app; right; by left| |done|done].
    unfold just_said, es. rewrite announced_app, Ee, said_last. destruct e as [| |? m'|so| |]; try done; cbn in Q; [|by destruct so]. destruct m'; try done. by injection Q as -> ->.
Qed.

Lemma cbf_write os css xs s o cs y x (s' : state) i z a : told os start css xs s -> (forall n, CbfSpec.complete (CbfSpec.Input (ne_cbf (env n)) 0 (CbfSpec.i_tree i) CbfModel.CTimer)) ->
  nexec cs (f_state s) (f_state s') -> step_calls o (announced x) (f_state s) cs -> KCbf i z ∈ cs -> y ∈ z ->
  let es := announced (concat xs ++ x) in
  (forall b h, y = CbfModel.CoGetCFHeaders a b h \/ y = CbfModel.CoGetCFilters a b h -> exists h, h ∈ handshakes a es /\ sh_outbound h = true /\ sh_filters h = true) /\
  (forall stop p l, y = CbfModel.CoCFHeaders a stop p l -> exists ty st, just_said a (MGetCFHeaders ty st stop) es).
Proof.
  intros T Co X Sc Hk Hy es. pose proof (told_exec _ _ _ _ _ _ _ _ _ _ _ T) as Xs. pose proof (nexec_cbf _ _ _ _ _ _ Xs) as R. pose proof (nexec_cbf _ _ _ _ _ _ X) as R1.
  destruct (told_knows _ _ _ _ _ T a None None CbfSpec.watch0 [] ltac:(done) ltac:(done) ltac:(intros Q; cbn in Q; set_solver)) as (_ & _ & K). cbv zeta in K.
  destruct (step_origin _ _ _ _ _ Sc Hk) as ((n & Ek) & Og).
  assert (O : cbf_calls cs = [i] /\ cbf_outs cs = [z]).
  { assert (I1 : i ∈ cbf_calls cs) by (apply elem_of_list_omap; by exists (KCbf i z)). assert (I2 : z ∈ cbf_outs cs) by (apply elem_of_list_omap; by exists (KCbf i z)).
    assert (G : forall so, one_cbf so cs -> cbf_calls cs = [i] /\ cbf_outs cs = [z]).
    { intros [so|]; cbn [one_cbf]; [intros (e & x' & _ & E1 & E2)|intros [E1 _]; rewrite E1 in I1; by apply elem_of_nil in I1].
      rewrite E1 in I1. rewrite E2 in I2. apply elem_of_list_singleton in I1 as ->. by apply elem_of_list_singleton in I2 as ->. }
    destruct (step_shape _ _ _ _ Sc) as [(_ & Q & _)|(e & _ & Q & _)]; by apply (G _ Q). }
  destruct O as [O1 O2]. rewrite O1, O2 in R1. cbn [CbfSpec.cbf_run] in R1. destruct (CbfSpec.step_on P i (n_cbf (f_state s))) as [[s1 z']|] eqn:E; [|done]. cbn [mbind_M] in R1.
  injection R1 as E1 ->. cbn [f_state n_cbf node0] in R.
  destruct (CbfWatch.step_proper P cap st _ _ _ i s1 z y R E Hy) as (x1 & x2 & Ez & Pr).
  assert (Kin : cbf_knows a (CbfSpec.watch_in (CbfSpec.watches (cbf_calls (concat css)) (cbf_outs (concat css)) CbfSpec.watch0) i) (handshakes a es)).
  { subst es. unfold handshakes. rewrite announced_app, foldl_app. destruct Og as [(e & -> & Q)|(-> & Q)]; cbn [foldl].
    - by apply cbf_knows_event.
    - apply cbf_knows_in; [|exact K]. by destruct (CbfSpec.i_op i). }
  pose proof (cbf_knows_outs a i x1 _ _ Kin) as Kx.
  split.
  - intros b h [-> | ->]; cbn [CbfWatch.proper] in Pr; apply Kx; [apply Pr|]. apply Pr. intros n' l. rewrite Ek. apply (Co n n' l).
  - intros stop p l ->. cbn [CbfWatch.proper] in Pr. destruct Pr as (ty & st' & Eo). exists ty, st'. unfold just_said, es. destruct Og as [(e & Ee & Q)|(_ & Q)]; [|by rewrite Eo in Q].
    rewrite announced_app, Ee, said_last. rewrite Eo in Q. destruct e as [| |? m'|so| |ev]; try done; cbn in Q; [|by destruct so|destruct ev; try done; by destruct s0].
    destruct m'; try done. by injection Q as -> -> -> ->.
Qed.

Lemma node_writes os s t o s' x c w m : fair_node env -> fair_filters env ->
  node_run H scf P sock env magic os start = Val (s, t) -> node_step H scf P sock env magic o s = Val (s', x) ->
  FQueued c (IoWrite w m) ∈ x -> exists a, w = sock a /\ reason_to_write (os ++ [o]) (announced (t ++ x)) a m.
Proof.
  intros Fe Ff R E I. destruct (run_told _ _ _ _ _ _ _ _ _ _ R) as (css & xs & T & ->). destruct (step_told _ _ _ _ _ _ _ _ _ _ E) as (cs & y & X & Ex & A & Q & Sc).
  rewrite Ex in I. apply elem_of_app in I as [I|I]; [|by apply Q in I].
  assert (I' : (c, IoWrite w m) ∈ outs sock cs).
  { unfold fqueued in I. apply elem_of_list_fmap in I as ([c' z] & Ez & I). cbn in Ez. injection Ez as <- <-. apply elem_of_app in I as [I|I]; [|exact I].
    destruct o as [|[]| | | | | | | | |]; cbn in I; try (by apply elem_of_nil in I); by apply elem_of_list_singleton in I. }
  unfold outs in I'. apply elem_of_list_In, in_flat_map in I' as (k & Hk & I'). apply elem_of_list_In in Hk, I'.
  destruct k as [oe z|io z|i z]; cbn [call_out] in I'; apply elem_of_list_In, in_flat_map in I' as (u & Hu & I'); apply elem_of_list_In in Hu, I'.
  - destruct u; cbn in I'; try (by apply elem_of_nil in I'); apply elem_of_list_singleton in I'; try done; injection I' as -> -> ->;
      (eexists; split; [reflexivity|]); eapply (sync_write _ _ _ _ _ _ _ _ _ _ T Fe X Sc Hk oe z eq_refl Hu); reflexivity.
  - destruct u; cbn in I'; try (by apply elem_of_nil in I'); apply elem_of_list_singleton in I'; try done; injection I' as -> -> ->;
      (eexists; split; [reflexivity|]); cbn [reason_to_write]; destruct (inv_write _ _ _ _ _ _ _ _ _ _ _ addr T X Sc Hk Hu) as (W1 & W2 & W3);
      [by apply W2|by eapply W1|by apply W3].
  - assert (Co : forall n, CbfSpec.complete (CbfSpec.Input (ne_cbf (env n)) 0 (CbfSpec.i_tree i) CbfModel.CTimer)) by (intros n m' l'; apply Ff).
    destruct u; cbn in I'; try (by apply elem_of_nil in I'); apply elem_of_list_singleton in I'; try done; injection I' as -> -> ->;
      (eexists; split; [reflexivity|]); cbn [reason_to_write];
      [eapply (cbf_write _ _ _ _ _ _ _ _ _ _ _ _ T Co X Sc Hk Hu); left; reflexivity
      |eapply (cbf_write _ _ _ _ _ _ _ _ _ _ _ _ T Co X Sc Hk Hu); right; reflexivity
      |eapply (cbf_write _ _ _ _ _ _ _ _ _ _ _ _ T Co X Sc Hk Hu); reflexivity].
Qed.
End Start.
End Log.
