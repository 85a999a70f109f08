(** Blocks that are fetched, and transactions that are reverted, as told by
    the log of a run. *)
From Verif Require Import Base PowModel BlockModel UtilModel FeeModel AddrModel PeerModel
  DispModel DispSpec DispProofs LoadModel NodeModel NodeSpec NodeTold NodeLogSpec NodeLog NodeSeen.
From Verif Require SyncModel SyncSpec CbfModel CbfSpec CbfFacts CbfProofs CbfWait CbfWatch CbfSeen InvModel InvSpec InvProofs InvTrack InvViews InvMore InvOrigin.
Open Scope N_scope.

Section Fetch.
Context (H : header -> N) (scf : SyncModel.sconf) (P : CbfModel.params) (sock : N -> sockaddr) (env : nat -> nenv) (magic : N).
Notation step := (node_step H scf P sock env magic).
Notation nexec := (NodeTold.nexec H scf P).
Notation explained := (NodeSeen.explained H scf P sock env magic).
Notation tells := (NodeSeen.tells H scf P sock env magic).
Implicit Types l : list N.
Notation gets l := (InvModel.IGetBlock <$> l).
Notation ticks l := ((fun _ => [InvModel.IoTimer 1000]) <$> l).

Lemma inv_ran cs n n' o z : nexec cs n n' -> KInv o z ∈ cs -> exists i i', InvModel.inv_step o i = Val (i', z).
Proof.
  induction 1 as [n n' E1 E2 E3 E4|oe x cs n s c k n' E A IH|o1 x cs n i k n' E A IH|i x cs n s k n' T E A IH]; intros I; [by apply elem_of_nil in I|..];
    apply elem_of_cons in I as [I|I]; try done; try (exact (IH I)). injection I as -> ->. by eexists _, _.
Qed.
Lemma existsb_ticks (f : InvModel.iout -> bool) (l : list N) : f (InvModel.IoTimer 1000) = false -> existsb f (concat (ticks l)) = false.
Proof. intros F. induction l as [|h l IH]; [done|]. cbn. by rewrite F. Qed.

(** The one call of the inventory manager besides requests for blocks. *)
Lemma x_inv_ran e s cs s1 : explained e s cs s1 -> exists op, inv_of H env (e_op e) (announced (e_items e)) (f_state s) op /\ one_inv op cs /\
  match op with Some o => exists x i i', x ∈ inv_outs cs /\ InvModel.inv_step o i = Val (i', x) /\ exists l1 l2, inv_calls cs = gets l1 ++ o :: gets l2 /\ inv_outs cs = ticks l1 ++ x :: ticks l2 | None => True end.
Proof.
  intros X. destruct (x_inv _ _ _ _ _ _ _ _ _ _ X) as (op & Io & O). exists op. split; [done|]. split; [done|]. destruct op as [o|]; [|done].
  destruct O as (l1 & l2 & x & Ec & Eo).
  assert (R : exists i i', InvModel.inv_step o i = Val (i', x)).
  { pose proof (nexec_inv _ _ _ _ _ _ (x_exec _ _ _ _ _ _ _ _ _ _ X)) as R. rewrite Ec, Eo in R. clear -R. revert R. generalize (n_inv (f_state s)).
    induction l1 as [|h l1 IH]; intros i R.
    - cbn [fmap list_fmap app] in R. apply InvTrack.run_cons in R as (s2 & y & ys & E & _ & Ey). injection Ey as <- <-. by exists i, s2.
    - cbn [fmap list_fmap app] in R. apply InvTrack.run_cons in R as (s2 & y & ys & E & R & Ey). injection Ey as <- <-. by apply (IH s2). }
  destruct R as (i & i' & R). exists x, i, i'. split; [rewrite Eo; apply elem_of_app; right; by left|]. split; [exact R|]. by exists l1, l2.
Qed.

(** ** Peers that serve blocks *)
Lemma gives_up_told a e s cs s1 : explained e s cs s1 -> existsb (gives_up a) (queued_events (e_items e)) = existsb (InvSpec.drops a) (concat (inv_outs cs)).
Proof.
  intros X. apply eq_true_iff_eq. rewrite !existsb_exists. split.
  - intros (ev & I & M). apply elem_of_list_In in I. destruct ev as [| | | | |o]; try done. destruct o; try done.
    apply (queued_inv _ _ _ _ _ _ _ _ _ _ _ X) in I as (i & z & Hk & Ho); [|done]. destruct (in_inv _ _ _ Hk) as [_ Iz].
    exists (InvModel.IoTimedOut addr). split; [|exact M]. apply in_concat. exists z. by rewrite <- !elem_of_list_In.
  - intros (o & I & M). destruct o; try done. apply in_concat in I as (z & Hz & Ho). apply elem_of_list_In in Hz, Ho. destruct (inv_in cs z Hz) as (i & Hk).
    exists (EvInv (InvModel.IoTimedOut addr)). split; [|exact M]. apply elem_of_list_In, (queued_inv _ _ _ _ _ _ _ _ _ _ _ X); [done|]. by exists i, z.
Qed.
Lemma network_kept (f : InvSpec.pview -> InvSpec.pview) (v : option InvSpec.pview) : (forall p, InvSpec.pv_network (f p) = InvSpec.pv_network p) -> InvSpec.pv_network <$> (f <$> v) = InvSpec.pv_network <$> v.
Proof. intros F. destruct v; [|done]. cbn. by rewrite F. Qed.
Lemma quiet_drop o i i' x a : InvModel.inv_step o i = Val (i', x) -> (match o with InvModel.ITimer _ _ _ => False | _ => True end) -> existsb (InvSpec.drops a) x = false.
Proof.
  intros E Q. apply not_true_is_false. rewrite existsb_exists. intros (y & I & M). apply elem_of_list_In in I. destruct y; try done.
  pose proof (proj1 (Forall_forall _ _) (InvOrigin.step_kinds o i i' x E) _ I) as (now & th & pick & ->). done.
Qed.
Lemma quiet_ask o i i' x h : InvModel.inv_step o i = Val (i', x) -> (match o with InvModel.ITimer _ _ _ => False | _ => True end) -> existsb (InvSpec.asks h) x = false.
Proof.
  intros E Q. apply not_true_is_false. rewrite existsb_exists. intros (y & I & M). apply elem_of_list_In in I. destruct y; try done.
  pose proof (proj1 (Forall_forall _ _) (InvOrigin.step_kinds o i i' x E) _ I) as (now & th & pick & ->). done.
Qed.
Lemma view_kept a o i i' x v : InvModel.inv_step o i = Val (i', x) -> (match o with InvModel.INegotiated _ _ _ _ | InvModel.IDisconnected _ => False | _ => True end) ->
  InvSpec.pv_network <$> InvSpec.view_step a o x v = if existsb (InvSpec.drops a) x then None else InvSpec.pv_network <$> v.
Proof.
  intros E Q. destruct o; try done; try (rewrite (quiet_drop _ _ _ _ a E I)); cbn [InvSpec.view_step].
  4:{ destruct (existsb (InvSpec.drops a) x); [done|]. destruct (existsb _ x); [by apply network_kept|done]. }
  all: destruct (existsb _ x); [by apply network_kept|done].
Qed.
Lemma drops_mid a l1 x l2 : existsb (InvSpec.drops a) (concat (ticks l1 ++ x :: ticks l2)) = existsb (InvSpec.drops a) x.
Proof. rewrite concat_app, existsb_app. cbn [concat]. rewrite existsb_app, !existsb_ticks by done. cbn. by rewrite orb_false_r. Qed.
Lemma views_mid a l1 o x l2 v : InvSpec.views a (gets l1 ++ o :: gets l2) (ticks l1 ++ x :: ticks l2) v = InvSpec.view_step a o x v.
Proof. rewrite views_app by (by rewrite !fmap_length). rewrite views_wants. cbn [InvSpec.views]. apply views_wants. Qed.
Lemma serves_told a e s cs s1 v : explained e s cs s1 ->
  InvSpec.pv_network <$> InvSpec.views a (inv_calls cs) (inv_outs cs) v = log_serves a (InvSpec.pv_network <$> v) e.
Proof.
  intros X. unfold log_serves. rewrite (gives_up_told a _ _ _ _ X). destruct (x_inv_ran _ _ _ _ X) as (op & Io & O & R).
  destruct op as [o|].
  - destruct R as (x & i & i' & _ & R & l1 & l2 & Ec & Eo). rewrite Ec, Eo, drops_mid, views_mid. destruct (x_events _ _ _ _ _ _ _ _ _ _ X) as [Ea|(ev & Ea)]; rewrite Ea in *; cbn [foldl].
    + cbn [inv_of] in Io. rewrite (view_kept a o i i' x v R); [done|]. destruct (e_op e); try done; cbn in Io; by injection Io as ->.
    + cbn [inv_of] in Io. destruct Io as (n1 & Io). destruct ev as [a' h' ob nw fl re wt pe|a'|from m|so|co|io]; cbn [inv_event] in Io; try done.
      * injection Io as ->. rewrite (quiet_drop _ _ _ _ a R I). cbn [InvSpec.view_step serve_event]. by destruct (a' =? a).
      * injection Io as ->. rewrite (quiet_drop _ _ _ _ a R I). cbn [InvSpec.view_step serve_event]. by destruct (a' =? a).
      * rewrite (view_kept a o i i' x v R); [done|]. destruct m; try done; by injection Io as ->.
      * rewrite (view_kept a o i i' x v R); [done|]. destruct so; try done; by injection Io as ->.
  - destruct O as (l1 & _ & Ec & Eo). rewrite Ec, Eo, existsb_ticks by done. rewrite views_wants. destruct (x_events _ _ _ _ _ _ _ _ _ _ X) as [Ea|(ev & Ea)]; rewrite Ea in *; cbn [foldl]; [done|].
    cbn [inv_of] in Io. destruct Io as (n1 & Io). by destruct ev.
Qed.
Lemma tells_serves a L s css s' : tells L s css s' -> forall v,
  InvSpec.pv_network <$> InvSpec.views a (inv_calls (concat css)) (inv_outs (concat css)) v = foldl (log_serves a) (InvSpec.pv_network <$> v) L.
Proof.
  induction 1 as [|e L s cs s1 css s' X T IH]; intros v; cbn [concat foldl]; [done|]. rewrite inv_calls_app, inv_outs_app, views_app by apply inv_lengths.
  rewrite IH. by rewrite (serves_told _ _ _ _ _ _ X).
Qed.

(** ** Blocks that are asked for *)
Lemma wants_app h os : forall xs os' xs' v, length os = length xs -> InvSpec.wants h (os ++ os') (xs ++ xs') v = InvSpec.wants h os' xs' (InvSpec.wants h os xs v).
Proof. induction os as [|o os IH]; intros [|x xs] os' xs' v L; try done. cbn. apply IH. by injection L. Qed.
Lemma wants_gets h l : forall v, default None (InvSpec.wants h (gets l) (ticks l) v) = default None v.
Proof. induction l as [|k l IH]; intros v; [done|]. cbn. rewrite IH. by destruct (k =? h). Qed.
Lemma asked_told h e s cs s1 : explained e s cs s1 -> existsb (asks_block h) (written (e_items e)) = existsb (InvSpec.asks h) (concat (inv_outs cs)).
Proof.
  intros X. apply eq_true_iff_eq. rewrite !existsb_exists. split.
  - intros ([w m] & I & M). apply elem_of_list_In in I. unfold asks_block in M. cbn [snd] in M. destruct m as [| | |is| | | | | |]; try done. destruct is as [|[| | |k|] [|]]; try done.
    apply (written_getdata _ _ _ _ _ _ _ _ _ _ _ _ X) in I as (i & z & a & Hk & _ & Ho). destruct (in_inv _ _ _ Hk) as [_ Iz].
    exists (InvModel.IoGetData a k). split; [apply in_concat; exists z; by rewrite <- !elem_of_list_In|exact M].
  - intros (o & I & M). destruct o as [|a k| | | | |]; try done. apply in_concat in I as (z & Hz & Ho). apply elem_of_list_In in Hz, Ho. destruct (inv_in cs z Hz) as (i & Hk).
    exists (sock a, MGetData [InvModel.InvBlock k]). split; [|exact M]. apply elem_of_list_In, (written_getdata _ _ _ _ _ _ _ _ _ _ _ _ X). by exists i, z, a.
Qed.
Lemma asks_mid h l1 x l2 : existsb (InvSpec.asks h) (concat (ticks l1 ++ x :: ticks l2)) = existsb (InvSpec.asks h) x.
Proof. rewrite concat_app, existsb_app. cbn [concat]. rewrite existsb_app, !existsb_ticks by done. cbn. by rewrite orb_false_r. Qed.
Lemma wants_mid h l1 o x l2 v : default None (InvSpec.wants h (gets l1 ++ o :: gets l2) (ticks l1 ++ x :: ticks l2) v) =
  default None (InvSpec.want_step h o x (InvSpec.wants h (gets l1) (ticks l1) v)).
Proof. rewrite wants_app by (by rewrite !fmap_length). cbn [InvSpec.wants]. apply wants_gets. Qed.
Lemma last_told h e s cs s1 v : explained e s cs s1 ->
  default None (InvSpec.wants h (inv_calls cs) (inv_outs cs) v) = log_asked h (default None v) e.
Proof.
  intros X. unfold log_asked. rewrite (asked_told h _ _ _ _ X). destruct (x_inv_ran _ _ _ _ X) as (op & Io & O & R).
  destruct op as [o|].
  - destruct R as (x & i & i' & _ & R & l1 & l2 & Ec & Eo). rewrite Ec, Eo, asks_mid, wants_mid. pose proof (wants_gets h l1 v) as W. rewrite <- W. clear W.
    set (u := InvSpec.wants h (gets l1) (ticks l1) v).
    destruct (x_events _ _ _ _ _ _ _ _ _ _ X) as [Ea|(ev & Ea)]; rewrite Ea in *; cbn [existsb orb].
    + cbn [inv_of] in Io. pose proof (x_entry _ _ _ _ _ _ _ _ _ _ X) as En.
      assert (Et : e_time e = SyncModel.se_now (ne_sync (env (n_calls (f_state s))))) by (rewrite En; done).
      destruct (e_op e); try done; cbn [inv_input] in Io; injection Io as ->; cbn [InvSpec.want_step].
      * destruct (existsb (InvSpec.asks h) x); [by rewrite Et|done].
      * rewrite (quiet_ask _ _ _ _ h R I). by destruct (_ =? h).
      * by rewrite (quiet_ask _ _ _ _ h R I).
    + cbn [inv_of] in Io. destruct Io as (n1 & Io). rewrite orb_false_r. destruct ev as [a' h' ob nw fl re wt pe|a'|from m|so|co|io]; cbn [inv_event] in Io; try done.
      * injection Io as ->. by rewrite (quiet_ask _ _ _ _ h R I).
      * injection Io as ->. by rewrite (quiet_ask _ _ _ _ h R I).
      * destruct m; try done; injection Io as ->; rewrite (quiet_ask _ _ _ _ h R I); cbn [InvSpec.want_step block_message]; [done|]. by destruct (_ =? h).
      * destruct so; try done; injection Io as ->. by rewrite (quiet_ask _ _ _ _ h R I).
  - destruct O as (l1 & _ & Ec & Eo). rewrite Ec, Eo, existsb_ticks by done. rewrite wants_gets. destruct (x_events _ _ _ _ _ _ _ _ _ _ X) as [Ea|(ev & Ea)]; rewrite Ea in *; cbn [existsb]; [done|].
    cbn [inv_of] in Io. destruct Io as (n1 & Io). rewrite orb_false_r. destruct ev as [| |from m| | |]; try done. by destruct m.
Qed.
Lemma tells_asked h L s css s' : tells L s css s' -> forall v,
  default None (InvSpec.wants h (inv_calls (concat css)) (inv_outs (concat css)) v) = foldl (log_asked h) (default None v) L.
Proof.
  induction 1 as [|e L s cs s1 css s' X T IH]; intros v; cbn [concat foldl]; [done|]. rewrite inv_calls_app, inv_outs_app, wants_app by apply inv_lengths.
  rewrite IH. by rewrite (last_told _ _ _ _ _ _ X).
Qed.

(** ** Blocks that are wanted *)
Definition arrives (h : N) (o : InvModel.inv_op) : Prop := match o with InvModel.IBlock b _ => InvModel.b_hash b = h | _ => False end.
Lemma wants_stay h os : forall xs v, Forall (fun o => ~ arrives h o) os -> is_Some v -> is_Some (InvSpec.wants h os xs v).
Proof.
  induction os as [|o os IH]; intros xs v F S; [done|]. destruct xs as [|x xs]; [done|]. cbn [InvSpec.wants]. apply Forall_cons in F as [Fo F]. apply IH; [done|].
  destruct o; try done; cbn [InvSpec.want_step].
  - cbn in Fo. by destruct (N.eqb_spec (InvModel.b_hash b) h).
  - by destruct (existsb _ x).
  - by destruct (_ =? h).
Qed.
Lemma wants_start h os : forall xs v, length os = length xs -> Forall (fun o => ~ arrives h o) os -> InvModel.IGetBlock h ∈ os -> is_Some (InvSpec.wants h os xs v).
Proof.
  induction os as [|o os IH]; intros xs v L F I; [by apply elem_of_nil in I|]. destruct xs as [|x xs]; [done|]. cbn [InvSpec.wants]. apply Forall_cons in F as [Fo F].
  apply elem_of_cons in I as [<-|I]; [|apply IH; [by injection L|done|done]]. apply wants_stay; [done|]. cbn. by rewrite N.eqb_refl.
Qed.
Lemma no_arrival h e s cs s1 : explained e s cs s1 -> existsb (block_message h) (announced (e_items e)) = false -> Forall (fun o => ~ arrives h o) (inv_calls cs).
Proof.
  intros X B. destruct (x_inv _ _ _ _ _ _ _ _ _ _ X) as (op & Io & l1 & l2 & O). apply Forall_forall. intros o I A.
  assert (Q : op = Some o).
  { destruct op as [o'|].
    - destruct O as (x & Ec & _). rewrite Ec in I. apply elem_of_app in I as [I|I]; [apply elem_of_list_fmap in I as (? & -> & _); done|].
      apply elem_of_cons in I as [->|I]; [done|]. apply elem_of_list_fmap in I as (? & -> & _); done.
    - destruct O as [Ec _]. rewrite Ec in I. apply elem_of_list_fmap in I as (? & -> & _); done. }
  subst op. destruct o; try done. destruct (x_events _ _ _ _ _ _ _ _ _ _ X) as [Ea|(ev & Ea)]; rewrite Ea in *; cbn [inv_of] in Io.
  - destruct (e_op e); done.
  - destruct Io as (n1 & Io). destruct ev as [| |from m|so| |]; try done; [|by destruct so]. destruct m; try done. cbn in Io. injection Io as -> _. cbn in A, B. rewrite A, N.eqb_refl in B. done.
Qed.
Lemma tells_wanted h L s css s' : tells L s css s' -> Forall (fun e => existsb (block_message h) (announced (e_items e)) = false) L ->
  forall v, is_Some v -> is_Some (InvSpec.wants h (inv_calls (concat css)) (inv_outs (concat css)) v).
Proof.
  induction 1 as [|e L s cs s1 css s' X T IH]; intros F v S; cbn [concat]; [done|]. apply Forall_cons in F as [Fe F]. rewrite inv_calls_app, inv_outs_app, wants_app by apply inv_lengths.
  apply IH; [done|]. apply wants_stay; [|done]. by eapply no_arrival.
Qed.
Lemma asks_follow e s cs s1 i z h : explained e s cs s1 -> KCbf i z ∈ cs -> CbfModel.CoGetBlock h ∈ z -> InvModel.IGetBlock h ∈ inv_calls cs.
Proof.
  intros X Hk Ho.
  assert (B : h ∈ blocks_of z) by (unfold blocks_of; apply elem_of_list_omap; eexists; split; [exact Ho|done]).
  assert (Pt : forall o n d, cbf_part H env o n d -> KCbf i z ∈ d -> InvModel.IGetBlock h ∈ inv_calls d).
  { intros o n d. destruct o as [o|]; cbn [cbf_part]; [|intros ->; intros I; by apply elem_of_nil in I]. intros (y & ->) I.
    assert (y = z) as ->. { apply elem_of_cons in I as [I|I]; [congruence|]. unfold wants in I. apply elem_of_list_In, in_map_iff in I as (? & ? & _). done. }
    change (inv_calls (KCbf (CbfSpec.Input (ne_cbf (env (n_calls n))) (SyncModel.se_now (ne_sync (env (n_calls n)))) (tree_of H (n_cache n)) o) z :: wants z)) with (inv_calls (wants z)).
    rewrite (proj1 (wants_inv z)). apply elem_of_list_fmap. by exists h. }
  assert (Ps : forall o n d, sync_part env o n d -> KCbf i z ∉ d).
  { intros o n d. destruct o; cbn [sync_part]; [intros (? & ->) I; by apply elem_of_list_singleton in I|intros ->; apply not_elem_of_nil]. }
  assert (Pi : forall o d, inv_part o d -> KCbf i z ∉ d).
  { intros o d. destruct o; cbn [inv_part]; [intros (? & ->) I; by apply elem_of_list_singleton in I|intros ->; apply not_elem_of_nil]. }
  assert (Ev : forall ev n, event_calls H scf P env ev n cs -> InvModel.IGetBlock h ∈ inv_calls cs).
  { intros ev n (a & b & d & n1 & n2 & -> & _ & _ & Pa & Pb & Pd). rewrite !inv_calls_app, !elem_of_app. left. eapply Pt; [exact Pa|].
    apply elem_of_app in Hk as [Hk|Hk]; [done|]. apply elem_of_app in Hk as [Hk|Hk]; [by apply (Pi _ _ Pb) in Hk|by apply (Ps _ _ _ Pd) in Hk]. }
  pose proof (x_calls _ _ _ _ _ _ _ _ _ _ X) as C. destruct (e_op e); cbn [NodeTold.step_calls] in C.
  - destruct C as (_ & a & b & n1 & -> & _ & Pa & Pb). rewrite inv_calls_app, elem_of_app. right. eapply Pt; [exact Pb|]. apply elem_of_app in Hk as [Hk|Hk]; [by apply (Ps _ _ _ Pa) in Hk|done].
  - destruct C as [-> _]. by apply elem_of_nil in Hk.
  - eapply Ev. apply C.
  - destruct C as (_ & a & b & d & n1 & n2 & -> & _ & _ & Pa & Pb & Pd). rewrite !inv_calls_app, !elem_of_app. right. right. eapply Pt; [exact Pd|].
    apply elem_of_app in Hk as [Hk|Hk]; [by apply (Pi _ _ Pa) in Hk|]. apply elem_of_app in Hk as [Hk|Hk]; [by apply (Ps _ _ _ Pb) in Hk|done].
  - destruct C as (_ & C). by apply (Ps _ _ _ C) in Hk.
  - destruct C as (_ & C). by eapply Pt.
  - destruct C as (_ & C). by eapply Pt.
  - destruct C as (_ & C). by eapply Pt.
  - destruct C as (_ & C). by apply (Pi _ _ C) in Hk.
  - destruct C as (_ & a & b & n1 & -> & _ & Pa & Pb). rewrite inv_calls_app, elem_of_app. left. eapply Pt; [exact Pa|]. apply elem_of_app in Hk as [Hk|Hk]; [done|by apply (Pi _ _ Pb) in Hk].
  - destruct C as [(_ & ->)|(ev & _ & C)]; [by apply elem_of_nil in Hk|by eapply Ev].
Qed.

Section Start.
Context (c0 : cache) (cap : N) (st : list (N * N)).
Context (Ch : CbfSpec.chained P ((CbfModel.p_genesis P, CbfModel.p_header P (CbfModel.p_genesis P) 0) :: st)).
Notation start := (node0 c0 (CbfModel.cbf0 cap st)).

Lemma made_wanted L1 e css1 s1 cs (s2 : state) h v : tells L1 start css1 s1 -> explained e s1 cs s2 -> makes_wanted h L1 e ->
  is_Some (InvSpec.wants h (inv_calls cs) (inv_outs cs) v).
Proof.
  intros T X [Er|(k & va & c & Q & Aw)].
  - apply wants_start; [apply inv_lengths| |].
    + eapply no_arrival; [exact X|]. pose proof (x_calls _ _ _ _ _ _ _ _ _ _ X) as C. rewrite Er in C. cbn in C. destruct C as [-> _]. done.
    + destruct (x_inv _ _ _ _ _ _ _ _ _ _ X) as (op & Io & l1 & l2 & O). pose proof (x_calls _ _ _ _ _ _ _ _ _ _ X) as C. rewrite Er in *. cbn in C. destruct C as [Ea _]. rewrite Ea in Io. cbn in Io. subst op.
      destruct O as (x & -> & _). apply elem_of_app. right. by left.
  - apply (queued_cbf _ _ _ _ _ _ _ _ _ _ _ X) in Q as (i & z & Hk & Ho); [|done].
    destruct (cbf_position _ _ _ _ _ _ c0 cap st _ _ _ _ _ _ _ _ T X Hk) as (Re & St & Ec & Ez).
    destruct (CbfSeen.matched_watched P cap st _ _ _ _ _ _ _ _ _ _ _ Ch Re St Ho) as (f & _ & _ & W).
    rewrite (tells_awaits _ _ _ _ _ _ k _ _ _ _ T false) in W. change (foldl (log_awaits k) false L1) with (awaited k L1) in W. rewrite Aw in W.
    destruct (W eq_refl) as [W'|W']; [|done]. apply wants_start; [apply inv_lengths| |by eapply asks_follow].
    eapply no_arrival; [exact X|]. pose proof (x_cbf _ _ _ _ _ _ _ _ _ _ X) as O. destruct (x_events _ _ _ _ _ _ _ _ _ _ X) as [Ea|(ev & Ea)]; rewrite Ea in *; [done|].
    cbn [cbf_of existsb] in *. rewrite orb_false_r. destruct ev as [| |from m| | |]; try done. destruct m; try done. cbn in O. destruct O as [O _]. rewrite O in Ec. done.
Qed.
Lemma inv_position L css s e cs (s' : state) o z : tells L start css s -> explained e s cs s' -> KInv o z ∈ cs ->
  exists a b xa xb i0 i1, inv_calls cs = a ++ o :: b /\ inv_outs cs = xa ++ z :: xb /\ length a = length xa /\
    InvSpec.inv_reach (inv_calls (concat css) ++ a) i0 (inv_outs (concat css) ++ xa) /\ InvModel.inv_step o i0 = Val (i1, z) /\ InvModel.inv_run b i1 = Val (n_inv (f_state s'), xb).
Proof.
  intros T X Hk. apply elem_of_list_split in Hk as (ca & cb & ->). pose proof (x_exec _ _ _ _ _ _ _ _ _ _ X) as Ex.
  apply nexec_split in Ex as (m & Xa & Xb). inversion Xb as [| |o0 x0 cs0 n0 i0 k0 n0' E A F1 F2 F3|]; subst.
  exists (inv_calls ca), (inv_calls cb), (inv_outs ca), (inv_outs cb), (n_inv m), i0. rewrite inv_calls_app, inv_outs_app. split; [done|]. split; [done|]. split; [apply inv_lengths|].
  split; [|split; [exact E|exact (nexec_inv _ _ _ _ _ _ A)]].
  pose proof (nexec_app _ _ _ _ _ _ _ _ (tells_exec _ _ _ _ _ _ _ _ _ _ T) Xa) as Y. apply nexec_inv in Y. rewrite inv_calls_app, inv_outs_app in Y. exact Y.
Qed.

Lemma node_fetched os s L1 e L2 s' x h a : node_log H step env os start = Val (s, L1 ++ e :: L2) -> step NTimer s = Val (s', x) ->
  makes_wanted h L1 e -> Forall (fun e => existsb (block_message h) (announced (e_items e)) = false) L2 ->
  let l := log_step H env NTimer s x in
  default 0 (last_asked h (L1 ++ e :: L2)) + 15000 <= e_time l -> serves a ((L1 ++ e :: L2) ++ [l]) = Some true ->
  exists b, (sock b, MGetData [InvModel.InvBlock h]) ∈ written x.
Proof.
  intros R E Mw F l Tm Sv. destruct (log_tells _ _ _ _ _ _ _ _ _ _ R) as (css & T & _). destruct (step_explained _ _ _ _ _ _ _ _ _ _ E) as (cs & X).
  pose proof T as T0. apply tells_split in T as (css1 & css2 & s1 & -> & T1 & T2). apply tells_cons in T2 as (cs1 & css3 & s2 & -> & X1 & T2).
  assert (W : is_Some (InvSpec.wants h (inv_calls (concat (css1 ++ cs1 :: css3))) (inv_outs (concat (css1 ++ cs1 :: css3))) None)).
  { rewrite concat_app. cbn [concat]. rewrite !inv_calls_app, !inv_outs_app, wants_app by apply inv_lengths. rewrite wants_app by apply inv_lengths.
    eapply tells_wanted; [exact T2|exact F|]. exact (made_wanted _ _ _ _ _ _ _ _ T1 X1 Mw). }
  assert (T' : tells ((L1 ++ e :: L2) ++ [l]) start ((css1 ++ cs1 :: css3) ++ [cs]) s') by (eapply tells_app; [exact T0|]; econstructor; [exact X|constructor]).
  set (css := css1 ++ cs1 :: css3) in *.
  pose proof (tells_asked h _ _ _ _ T0 None) as As. change (foldl (log_asked h) (default None None) (L1 ++ e :: L2)) with (last_asked h (L1 ++ e :: L2)) in As.
  pose proof (tells_serves a _ _ _ _ T' None) as Se. change (foldl (log_serves a) (InvSpec.pv_network <$> None) ((L1 ++ e :: L2) ++ [l])) with (serves a ((L1 ++ e :: L2) ++ [l])) in Se. rewrite Sv in Se.
  destruct (x_inv_ran _ _ _ _ X) as (op & Io & _ & O). pose proof (x_calls _ _ _ _ _ _ _ _ _ _ X) as C. cbn [log_step e_op e_items NodeTold.step_calls] in C, Io. destruct C as [Ea _]. rewrite Ea in Io.
  cbn [inv_of inv_input] in Io. subst op. destruct O as (z & i & i' & Iz & _ & l1 & l2 & Ec & Eo).
  set (o := InvModel.ITimer (SyncModel.se_now (ne_sync (env (n_calls (f_state s))))) (CbfModel.tr_height (tree_of H (n_cache (f_state s)))) (ne_pick (env (n_calls (f_state s))))) in *.
  assert (R0 : exists i0 i1, InvSpec.inv_reach (inv_calls (concat css) ++ gets l1) i0 (inv_outs (concat css) ++ ticks l1) /\ InvModel.inv_step o i0 = Val (i1, z)).
  { pose proof (nexec_inv _ _ _ _ _ _ (tells_exec _ _ _ _ _ _ _ _ _ _ T')) as Y. rewrite concat_app in Y. cbn [concat] in Y. rewrite app_nil_r, inv_calls_app, inv_outs_app, Ec, Eo in Y.
    clear -Y. rewrite !(app_assoc _ _ (_ :: _)) in Y. revert Y. unfold InvSpec.inv_reach. cbn [f_state node0 n_inv].
    assert (Ln : length (inv_calls (concat css) ++ gets l1) = length (inv_outs (concat css) ++ ticks l1)) by (by rewrite !app_length, !fmap_length, inv_lengths).
    revert Ln. generalize (inv_calls (concat css) ++ gets l1) as os. intros os. generalize (inv_outs (concat css) ++ ticks l1) as xs. generalize InvModel.inv0.
    induction os as [|o1 os IH]; intros i0 [|x1 xs] Ln Y; try done.
    - apply InvTrack.run_cons in Y as (s2 & y & ys & E & _ & Ey). injection Ey as <- <-. by exists i0, s2.
    - cbn [app] in Y. apply InvTrack.run_cons in Y as (s2 & y & ys & E & Y & Ey). injection Ey as <- <-. injection Ln as Ln. destruct (IH s2 xs Ln Y) as (j0 & j1 & J & K).
      exists j0, j1. split; [|done]. cbn [InvModel.inv_run]. rewrite E. cbn [mbind_M]. by rewrite J. }
  destruct R0 as (i0 & i1 & Re & St).
  assert (Vw : exists v, InvSpec.views a ((inv_calls (concat css) ++ gets l1) ++ [o]) ((inv_outs (concat css) ++ ticks l1) ++ [z]) None = Some v /\ InvSpec.pv_network v = true).
  { rewrite concat_app in Se. cbn [concat] in Se. rewrite app_nil_r, inv_calls_app, inv_outs_app, Ec, Eo in Se. rewrite views_app in Se by apply inv_lengths. rewrite views_mid in Se.
    assert (Ln : length (inv_calls (concat css) ++ gets l1) = length (inv_outs (concat css) ++ ticks l1)) by (by rewrite !app_length, !fmap_length, inv_lengths).
    rewrite (views_app _ _ _ _ _ _ Ln), views_app by apply inv_lengths. rewrite views_wants. cbn [InvSpec.views].
    destruct (InvSpec.view_step a o z _) as [v|]; [|done]. cbn in Se. injection Se as Se. by exists v. }
  destruct Vw as (v & Vw & Nw).
  assert (Wt : exists last, InvSpec.wants h (inv_calls (concat css) ++ gets l1) (inv_outs (concat css) ++ ticks l1) None = Some last /\ default 0 last + 15000 <= e_time l).
  { assert (S : is_Some (InvSpec.wants h (inv_calls (concat css) ++ gets l1) (inv_outs (concat css) ++ ticks l1) None)).
    { rewrite wants_app by apply inv_lengths. apply wants_stay; [|done]. apply Forall_forall. intros q Hq. apply elem_of_list_fmap in Hq as (? & -> & _). intros Q. exact Q. }
    destruct S as [last S]. exists last. split; [done|]. assert (Q : default None (InvSpec.wants h (inv_calls (concat css) ++ gets l1) (inv_outs (concat css) ++ ticks l1) None) = last_asked h (L1 ++ e :: L2)).
    { rewrite wants_app by apply inv_lengths. rewrite wants_gets. exact As. }
    rewrite S in Q. cbn in Q. by rewrite Q. }
  destruct Wt as (last & Wt & Tw). destruct (InvViews.repeated _ _ _ _ _ _ _ _ h last a v Re St Wt Tw Vw Nw) as (b & Ib & _).
  exists b. destruct (inv_in cs z Iz) as (j & Hk). apply (written_getdata _ _ _ _ _ _ (log_step H env NTimer s x) _ _ _ _ _ X). by exists j, z, b.
Qed.

(** ** Transactions that are reverted *)
Lemma keeps_told h e s cs s1 : explained e s cs s1 -> keeps h e -> Forall (InvSpec.keeps_height h) (inv_calls cs).
Proof.
  intros X [K1 K2]. destruct (x_inv _ _ _ _ _ _ _ _ _ _ X) as (op & Io & l1 & l2 & O).
  assert (G : forall l, Forall (InvSpec.keeps_height h) (gets l)) by (intros l; apply Forall_forall; intros o I; by apply elem_of_list_fmap in I as (? & -> & _)).
  destruct op as [o|]; [|destruct O as [-> _]; apply G]. destruct O as (x & -> & _). apply Forall_app. split; [apply G|]. constructor; [|apply G].
  destruct (x_events _ _ _ _ _ _ _ _ _ _ X) as [Ea|(ev & Ea)]; rewrite Ea in *; cbn [inv_of] in Io.
  - pose proof (x_entry _ _ _ _ _ _ _ _ _ _ X) as En. assert (Eh : e_height e = CbfModel.tr_height (tree_of H (n_cache (f_state s)))) by (rewrite En; done).
    destruct (e_op e); try done; cbn in Io; injection Io as ->; try done. cbn. rewrite <- Eh. by apply K2.
  - destruct Io as (n1 & Io). destruct ev as [| |from m|so| |]; cbn in Io; try (by injection Io as ->); try done.
    + destruct m; try done; by injection Io as ->.
    + destruct so; try done. injection Io as ->. cbn. eapply K1. by left.
Qed.
Lemma tells_keeps h L s css s' : tells L s css s' -> Forall (keeps h) L -> Forall (InvSpec.keeps_height h) (inv_calls (concat css)).
Proof.
  induction 1 as [|e L s cs s1 css s' X T IH]; intros F; cbn [concat]; [apply Forall_nil; exact I|]. apply Forall_cons in F as [Fe F]. rewrite inv_calls_app. apply Forall_app. split; [by eapply keeps_told|by apply IH].
Qed.
Lemma gets_keep h cs s e s1 a o b : explained e s cs s1 -> inv_calls cs = a ++ o :: b -> (match o with InvModel.IGetBlock _ => False | _ => True end) -> Forall (InvSpec.keeps_height h) b.
Proof.
  intros X Eq Q. destruct (x_inv _ _ _ _ _ _ _ _ _ _ X) as (op & _ & l1 & l2 & O).
  assert (G : forall l d, (forall q, q ∈ d -> q ∈ gets l) -> Forall (InvSpec.keeps_height h) d) by (intros l d S; apply Forall_forall; intros q I; apply S in I; by apply elem_of_list_fmap in I as (? & -> & _)).
  destruct op as [p|].
  - destruct O as (x & Ec & _). rewrite Eq in Ec. revert Ec. clear -G Q. revert a. induction l1 as [|k l1 IH]; intros a; cbn [fmap list_fmap app].
    + destruct a as [|q a]; cbn [app].
      * intros [= _ ->]. by apply (G l2).
      * intros [= _ Ec]. exfalso. assert (I : o ∈ gets l2) by (rewrite <- Ec; apply elem_of_app; right; by left). by apply elem_of_list_fmap in I as (? & -> & _).
    + destruct a as [|q a]; cbn [app]; [intros [= -> _]; done|]. intros [= _ Ec]. exact (IH a Ec).
  - destruct O as [Ec _]. exfalso. assert (I : o ∈ gets l1) by (rewrite <- Ec, Eq; apply elem_of_app; right; by left). by apply elem_of_list_fmap in I as (? & -> & _).
Qed.
Lemma node_reverted os s L1 e L2 o s' x id hash h b k th rv cn : node_log H step env os start = Val (s, L1 ++ e :: L2) -> step o s = Val (s', x) ->
  EvInv (InvModel.IoStatus id (InvModel.StConfirmed hash h)) ∈ queued_events (e_items e) -> Forall (keeps h) L2 ->
  EvSync (SyncModel.SoImported b k th rv cn) ∈ announced x -> h ∈ rv.*1 ->
  exists t, t_id t = id /\ EvInv (InvModel.IoStatus id (InvModel.StReverted t)) ∈ queued_events x.
Proof.
  intros R E Q F An Hr. destruct (log_tells _ _ _ _ _ _ _ _ _ _ R) as (css & T & _). destruct (step_explained _ _ _ _ _ _ _ _ _ _ E) as (cs & X).
  apply tells_split in T as (css1 & css2 & s1 & -> & T1 & T2). apply tells_cons in T2 as (cs1 & css3 & s2 & -> & X1 & T2).
  apply (queued_inv _ _ _ _ _ _ _ _ _ _ _ X1) in Q as (io & z & Hk & Ho); [|done].
  destruct (inv_position _ _ _ _ _ _ _ _ T1 X1 Hk) as (a & d & xa & xd & i0 & i1 & Ec & Eo & Ln & Re & St & Rn).
  pose proof (InvProofs.inv_run_ok _ _ _ _ InvProofs.inv0_ok Re) as Ok0. pose proof (InvProofs.inv_step_ok _ _ _ _ Ok0 St) as Ok1.
  destruct (InvOrigin.step_recorded _ _ _ _ _ _ _ Ok0 St Ho) as (t & Et & Cf).
  assert (Ni : match io with InvModel.IGetBlock _ => False | _ => True end).
  { destruct io; try done. cbn in St. unfold InvModel.get_block, InvModel.schedule_tick in St. injection St as _ <-. by apply elem_of_list_singleton in Ho. }
  pose proof (InvTrack.run_keeps _ _ _ _ h t Ok1 (gets_keep h _ _ _ _ _ _ _ X1 Ec Ni) Cf Rn) as Cf2. pose proof (InvProofs.inv_run_ok _ _ _ _ Ok1 Rn) as Ok2.
  pose proof (nexec_inv _ _ _ _ _ _ (tells_exec _ _ _ _ _ _ _ _ _ _ T2)) as Rn3.
  pose proof (InvTrack.run_keeps _ _ _ _ h t Ok2 (tells_keeps h _ _ _ _ T2 F) Cf2 Rn3) as Cf3. pose proof (InvProofs.inv_run_ok _ _ _ _ Ok2 Rn3) as Ok3.
  destruct (x_inv _ _ _ _ _ _ _ _ _ _ X) as (op & Io & l1 & l2 & O). cbn [log_step e_items e_op] in Io. destruct (x_events _ _ _ _ _ _ _ _ _ _ X) as [Ea|(ev & Ea)]; cbn [log_step e_items] in Ea; rewrite Ea in An, Io.
  { by apply elem_of_nil in An. }
  apply elem_of_list_singleton in An as <-. cbn [inv_of inv_event] in Io. destruct Io as (n1 & ->). destruct O as (y & Oc & Oo).
  pose proof (nexec_inv _ _ _ _ _ _ (x_exec _ _ _ _ _ _ _ _ _ _ X)) as Rl. rewrite Oc, Oo in Rl.
  assert (G : exists j0 j1, InvProofs.inv_ok j0 /\ InvSpec.confirmed_at h t j0 /\ InvModel.inv_step (InvModel.IReverted rv.*1) j0 = Val (j1, y)).
  { clear -Rl Ok3 Cf3. revert Rl Ok3 Cf3. generalize (n_inv (f_state s)). induction l1 as [|k1 l1 IH]; intros j Rl Okj Cfj; cbn [fmap list_fmap app] in Rl.
    - apply InvTrack.run_cons in Rl as (j1 & w & ws & E & _ & Ew). injection Ew as <- <-. by exists j, j1.
    - apply InvTrack.run_cons in Rl as (j1 & w & ws & E & Rl & Ew). injection Ew as <- <-. eapply IH; [exact Rl|by eapply InvProofs.inv_step_ok|].
      eapply (InvTrack.run_keeps [InvModel.IGetBlock k1] j j1 [[InvModel.IoTimer 1000]]); [done|by constructor|done|]. cbn [InvModel.inv_run]. rewrite E. done. }
  destruct G as (j0 & j1 & Okj & Cfj & Sj). cbn [InvModel.inv_step] in Sj. destruct (InvProofs.blocks_reverted_facts _ _ _ _ Okj Sj) as (_ & _ & _ & _ & _ & _ & _ & K & _).
  destruct (K h t Hr Cfj) as [_ I]. exists t. split; [done|]. rewrite Et in I. apply (queued_inv _ _ _ _ _ _ (log_step H env o s x) _ _ _ _ X); [done|].
  destruct (inv_in cs y) as (j & Hj); [rewrite Oo; apply elem_of_app; right; by left|]. by exists j, y.
Qed.
End Start.
End Fetch.
