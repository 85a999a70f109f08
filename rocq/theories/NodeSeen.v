(** What the log of a run tells about its managers: which blocks are looked
    for, awaited and fetched, and what becomes of transactions. *)
From Verif Require Import Base PowModel BlockModel UtilModel FeeModel AddrModel PeerModel
  DispModel DispSpec DispProofs LoadModel NodeModel NodeSpec NodeTold NodeLogSpec NodeLog.
From Verif Require SyncModel SyncSpec CbfModel CbfSpec CbfFacts CbfProofs CbfWait CbfWatch CbfSeen InvModel InvSpec InvProofs InvTrack InvViews InvMore InvOrigin.
Open Scope N_scope.

Section Seen.
Context (H : header -> N) (scf : SyncModel.sconf) (P : CbfModel.params) (sock : N -> sockaddr) (env : nat -> nenv) (magic : N).
Notation step := (node_step H scf P sock env magic).
Notation nexec := (NodeTold.nexec H scf P).
Notation step_calls := (NodeTold.step_calls H scf P env).

Record explained (e : entry) (s : state) (cs : list ncall) (s1 : state) : Prop := {
  x_step : step (e_op e) s = Val (s1, e_items e);
  x_entry : e = log_step H env (e_op e) s (e_items e);
  x_exec : nexec cs (f_state s) (f_state s1);
  x_items : exists y, e_items e = fqueued (peer_outs (e_op e) ++ outs sock cs) ++ y /\ forall c z, FQueued c z ∉ y;
  x_calls : step_calls (e_op e) (announced (e_items e)) (f_state s) cs
}.
Inductive tells : list entry -> state -> list (list ncall) -> state -> Prop :=
| TsNil s : tells [] s [] s
| TsCons e L s cs s1 css s' : explained e s cs s1 -> tells L s1 css s' -> tells (e :: L) s (cs :: css) s'.

Lemma step_explained o s s' x : step o s = Val (s', x) -> exists cs, explained (log_step H env o s x) s cs s'.
Proof.
  intros E. destruct (step_told _ _ _ _ _ _ _ _ _ _ E) as (cs & y & X & Ex & A & Q & Sc). exists cs. split; cbn [log_step e_op e_items]; try done. by exists y.
Qed.
Lemma log_tells os : forall s s' L, node_log H step env os s = Val (s', L) -> exists css, tells L s css s' /\ ops L = os.
Proof.
  induction os as [|o os IH]; intros s s' L; cbn [node_log].
  - intros [= <- <-]. exists []. split; [constructor|done].
  - destruct (step o s) as [[s1 x]|] eqn:E; [|done]. cbn [mbind_M]. destruct (node_log H step env os s1) as [[s2 l]|] eqn:R; [|done]. cbn [mbind_M].
    intros [= <- <-]. destruct (IH _ _ _ R) as (css & T & Eo). destruct (step_explained _ _ _ _ E) as (cs & X). exists (cs :: css).
    split; [econstructor; [exact X|exact T]|]. cbn. by f_equal.
Qed.
Lemma tells_app L s css s1 L' css' s' : tells L s css s1 -> tells L' s1 css' s' -> tells (L ++ L') s (css ++ css') s'.
Proof. induction 1; cbn [app]; [done|]. intros T. econstructor; eauto. Qed.
Lemma tells_split L1 : forall L2 s css s', tells (L1 ++ L2) s css s' -> exists css1 css2 s1, css = css1 ++ css2 /\ tells L1 s css1 s1 /\ tells L2 s1 css2 s'.
Proof.
  induction L1 as [|e L1 IH]; intros L2 s css s' T; cbn [app] in T.
  - exists [], css, s. split; [done|]. split; [constructor|done].
  - inversion T as [|e' L' s0 cs s1 css' s'' X T' E1 E2 E3 E4]; subst. destruct (IH _ _ _ _ T') as (c1 & c2 & s2 & -> & T1 & T2).
    exists (cs :: c1), c2, s2. split; [done|]. split; [by econstructor|done].
Qed.
Lemma tells_exec L s css s' : tells L s css s' -> nexec (concat css) (f_state s) (f_state s').
Proof. induction 1 as [|e L s cs s1 css s' X T IH]; cbn [concat]; [apply nexec_refl|]. eapply nexec_app; [exact (x_exec _ _ _ _ X)|exact IH]. Qed.
Lemma tells_one e s css s' : tells [e] s css s' -> exists cs, css = [cs] /\ explained e s cs s'.
Proof. intros T. inversion T as [|e' L' s0 cs s1 css' s'' X T' E1 E2 E3 E4]; subst. inversion T'; subst. by exists cs. Qed.
Lemma tells_cons e L s css s' : tells (e :: L) s css s' -> exists cs css' s1, css = cs :: css' /\ explained e s cs s1 /\ tells L s1 css' s'.
Proof. intros T. inversion T as [|e' L' s0 cs s1 css' s'' X T' E1 E2 E3 E4]; subst. by exists cs, css', s1. Qed.

(** ** What is queued in a step *)
Lemma queued_in e x : e ∈ queued_events x <-> exists c, FQueued c (IoEvent e) ∈ x.
Proof.
  unfold queued_events. rewrite elem_of_list_omap. split.
  - intros (i & I & E). destruct i as [c [| | | |e']| |]; try done. injection E as ->. by exists c.
  - intros (c & I). by exists (FQueued c (IoEvent e)).
Qed.
Lemma written_in w m x : (w, m) ∈ written x <-> exists c, FQueued c (IoWrite w m) ∈ x.
Proof.
  unfold written. rewrite elem_of_list_omap. split.
  - intros (i & I & E). destruct i as [c [w' m'| | | |]| |]; try done. injection E as -> ->. by exists c.
  - intros (c & I). by exists (FQueued c (IoWrite w m)).
Qed.
Lemma queued_call e s cs s1 c z : explained e s cs s1 -> FQueued c z ∈ e_items e <-> (c, z) ∈ peer_outs (e_op e) \/ exists k, k ∈ cs /\ (c, z) ∈ call_out sock k.
Proof.
  intros X. destruct (x_items _ _ _ _ X) as (y & -> & Q). rewrite elem_of_app. unfold fqueued. rewrite elem_of_list_fmap. split.
  - intros [((c' & z') & E & I)|I]; [|by apply Q in I]. cbn in E. injection E as -> ->. apply elem_of_app in I as [I|I]; [by left|right].
    unfold outs in I. apply elem_of_list_In, in_flat_map in I as (k & Hk & I). exists k. by rewrite !elem_of_list_In.
  - intros G. left. exists (c, z). split; [done|]. apply elem_of_app. destruct G as [I|(k & Hk & I)]; [by left|right].
    unfold outs. apply elem_of_list_In, in_flat_map. exists k. by rewrite <- !elem_of_list_In.
Qed.
Definition cbf_reported (o : CbfModel.cout) : Prop := cbf_io sock o = [(CCbf, IoEvent (EvCbf o))].
Definition inv_reported (o : InvModel.iout) : Prop := inv_io sock o = [(CInv, IoEvent (EvInv o))].
Lemma queued_cbf e s cs s1 o : explained e s cs s1 -> cbf_reported o -> EvCbf o ∈ queued_events (e_items e) <-> exists i z, KCbf i z ∈ cs /\ o ∈ z.
Proof.
  intros X R. rewrite queued_in. split.
  - intros (c & I). apply (queued_call _ _ _ _ _ _ X) in I as [I|(k & Hk & I)].
    { destruct (e_op e) as [|[]| | | | | | | | |]; cbn in I; try (by apply elem_of_nil in I); by apply elem_of_list_singleton in I. }
    destruct k as [oe z|io z|i z]; cbn [call_out] in I; apply elem_of_list_In, in_flat_map in I as (u & Hu & I); apply elem_of_list_In in Hu, I.
    + destruct u; cbn in I; try (by apply elem_of_nil in I); by apply elem_of_list_singleton in I.
    + destruct u; cbn in I; try (by apply elem_of_nil in I); by apply elem_of_list_singleton in I.
    + exists i, z. split; [done|]. destruct u; cbn in I; try (by apply elem_of_nil in I); apply elem_of_list_singleton in I; try done; by injection I as -> ->.
  - intros (i & z & Hk & Ho). exists CCbf. apply (queued_call _ _ _ _ _ _ X). right. exists (KCbf i z). split; [done|]. cbn [call_out].
    apply elem_of_list_In, in_flat_map. exists o. rewrite <- !elem_of_list_In. split; [done|]. rewrite R. by left.
Qed.
Lemma queued_inv e s cs s1 o : explained e s cs s1 -> inv_reported o -> EvInv o ∈ queued_events (e_items e) <-> exists i z, KInv i z ∈ cs /\ o ∈ z.
Proof.
  intros X R. rewrite queued_in. split.
  - intros (c & I). apply (queued_call _ _ _ _ _ _ X) in I as [I|(k & Hk & I)].
    { destruct (e_op e) as [|[]| | | | | | | | |]; cbn in I; try (by apply elem_of_nil in I); by apply elem_of_list_singleton in I. }
    destruct k as [oe z|io z|i z]; cbn [call_out] in I; apply elem_of_list_In, in_flat_map in I as (u & Hu & I); apply elem_of_list_In in Hu, I.
    + destruct u; cbn in I; try (by apply elem_of_nil in I); by apply elem_of_list_singleton in I.
    + exists io, z. split; [done|]. destruct u; cbn in I; try (by apply elem_of_nil in I); apply elem_of_list_singleton in I; try done; by injection I as -> ->.
    + destruct u; cbn in I; try (by apply elem_of_nil in I); by apply elem_of_list_singleton in I.
  - intros (i & z & Hk & Ho). exists CInv. apply (queued_call _ _ _ _ _ _ X). right. exists (KInv i z). split; [done|]. cbn [call_out].
    apply elem_of_list_In, in_flat_map. exists o. rewrite <- !elem_of_list_In. split; [done|]. rewrite R. by left.
Qed.
Lemma written_getdata e s cs s1 w h : explained e s cs s1 ->
  (w, MGetData [InvModel.InvBlock h]) ∈ written (e_items e) <-> exists i z a, KInv i z ∈ cs /\ w = sock a /\ InvModel.IoGetData a h ∈ z.
Proof.
  intros X. rewrite written_in. split.
  - intros (c & I). apply (queued_call _ _ _ _ _ _ X) in I as [I|(k & Hk & I)].
    { destruct (e_op e) as [|[]| | | | | | | | |]; cbn in I; try (by apply elem_of_nil in I); by apply elem_of_list_singleton in I. }
    destruct k as [oe z|io z|i z]; cbn [call_out] in I; apply elem_of_list_In, in_flat_map in I as (u & Hu & I); apply elem_of_list_In in Hu, I.
    + destruct u; cbn in I; try (by apply elem_of_nil in I); by apply elem_of_list_singleton in I.
    + destruct u; cbn in I; try (by apply elem_of_nil in I); apply elem_of_list_singleton in I; try done. injection I as -> -> ->. by exists io, z, addr.
    + destruct u; cbn in I; try (by apply elem_of_nil in I); by apply elem_of_list_singleton in I.
  - intros (i & z & a & Hk & -> & Ho). exists CInv. apply (queued_call _ _ _ _ _ _ X). right. exists (KInv i z). split; [done|]. cbn [call_out].
    apply elem_of_list_In, in_flat_map. eexists. rewrite <- !elem_of_list_In. split; [exact Ho|]. cbn. by left.
Qed.

(** ** The calls of a manager in a step *)
Lemma in_cbf cs i z : KCbf i z ∈ cs -> i ∈ cbf_calls cs /\ z ∈ cbf_outs cs.
Proof. intros I. unfold cbf_calls, cbf_outs. rewrite !elem_of_list_omap. split; eexists; (split; [exact I|done]). Qed.
Lemma cbf_in cs z : z ∈ cbf_outs cs -> exists i, KCbf i z ∈ cs.
Proof. unfold cbf_outs. rewrite elem_of_list_omap. intros (k & I & E). destruct k; try done. injection E as ->. by eexists. Qed.
Lemma inv_in cs z : z ∈ inv_outs cs -> exists i, KInv i z ∈ cs.
Proof. unfold inv_outs. rewrite elem_of_list_omap. intros (k & I & E). destruct k; try done. injection E as ->. by eexists. Qed.
Lemma in_inv cs i z : KInv i z ∈ cs -> i ∈ inv_calls cs /\ z ∈ inv_outs cs.
Proof. intros I. unfold inv_calls, inv_outs. rewrite !elem_of_list_omap. split; eexists; (split; [exact I|done]). Qed.

Definition cbf_of (o : nop) (es : list nev) : option CbfModel.cbf_op :=
  match es with
  | e :: _ => cbf_event e
  | [] => match o with NMessage _ _ | NNext => None | _ => cbf_input o end
  end.
Definition inv_of (o : nop) (es : list nev) (n : node) (op : option InvModel.inv_op) : Prop :=
  match es with
  | e :: _ => exists n1, op = inv_event H e n1
  | [] => op = match o with NMessage _ _ | NNext => None | _ => inv_input H env o n end
  end.
Lemma x_events e s cs s1 : explained e s cs s1 -> announced (e_items e) = [] \/ exists ev, announced (e_items e) = [ev].
Proof. intros X. eapply step_events. exact (x_calls _ _ _ _ X). Qed.
Lemma x_cbf e s cs s1 : explained e s cs s1 -> one_cbf (cbf_of (e_op e) (announced (e_items e))) cs.
Proof. intros X. destruct (step_shape _ _ _ _ _ _ _ _ (x_calls _ _ _ _ X)) as [(-> & A & _)|(ev & -> & A & _)]; exact A. Qed.
Lemma x_inv e s cs s1 : explained e s cs s1 -> exists op, inv_of (e_op e) (announced (e_items e)) (f_state s) op /\ one_inv op cs.
Proof.
  intros X. destruct (step_shape _ _ _ _ _ _ _ _ (x_calls _ _ _ _ X)) as [(-> & _ & A & _)|(ev & -> & _ & (n1 & A) & _)]; [eexists; split; [reflexivity|exact A]|].
  exists (inv_event H ev n1). split; [by exists n1|exact A].
Qed.
Lemma message_announces e s cs s1 a m : explained e s cs s1 -> e_op e = NMessage a m -> announced (e_items e) = [EvMessage a m].
Proof. intros X Eo. pose proof (x_calls _ _ _ _ X) as C. rewrite Eo in C. apply C. Qed.

(** ** Folds over the log and over the calls of the filter manager *)
Lemma scripts_told e s cs s1 w : explained e s cs s1 -> foldl CbfSpec.scripts_in w (cbf_calls cs) = log_scripts w e.
Proof.
  intros X. pose proof (x_cbf _ _ _ _ X) as O. pose proof (x_calls _ _ _ _ X) as C. unfold log_scripts. destruct (x_events _ _ _ _ X) as [Ea|(ev & Ea)]; rewrite Ea in *; cbn [cbf_of] in O.
  - destruct (e_op e) as [|pe| | | | | | | | |]; cbn [cbf_input one_cbf] in O; try (by destruct O as [-> _]); destruct O as (i & z & Ei & -> & _);
      cbn [foldl]; unfold CbfSpec.scripts_in; by rewrite Ei.
  - assert (Q : match e_op e with NMessage _ _ | NNext => True | _ => False end) by (destruct (e_op e) as [|[]| | | | | | | | |]; cbn in C; destruct C; done).
    destruct (cbf_event ev) as [op|] eqn:Ev; cbn [one_cbf] in O.
    + destruct O as (i & z & Ei & -> & _). cbn [foldl]. unfold CbfSpec.scripts_in. rewrite Ei.
      destruct ev as [| |? []|[]| |[| | |? []| | |]]; cbn in Ev; try done; injection Ev as <-; by destruct (e_op e).
    + destruct O as [-> _]. by destruct (e_op e).
Qed.
Lemma txs_told e s cs s1 m : explained e s cs s1 -> foldl CbfSpec.txs_in m (cbf_calls cs) = log_txs m e.
Proof.
  intros X. pose proof (x_cbf _ _ _ _ X) as O. pose proof (x_calls _ _ _ _ X) as C. unfold log_txs. destruct (x_events _ _ _ _ X) as [Ea|(ev & Ea)]; rewrite Ea in *; cbn [cbf_of] in O; cbn [foldl].
  - destruct (e_op e) as [|pe| | | | | | | | |]; cbn [cbf_input one_cbf] in O; try (by destruct O as [-> _]); destruct O as (i & z & Ei & -> & _);
      cbn [foldl]; unfold CbfSpec.txs_in; by rewrite Ei.
  - assert (Q : match e_op e with NMessage _ _ | NNext => True | _ => False end) by (destruct (e_op e) as [|[]| | | | | | | | |]; cbn in C; destruct C; done).
    replace (match e_op e with NSubmit t => <[t_id t:=(t_outs t).*2]> m | _ => m end) with m by (by destruct (e_op e)).
    destruct (cbf_event ev) as [op|] eqn:Ev; cbn [one_cbf] in O.
    + destruct O as (i & z & Ei & -> & _). cbn [foldl]. unfold CbfSpec.txs_in. rewrite Ei.
      destruct ev as [| |? []|[]| |[| | |? []| | |]]; cbn in Ev; try done; by injection Ev as <-.
    + destruct O as [-> _]. destruct ev as [| |? []|[]| |[| | |? []| | |]]; cbn in Ev; done.
Qed.
Lemma tells_scripts L s css s' : tells L s css s' -> forall w, foldl CbfSpec.scripts_in w (cbf_calls (concat css)) = foldl log_scripts w L.
Proof. induction 1 as [|e L s cs s1 css s' X T IH]; intros w; cbn [concat foldl]; [done|]. rewrite cbf_calls_app, foldl_app, IH. by rewrite (scripts_told _ _ _ _ _ X). Qed.
Lemma tells_txs L s css s' : tells L s css s' -> forall m, foldl CbfSpec.txs_in m (cbf_calls (concat css)) = foldl log_txs m L.
Proof. induction 1 as [|e L s cs s1 css s' X T IH]; intros m; cbn [concat foldl]; [done|]. rewrite cbf_calls_app, foldl_app, IH. by rewrite (txs_told _ _ _ _ _ X). Qed.
Lemma tells_looked L s css s' f block : tells L s css s' -> CbfSpec.looked_for P (cbf_calls (concat css)) f block <-> looked_for P L f block.
Proof.
  intros T. unfold CbfSpec.looked_for, looked_for. change (CbfSpec.watched_scripts (cbf_calls (concat css))) with (foldl CbfSpec.scripts_in [] (cbf_calls (concat css))).
  change (CbfSpec.watched_txs (cbf_calls (concat css))) with (foldl CbfSpec.txs_in ∅ (cbf_calls (concat css))). rewrite (tells_scripts _ _ _ _ T), (tells_txs _ _ _ _ T). done.
Qed.

Lemma waiting_app h a : forall x b y v, length a = length x -> CbfSpec.waiting h (a ++ b) (x ++ y) v = CbfSpec.waiting h b y (CbfSpec.waiting h a x v).
Proof. induction a as [|i a IH]; intros [|o x] b y v L; try done. cbn. apply IH. by injection L. Qed.
Lemma match_reported h e s cs s1 i z : explained e s cs s1 -> cbf_calls cs = [i] -> cbf_outs cs = [z] ->
  existsb (reports_match h) (queued_events (e_items e)) = existsb (CbfSpec.matched_at h) z.
Proof.
  intros X Ec Eo. apply eq_true_iff_eq. rewrite !existsb_exists. split.
  - intros (ev & I & M). apply elem_of_list_In in I. destruct ev as [| | | |o|]; try done. destruct o; try done. destruct matched; [|done].
    apply (queued_cbf _ _ _ _ _ X) in I as (i' & z' & Hk & Ho); [|done]. destruct (in_cbf _ _ _ Hk) as [_ Iz]. rewrite Eo in Iz. apply elem_of_list_singleton in Iz as ->.
    eexists. split; [apply elem_of_list_In, Ho|exact M].
  - intros (o & I & M). apply elem_of_list_In in I. destruct o; try done. destruct matched; [|done].
    destruct (cbf_in cs z) as (i' & Hk); [rewrite Eo; by left|]. exists (EvCbf (CbfModel.CoFilterProcessed block height valid true cached)). split; [|exact M]. apply elem_of_list_In. apply (queued_cbf _ _ _ _ _ X); [done|]. by exists i', z.
Qed.
Lemma awaits_told h e s cs s1 v : explained e s cs s1 -> CbfSpec.waiting h (cbf_calls cs) (cbf_outs cs) v = log_awaits h v e.
Proof.
  intros X. pose proof (x_cbf _ _ _ _ X) as O. pose proof (fun i z => match_reported h _ _ _ _ i z X) as MR. unfold log_awaits. destruct (x_events _ _ _ _ X) as [Ea|(ev & Ea)]; rewrite Ea in *; cbn [cbf_of] in O.
  - destruct (e_op e) as [|pe| | | | | | | | |]; cbn [cbf_input one_cbf] in O; try (by destruct O as [-> ->]); destruct O as (i & z & Ei & -> & ->);
      cbn [CbfSpec.waiting]; unfold CbfSpec.wait_step; by rewrite Ei.
  - destruct (cbf_event ev) as [op|] eqn:Ev; cbn [one_cbf] in O.
    + destruct O as (i & z & Ei & Ec & Eo). specialize (MR i z Ec Eo). rewrite Ec, Eo. cbn [CbfSpec.waiting]. unfold CbfSpec.wait_step. rewrite Ei.
      destruct ev as [| |? []|[]| |[| | |? []| | |]]; cbn in Ev; try done; injection Ev as <-; try done. by rewrite MR.
    + destruct O as [-> ->]. cbn. destruct ev as [| |? []|[]| |[| | |? []| | |]]; cbn in Ev; done.
Qed.
Lemma tells_awaits h L s css s' : tells L s css s' -> forall v, CbfSpec.waiting h (cbf_calls (concat css)) (cbf_outs (concat css)) v = foldl (log_awaits h) v L.
Proof.
  induction 1 as [|e L s cs s1 css s' X T IH]; intros v; cbn [concat foldl]; [done|]. rewrite cbf_calls_app, cbf_outs_app, waiting_app by apply cbf_lengths.
  rewrite IH. by rewrite (awaits_told _ _ _ _ _ _ X).
Qed.

(** ** Vouching *)
Lemma call_tree e s cs s1 i z : explained e s cs s1 -> KCbf i z ∈ cs ->
  CbfSpec.i_tree i = tree_of H (n_cache (f_state s)) \/ CbfSpec.i_tree i = tree_of H (n_cache (f_state s1)).
Proof.
  intros X Hk. pose proof (x_exec _ _ _ _ X) as Ex. apply elem_of_list_split in Hk as (a & b & ->).
  assert (S : sync_calls a = [] \/ sync_calls b = []).
  { assert (L : (length (sync_calls (a ++ KCbf i z :: b)) <= 1)%nat).
    { destruct (step_shape _ _ _ _ _ _ _ _ (x_calls _ _ _ _ X)) as [(_ & _ & _ & so & _ & O)|(ev & _ & _ & _ & n2 & O)].
      - destruct so; cbn [one_sync] in O; [destruct O as (? & ? & -> & _); done|destruct O as [-> _]; cbn; lia].
      - destruct (sync_event env ev n2); cbn [one_sync] in O; [destruct O as (? & ? & -> & _); done|destruct O as [-> _]; cbn; lia]. }
    rewrite sync_calls_app, app_length in L. change (sync_calls (KCbf i z :: b)) with (sync_calls b) in L.
    destruct (sync_calls a); [by left|]. destruct (sync_calls b); [by right|]. cbn in L. lia. }
  assert (K : forall cs n n', nexec cs n n' -> sync_calls cs = [] -> n_cache n' = n_cache n).
  { clear. induction 1 as [n n' E1 E2 E3 E4|oe x cs n s c k n' E A IH|o x cs n i k n' E A IH|i x cs n s k n' T E A IH]; intros Z; try done; exact (IH Z). }
  apply nexec_split in Ex as (m & Xa & Xb). inversion Xb as [| | |i0 x0 cs0 n0 s0 k0 n0' T E A F1 F2 F3]; subst.
  destruct S as [S|S].
  - left. by rewrite T, (K _ _ _ Xa S).
  - right. rewrite T. pose proof (K _ _ _ A S) as Q. cbn in Q. by rewrite Q.
Qed.
Lemma vouched_app h hash f a b : forall s, CbfSpec.vouched P h hash f (a ++ b) s ->
  CbfSpec.vouched P h hash f a s \/ exists s' xs, CbfSpec.cbf_run P a s = Val (s', xs) /\ CbfSpec.vouched P h hash f b s'.
Proof.
  induction a as [|i a IH]; intros s; cbn [app CbfSpec.vouched CbfSpec.cbf_run]; [intros V; right; by exists s, []|].
  destruct (CbfSpec.step_on P i s) as [[s1 x]|]; [|done]. intros [V|V]; [left; by left|].
  apply IH in V as [V|(s' & xs & R & V)]; [left; by right|right]. cbn [mbind_M]. rewrite R. exists s', (x :: xs). done.
Qed.
Lemma tells_vouched h hash f L s css s' : tells L s css s' -> CbfSpec.vouched P h hash f (cbf_calls (concat css)) (n_cbf (f_state s)) ->
  some_step step (vouches H P h hash f) (ops L) s.
Proof.
  induction 1 as [|e L s cs s1 css s' X T IH]; cbn [concat]; [done|]. rewrite cbf_calls_app. intros V. cbn [ops fmap list_fmap some_step]. rewrite (x_step _ _ _ _ X).
  apply vouched_app in V as [V|(c' & xs & R & V)].
  - left. pose proof (x_cbf _ _ _ _ X) as O. destruct (cbf_of _ _) as [op|]; cbn [one_cbf] in O; [|destruct O as [E _]; by rewrite E in V].
    destruct O as (i & z & Ei & Ec & Eo). pose proof (nexec_cbf _ _ _ _ _ _ (x_exec _ _ _ _ X)) as R. rewrite Ec in V, R. cbn [CbfSpec.vouched CbfSpec.cbf_run] in V, R.
    destruct (CbfSpec.step_on P i (n_cbf (f_state s))) as [[c1 x1]|]; [|done]. cbn [mbind_M] in R. assert (c1 = n_cbf (f_state s1)) as -> by congruence.
    destruct V as [[Ta Au]|[]]. split; [|exact Au]. destruct (cbf_in cs z) as (i' & Hk); [rewrite Eo; by left|].
    assert (i' = i) as -> by (apply in_cbf in Hk as [Hk _]; rewrite Ec in Hk; by apply elem_of_list_singleton in Hk).
    destruct (call_tree _ _ _ _ _ _ X Hk) as [Q|Q]; rewrite <- Q; [by left|by right].
  - right. apply IH. pose proof (nexec_cbf _ _ _ _ _ _ (x_exec _ _ _ _ X)) as R'. rewrite R in R'. by assert (c' = n_cbf (f_state s1)) as <- by congruence.
Qed.

(** ** Runs from the start *)
Section Start.
Context (c0 : cache) (cap : N) (st : list (N * N)).
Context (Ch : CbfSpec.chained P ((CbfModel.p_genesis P, CbfModel.p_header P (CbfModel.p_genesis P) 0) :: st)).
Notation start := (node0 c0 (CbfModel.cbf0 cap st)).

Lemma cbf_position L css s e cs (s' : state) i z : tells L start css s -> explained e s cs s' -> KCbf i z ∈ cs ->
  CbfSpec.cbf_reach P cap st (cbf_calls (concat css)) (n_cbf (f_state s)) (cbf_outs (concat css)) /\
  CbfSpec.step_on P i (n_cbf (f_state s)) = Val (n_cbf (f_state s'), z) /\ cbf_calls cs = [i] /\ cbf_outs cs = [z].
Proof.
  intros T X Hk. split; [exact (nexec_cbf _ _ _ _ _ _ (tells_exec _ _ _ _ T))|].
  pose proof (nexec_cbf _ _ _ _ _ _ (x_exec _ _ _ _ X)) as R. destruct (in_cbf _ _ _ Hk) as [Ii Iz].
  pose proof (x_cbf _ _ _ _ X) as O. destruct (cbf_of _ _) as [op|]; cbn [one_cbf] in O; [|destruct O as [E _]; rewrite E in Ii; by apply elem_of_nil in Ii].
  destruct O as (i' & z' & Ei & Ec & Eo). rewrite Ec in Ii. rewrite Eo in Iz. apply elem_of_list_singleton in Ii as <-, Iz as <-.
  rewrite Ec, Eo in R. cbn [CbfSpec.cbf_run] in R. destruct (CbfSpec.step_on P i (n_cbf (f_state s))) as [[c1 x1]|]; [|done]. cbn [mbind_M] in R. split; [|done]. congruence.
Qed.
Lemma node_matched os s L o s' x block h v m c : node_log H step env os start = Val (s, L) -> step o s = Val (s', x) ->
  EvCbf (CbfModel.CoFilterProcessed block h v m c) ∈ queued_events x ->
  exists f, some_step step (vouches H P h block f) (os ++ [o]) start /\ (m = true <-> looked_for P (L ++ [log_step H env o s x]) f block).
Proof.
  intros R E I. destruct (log_tells _ _ _ _ R) as (css & T & Eo). destruct (step_explained _ _ _ _ E) as (cs & X).
  apply (queued_cbf _ _ _ _ _ X) in I as (i & z & Hk & Ho); [|done]. destruct (cbf_position _ _ _ _ _ _ _ _ T X Hk) as (Re & St & Ec & Ez).
  destruct (CbfSeen.matched_watched P cap st _ _ _ _ _ _ _ _ _ _ _ Ch Re St Ho) as (f & V & Lk & _). exists f.
  assert (T' : tells (L ++ [log_step H env o s x]) start (css ++ [cs]) s') by (eapply tells_app; [exact T|]; econstructor; [exact X|constructor]).
  assert (Q : cbf_calls (concat (css ++ [cs])) = cbf_calls (concat css) ++ [i]) by (rewrite concat_app, cbf_calls_app; cbn [concat]; by rewrite app_nil_r, Ec).
  split.
  - rewrite <- Q in V. pose proof (tells_vouched _ _ _ _ _ _ _ T' V) as W. unfold ops in W. rewrite fmap_app in W. fold (ops L) in W. rewrite Eo in W. exact W.
  - rewrite Lk, <- Q. exact (tells_looked _ _ _ _ f block T').
Qed.

Lemma node_reported os s L o s' x block h : node_log H step env os start = Val (s, L) -> step o s = Val (s', x) ->
  EvCbf (CbfModel.CoBlockMatched block h) ∈ queued_events x <->
  (exists b f, announced x = [EvInv (InvModel.IoBlock b h f)] /\ InvModel.b_hash b = block) /\ awaited h L = true.
Proof.
  intros R E. destruct (log_tells _ _ _ _ R) as (css & T & Eo). destruct (step_explained _ _ _ _ E) as (cs & X).
  rewrite <- (tells_awaits h _ _ _ _ T false : _ = awaited h L).
  assert (W : forall i z, KCbf i z ∈ cs -> CbfModel.CoBlockMatched block h ∈ z <-> CbfSpec.i_op i = CbfModel.CBlockProcessed block h /\ CbfSpec.waiting h (cbf_calls (concat css)) (cbf_outs (concat css)) false = true).
  { intros i z Hk. destruct (cbf_position _ _ _ _ _ _ _ _ T X Hk) as (Re & St & _ & _).
    rewrite (CbfWait.reach_wait P cap st _ _ _ h Ch Re). split; [exact (CbfWait.step_matched P cap i _ _ _ block h (CbfFacts.reach_ok P cap st _ _ _ Ch Re) St)|].
    intros [Op I]. exact (CbfWait.step_reports P i _ _ _ block h Op I St). }
  pose proof (x_cbf _ _ _ _ X) as O. cbn [log_step e_op e_items] in O. split.
  - intros I. apply (queued_cbf _ _ _ _ _ X) in I as (i & z & Hk & Ho); [|done]. apply (W _ _ Hk) in Ho as [Op Wa]. split; [|exact Wa].
    destruct (cbf_position _ _ _ _ _ _ _ _ T X Hk) as (_ & _ & Ec & _). destruct (x_events _ _ _ _ X) as [Ea|(ev & Ea)]; cbn [log_step e_items] in Ea; rewrite Ea in *; cbn [cbf_of] in O.
    + exfalso. destruct o as [|pe| | | | | | | | |]; cbn [cbf_input one_cbf] in O; try (destruct O as [Z _]; congruence); destruct O as (i' & z' & Ei & Z & _); congruence.
    + destruct (cbf_event ev) as [op|] eqn:Ev; cbn [one_cbf] in O; [|destruct O as [Z _]; congruence]. destruct O as (i' & z' & Ei & Z & _).
      assert (i' = i) as -> by congruence. rewrite Op in Ei. subst op.
      destruct ev as [| |? []|[]| |ev']; cbn in Ev; try done. destruct ev' as [| | |? []|b' h' f'| |]; try done. injection Ev as <- <-. by exists b', f'.
  - intros [(b & f & Ea & <-) Wa]. rewrite Ea in O. cbn [cbf_of cbf_event one_cbf] in O. destruct O as (i & z & Ei & Ec & Ez).
    destruct (cbf_in cs z) as (i' & Hk); [rewrite Ez; by left|].
    assert (i' = i) as -> by (apply in_cbf in Hk as [Hk _]; rewrite Ec in Hk; by apply elem_of_list_singleton in Hk).
    apply (queued_cbf _ _ _ _ _ X); [done|]. exists i, z. split; [done|]. by apply (W _ _ Hk).
Qed.
End Start.
End Seen.
