(** What each manager is told in a run of the node: a run of the node is a run
    of each of its managers. *)
From Verif Require Import Base PowModel BlockModel UtilModel FeeModel AddrModel PeerModel
  DispModel DispSpec DispProofs LoadModel NodeModel NodeSpec.
From Verif Require SyncModel SyncSpec CbfModel CbfSpec InvModel InvSpec.
Open Scope N_scope.

(** Calls of the managers, with their outputs. *)
Inductive ncall :=
| KSync (oe : SyncModel.sync_op * SyncModel.senv) (x : list SyncModel.sout)
| KInv (o : InvModel.inv_op) (x : list InvModel.iout)
| KCbf (i : CbfSpec.input) (x : list CbfModel.cout).

Section Told.
Context (H : header -> N) (scf : SyncModel.sconf) (P : CbfModel.params) (sock : N -> sockaddr) (env : nat -> nenv) (magic : N).
Notation io := (DispModel.io nmsg nev).

Inductive nexec : list ncall -> node -> node -> Prop :=
| XNil n n' : n_cache n' = n_cache n -> n_sync n' = n_sync n -> n_cbf n' = n_cbf n -> n_inv n' = n_inv n -> nexec [] n n'
| XSync oe x cs n s c k n' : SyncModel.sync_step H scf oe (n_sync n, n_cache n) = Val (s, c, x) ->
    nexec cs (Node c s (n_cbf n) (n_inv n) k) n' -> nexec (KSync oe x :: cs) n n'
| XInv o x cs n i k n' : InvModel.inv_step o (n_inv n) = Val (i, x) ->
    nexec cs (Node (n_cache n) (n_sync n) (n_cbf n) i k) n' -> nexec (KInv o x :: cs) n n'
| XCbf i x cs n s k n' : CbfSpec.i_tree i = tree_of H (n_cache n) -> CbfSpec.step_on P i (n_cbf n) = Val (s, x) ->
    nexec cs (Node (n_cache n) (n_sync n) s (n_inv n) k) n' -> nexec (KCbf i x :: cs) n n'.

Lemma nexec_app a b n1 n2 n3 : nexec a n1 n2 -> nexec b n2 n3 -> nexec (a ++ b) n1 n3.
Proof.
  intros A. revert b n3. induction A as [n n' E1 E2 E3 E4|oe x cs n s c k n' E A IH|o x cs n i k n' E A IH|i x cs n s k n' T E A IH]; intros b n3 B; cbn [app].
  - destruct B as [m m' F1 F2 F3 F4|oe x cs m s c k m' F B|o x cs m i k m' F B|i x cs m s k m' T F B].
    + apply XNil; congruence.
    + eapply XSync; [rewrite <- E1, <- E2; exact F|]. rewrite <- E3, <- E4. exact B.
    + eapply XInv; [rewrite <- E4; exact F|]. rewrite <- E1, <- E2, <- E3. exact B.
    + eapply XCbf; [rewrite <- E1; exact T|rewrite <- E3; exact F|]. rewrite <- E1, <- E2, <- E4. exact B.
  - eapply XSync; [exact E|]. by apply IH.
  - eapply XInv; [exact E|]. by apply IH.
  - eapply XCbf; [exact T|exact E|]. by apply IH.
Qed.
Lemma nexec_refl n : nexec [] n n.
Proof. by apply XNil. Qed.

Definition call_out (k : ncall) : list (comp * io) :=
  match k with KSync _ x => flat_map (sync_io sock) x | KInv _ x => flat_map (inv_io sock) x | KCbf _ x => flat_map (cbf_io sock) x end.
Definition outs (cs : list ncall) : list (comp * io) := flat_map call_out cs.
Lemma outs_app a b : outs (a ++ b) = outs a ++ outs b.
Proof. apply flat_map_app. Qed.

(** The blocks that the filter manager asks for. *)
Definition blocks_of (x : list CbfModel.cout) : list N := omap (fun o => match o with CbfModel.CoGetBlock h => Some h | _ => None end) x.
Definition wants (x : list CbfModel.cout) : list ncall := map (fun h => KInv (InvModel.IGetBlock h) [InvModel.IoTimer 1000]) (blocks_of x).

Definition sync_part (o : option SyncModel.sync_op) (n : node) (cs : list ncall) : Prop :=
  match o with None => cs = [] | Some o => exists x, cs = [KSync (o, ne_sync (env (n_calls n))) x] end.
Definition inv_part (o : option InvModel.inv_op) (cs : list ncall) : Prop :=
  match o with None => cs = [] | Some o => exists x, cs = [KInv o x] end.
Definition cbf_part (o : option CbfModel.cbf_op) (n : node) (cs : list ncall) : Prop :=
  match o with
  | None => cs = []
  | Some o => exists x,
      cs = KCbf (CbfSpec.Input (ne_cbf (env (n_calls n))) (SyncModel.se_now (ne_sync (env (n_calls n)))) (tree_of H (n_cache n)) o) x :: wants x
  end.

Lemma call_sync_calls o n n' l : call_sync H scf sock env o n = Val (n', l) ->
  exists cs, nexec cs n n' /\ l = outs cs /\ sync_part (Some o) n cs.
Proof.
  unfold call_sync. destruct (SyncModel.sync_step H scf (o, _) _) as [[[s c] x]|] eqn:E; [|done]. cbn [mbind_M]. intros [= <- <-].
  exists [KSync (o, ne_sync (env (n_calls n))) x]. split; [eapply XSync; [exact E|apply nexec_refl]|]. split; [cbn; by rewrite app_nil_r|]. by exists x.
Qed.
Lemma call_inv_calls o n n' l : call_inv sock o n = Val (n', l) ->
  exists cs, nexec cs n n' /\ l = outs cs /\ inv_part (Some o) cs.
Proof.
  unfold call_inv. destruct (InvModel.inv_step o _) as [[i x]|] eqn:E; [|done]. cbn [mbind_M]. intros [= <- <-].
  exists [KInv o x]. split; [eapply XInv; [exact E|apply nexec_refl]|]. split; [cbn; by rewrite app_nil_r|]. by exists x.
Qed.
Lemma get_blocks_calls x : forall c s f i i' y k k', get_blocks x i = (i', y) ->
  nexec (wants x) (Node c s f i k) (Node c s f i' k') /\ flat_map (inv_io sock) y = outs (wants x).
Proof.
  induction x as [|o x IH]; intros c s f i i' y k k'.
  - intros [= <- <-]. split; [by apply XNil|done].
  - destruct o; cbn [get_blocks]; try (intros G; exact (IH c s f i i' y k k' G)).
    destruct (InvModel.get_block hash i) as [i1 x1] eqn:E. destruct (get_blocks x i1) as [i2 x2] eqn:E2. intros [= <- <-].
    destruct (IH c s f i1 i2 x2 k k' E2) as [A B]. assert (x1 = [InvModel.IoTimer 1000]) as -> by (unfold InvModel.get_block, InvModel.schedule_tick in E; by injection E).
    split.
    + unfold wants, blocks_of. cbn [omap list_omap map]. eapply XInv; [cbn [InvModel.inv_step n_inv]; rewrite E; reflexivity|]. exact A.
    + cbn [app flat_map inv_io]. rewrite B. unfold wants, blocks_of. cbn [omap list_omap map outs flat_map call_out inv_io app]. done.
Qed.
Lemma call_cbf_calls o n n' l : call_cbf H P sock env o n = Val (n', l) ->
  exists cs, nexec cs n n' /\ l = outs cs /\ cbf_part (Some o) n cs.
Proof.
  unfold call_cbf. cbv zeta. destruct (CbfModel.cbf_step P _ _ _ o (n_cbf n)) as [[s x]|] eqn:E; [|done]. cbn [mbind_M].
  destruct (get_blocks x (n_inv n)) as [i y] eqn:G. intros [= <- <-]. eexists. split; [|split; [|exists x; reflexivity]].
  - eapply XCbf; [reflexivity|exact E|]. cbn [n_cache n_sync n_cbf n_inv]. exact (proj1 (get_blocks_calls x _ _ _ _ _ _ O _ G)).
  - cbn [outs flat_map call_out]. f_equal. exact (proj2 (get_blocks_calls x (n_cache n) (n_sync n) s _ _ _ O O G)).
Qed.

(** The calls made for an event. *)
Definition event_calls (e : nev) (n : node) (cs : list ncall) : Prop :=
  exists a b d n1 n2, cs = a ++ b ++ d /\ nexec a n n1 /\ nexec b n1 n2 /\
    cbf_part (cbf_event e) n a /\ inv_part (inv_event H e n1) b /\ sync_part (sync_event env e n2) n2 d.

Lemma event_told e s s' l : event (on_event H scf P sock env) e s = Val (s', l) ->
  exists cs, nexec cs (f_state s) (f_state s') /\ l = outs cs /\ event_calls e (f_state s) cs.
Proof.
  unfold event, receivers. cbn [deliver on_event].
  assert (A : forall n n1 l1, match cbf_event e with Some o => call_cbf H P sock env o n | None => Val (n, []) end = Val (n1, l1) ->
    exists a, nexec a n n1 /\ l1 = outs a /\ cbf_part (cbf_event e) n a).
  { intros n n1 l1. destruct (cbf_event e); [apply call_cbf_calls|]. intros [= <- <-]. exists []. split; [apply nexec_refl|done]. }
  assert (B : forall n n1 l1, match inv_event H e n with Some o => call_inv sock o n | None => Val (n, []) end = Val (n1, l1) ->
    exists a, nexec a n n1 /\ l1 = outs a /\ inv_part (inv_event H e n) a).
  { intros n n1 l1. destruct (inv_event H e n); [apply call_inv_calls|]. intros [= <- <-]. exists []. split; [apply nexec_refl|done]. }
  assert (D : forall n n1 l1, match sync_event env e n with Some o => call_sync H scf sock env o n | None => Val (n, []) end = Val (n1, l1) ->
    exists a, nexec a n n1 /\ l1 = outs a /\ sync_part (sync_event env e n) n a).
  { intros n n1 l1. destruct (sync_event env e n); [apply call_sync_calls|]. intros [= <- <-]. exists []. split; [apply nexec_refl|done]. }
  destruct (match cbf_event e with Some o => _ | None => _ end) as [[n1 l1]|] eqn:E1; [|done]. cbn [mbind_M f_state].
  destruct (match inv_event H e n1 with Some o => _ | None => _ end) as [[n2 l2]|] eqn:E2; [|done]. cbn [mbind_M f_state].
  destruct (match sync_event env e n2 with Some o => _ | None => _ end) as [[n3 l3]|] eqn:E3; [|done]. cbn [mbind_M f_state].
  intros [= <- <-]. cbn [f_state]. destruct (A _ _ _ E1) as (a & Xa & -> & Pa). destruct (B _ _ _ E2) as (b & Xb & -> & Pb).
  destruct (D _ _ _ E3) as (d & Xd & -> & Pd). exists (a ++ b ++ d). split; [eapply nexec_app; [exact Xa|]; by eapply nexec_app|].
  split; [rewrite !outs_app, !app_nil_r; done|]. exists a, b, d, n1, n2. done.
Qed.

(** The calls made in a step, given the events passed on. *)
Definition step_calls (o : nop) (es : list nev) (n : node) (cs : list ncall) : Prop :=
  match o with
  | NPeer _ => cs = [] /\ es = []
  | NMessage a m => es = [EvMessage a m] /\ event_calls (EvMessage a m) n cs
  | NNext => (es = [] /\ cs = []) \/ exists e, es = [e] /\ event_calls e n cs
  | _ => es = [] /\
      match o with
      | NInitialize => exists a b n1, cs = a ++ b /\ nexec a n n1 /\ sync_part (Some SyncModel.SInitialize) n a /\ cbf_part (Some CbfModel.CInitialize) n1 b
      | NTimer => exists a b d n1 n2, cs = a ++ b ++ d /\ nexec a n n1 /\ nexec b n1 n2 /\
          inv_part (Some (InvModel.ITimer (SyncModel.se_now (ne_sync (env (n_calls n)))) (CbfModel.tr_height (tree_of H (n_cache n))) (ne_pick (env (n_calls n))))) a /\
          sync_part (Some SyncModel.STimer) n1 b /\ cbf_part (Some CbfModel.CTimer) n2 d
      | NImport hds => sync_part (Some (SyncModel.SImport (with_choices env n hds))) n cs
      | NRescan a b w => cbf_part (Some (CbfModel.CRescan a b w)) n cs
      | NWatch w => cbf_part (Some (CbfModel.CWatch w)) n cs
      | NRequestFilters a b => cbf_part (Some (CbfModel.CRequestFilters a b)) n cs
      | NRequestBlock h => inv_part (Some (InvModel.IGetBlock h)) cs
      | NSubmit t => exists a b n1, cs = a ++ b /\ nexec a n n1 /\ cbf_part (Some (CbfModel.CWatchTx (t_id t) (t_outs t).*2)) n a /\ inv_part (Some (InvModel.IAnnounce t)) b
      | _ => True
      end
  end.
(** What the peer manager queues. *)
Definition peer_outs (o : nop) : list (comp * io) :=
  match o with
  | NPeer (PNegotiated a h ob nw fl re wt pe) => [(CPeer, IoEvent (EvNegotiated a h ob nw fl re wt pe))]
  | NPeer (PDisconnected a) => [(CPeer, IoEvent (EvDisconnected a))]
  | _ => []
  end.

Lemma both_val (f g : node -> M (node * list (comp * io))) n n' l : both f g n = Val (n', l) ->
  exists n1 l1 l2, f n = Val (n1, l1) /\ g n1 = Val (n', l2) /\ l = l1 ++ l2.
Proof.
  unfold both. destruct (f n) as [[n1 l1]|]; [|done]. cbn [mbind_M]. destruct (g n1) as [[n2 l2]|] eqn:E; [|done]. cbn [mbind_M].
  intros [= <- <-]. by exists n1, l1, l2.
Qed.

Lemma step_told o s s' x : node_step H scf P sock env magic o s = Val (s', x) ->
  exists cs y, nexec cs (f_state s) (f_state s') /\ x = fqueued (peer_outs o ++ outs cs) ++ y /\ announced x = announced y /\ (forall c z, FQueued c z ∉ y) /\
    step_calls o (announced x) (f_state s) cs.
Proof.
  unfold node_step.
  assert (In : forall f (Q : list ncall -> Prop), (forall n' l, f (f_state s) = Val (n', l) -> exists cs, nexec cs (f_state s) n' /\ l = peer_outs o ++ outs cs /\ Q cs) ->
    fstep (on_event H scf P sock env) magic (FInput f) s = Val (s', x) ->
    exists cs y, nexec cs (f_state s) (f_state s') /\ x = fqueued (peer_outs o ++ outs cs) ++ y /\ announced x = announced y /\ (forall c z, FQueued c z ∉ y) /\ announced x = [] /\ Q cs).
  { intros f Q F. cbn [fstep]. destruct (f (f_state s)) as [[n' l]|] eqn:E; [|done]. cbn [mbind_M]. intros [= <- <-].
    destruct (F _ _ eq_refl) as (cs & X & -> & q). exists cs, []. rewrite app_nil_r. cbn [f_state]. rewrite announced_fqueued. split; [exact X|]. split; [done|]. split; [done|].
    split; [intros ? ?; apply not_elem_of_nil|done]. }
  destruct o; cbn [nop_fop].
  - intros E. refine (In _ (fun cs => exists a b n1, cs = a ++ b /\ nexec a (f_state s) n1 /\ sync_part (Some SyncModel.SInitialize) (f_state s) a /\ cbf_part (Some CbfModel.CInitialize) n1 b) _ E).
    intros n' l F. apply both_val in F as (n1 & l1 & l2 & F1 & F2 & ->).
    apply call_sync_calls in F1 as (a & Xa & -> & Pa). apply call_cbf_calls in F2 as (b & Xb & -> & Pb).
    exists (a ++ b). split; [by eapply nexec_app|]. split; [by rewrite outs_app|]. by exists a, b, n1.
  - assert (In' : forall z, peer_outs (NPeer e) = [z] -> fstep (on_event H scf P sock env) magic (FInput (fun n => Val (n, [z]))) s = Val (s', x) ->
      exists cs y, nexec cs (f_state s) (f_state s') /\ x = fqueued (peer_outs (NPeer e) ++ outs cs) ++ y /\ announced x = announced y /\ (forall c z, FQueued c z ∉ y) /\ cs = [] /\ announced x = []).
    { intros z Ez E. destruct (In (fun n => Val (n, [z])) (fun cs => cs = []) ltac:(intros n' l [= <- <-]; exists []; split; [apply nexec_refl|]; split; [by rewrite Ez|done]) E) as (cs & y & ? & ? & ? & ? & ? & ?).
      by exists cs, y. }
    destruct e; cbn [nop_fop]; intros E; eapply In'; try exact E; reflexivity.
  - cbn [fstep]. destruct (event (on_event H scf P sock env) (EvMessage from m) s) as [[s1 l]|] eqn:E; [|done]. cbn [mbind_M]. intros [= <- <-].
    apply event_told in E as (cs & X & -> & Q). exists cs, [FPassed (EvMessage from m)]. split; [exact X|]. cbn [peer_outs app].
    split; [done|]. rewrite announced_app, announced_fqueued. cbn [announced flat_map app]. split; [done|]. split; [intros ? ? I%elem_of_list_singleton; done|]. done.
  - intros E. refine (In _ (fun cs => exists a b d n1 n2, cs = a ++ b ++ d /\ nexec a (f_state s) n1 /\ nexec b n1 n2 /\
          inv_part (Some (InvModel.ITimer (SyncModel.se_now (ne_sync (env (n_calls (f_state s))))) (CbfModel.tr_height (tree_of H (n_cache (f_state s)))) (ne_pick (env (n_calls (f_state s)))))) a /\
          sync_part (Some SyncModel.STimer) n1 b /\ cbf_part (Some CbfModel.CTimer) n2 d) _ E). cbv zeta.
    intros n' l F. apply both_val in F as (n1 & l1 & l2 & F1 & F2 & ->). apply both_val in F2 as (n2 & l3 & l4 & F2 & F3 & ->).
    apply call_inv_calls in F1 as (a & Xa & -> & Pa). apply call_sync_calls in F2 as (b & Xb & -> & Pb). apply call_cbf_calls in F3 as (d & Xd & -> & Pd).
    exists (a ++ b ++ d). split; [eapply nexec_app; [exact Xa|by eapply nexec_app]|]. split; [by rewrite !outs_app|]. by exists a, b, d, n1, n2.
  - intros E. refine (In _ _ _ E). intros n' l F. cbv beta in F. apply call_sync_calls in F as (a & Xa & -> & Pa). exists a. split; [exact Xa|]. split; [done|exact Pa].
  - intros E. refine (In _ _ _ E). intros n' l F. apply call_cbf_calls in F as (a & Xa & -> & Pa). exists a. split; [exact Xa|]. split; [done|exact Pa].
  - intros E. refine (In _ _ _ E). intros n' l F. apply call_cbf_calls in F as (a & Xa & -> & Pa). exists a. split; [exact Xa|]. split; [done|exact Pa].
  - intros E. refine (In _ _ _ E). intros n' l F. apply call_cbf_calls in F as (a' & Xa & -> & Pa). exists a'. split; [exact Xa|]. split; [done|exact Pa].
  - intros E. refine (In _ _ _ E). intros n' l F. apply call_inv_calls in F as (a & Xa & -> & Pa). exists a. split; [exact Xa|]. split; [done|exact Pa].
  - intros E. refine (In _ (fun cs => exists a b n1, cs = a ++ b /\ nexec a (f_state s) n1 /\ cbf_part (Some (CbfModel.CWatchTx (t_id t) (t_outs t).*2)) (f_state s) a /\ inv_part (Some (InvModel.IAnnounce t)) b) _ E).
    intros n' l F. apply both_val in F as (n1 & l1 & l2 & F1 & F2 & ->).
    apply call_cbf_calls in F1 as (a & Xa & -> & Pa). apply call_inv_calls in F2 as (b & Xb & -> & Pb).
    exists (a ++ b). split; [by eapply nexec_app|]. split; [by rewrite outs_app|]. by exists a, b, n1.
  - cbn [fstep]. unfold next. destruct (take_first sources (f_box s)) as [[[c z] b]|] eqn:T.
    + destruct z as [w m|w|w r|d|e]; cbn [stamp].
      5:{ destruct (event (on_event H scf P sock env) e _) as [[s1 l]|] eqn:E; [|done]. cbn [mbind_M]. intros [= <- <-].
          apply event_told in E as (cs & X & -> & Q). cbn [f_state] in X, Q. exists cs, [FEmitted c (IoEvent e)]. split; [exact X|]. cbn [peer_outs app].
          split; [done|]. rewrite announced_app, announced_fqueued. cbn [announced flat_map app]. split; [done|]. split; [intros ? ? I%elem_of_list_singleton; done|].
          right. by exists e. }
      all: cbn [mbind_M]; intros [= <- <-]; exists []; eexists; cbn [f_state]; split; [apply nexec_refl|]; split; [reflexivity|]; split; [done|]; split; [intros ? ? I%elem_of_list_singleton; done|]; by left.
    + cbn [mbind_M]. intros [= <- <-]. exists [], []. split; [apply nexec_refl|]. split; [done|]. split; [done|]. split; [intros ? ?; apply not_elem_of_nil|]. by left.
Qed.

(** ** The managers' own runs *)
Definition sync_calls (cs : list ncall) : list (SyncModel.sync_op * SyncModel.senv) := omap (fun k => match k with KSync oe _ => Some oe | _ => None end) cs.
Definition sync_outs (cs : list ncall) : list (list SyncModel.sout) := omap (fun k => match k with KSync _ x => Some x | _ => None end) cs.
Definition inv_calls (cs : list ncall) : list InvModel.inv_op := omap (fun k => match k with KInv o _ => Some o | _ => None end) cs.
Definition inv_outs (cs : list ncall) : list (list InvModel.iout) := omap (fun k => match k with KInv _ x => Some x | _ => None end) cs.
Definition cbf_calls (cs : list ncall) : list CbfSpec.input := omap (fun k => match k with KCbf i _ => Some i | _ => None end) cs.
Definition cbf_outs (cs : list ncall) : list (list CbfModel.cout) := omap (fun k => match k with KCbf _ x => Some x | _ => None end) cs.

Lemma nexec_sync cs n n' : nexec cs n n' -> SyncSpec.sync_run H scf (sync_calls cs) (n_sync n, n_cache n) = Val (n_sync n', n_cache n', sync_outs cs).
Proof.
  induction 1 as [n n' E1 E2 E3 E4|oe x cs n s c k n' E A IH|o x cs n i k n' E A IH|i x cs n s k n' T E A IH].
  - cbn. by rewrite E1, E2.
  - unfold sync_calls, sync_outs. cbn [omap list_omap SyncSpec.sync_run]. rewrite E. cbn [mbind_M]. cbn [n_sync n_cache] in IH. unfold sync_calls in IH. rewrite IH. done.
  - exact IH.
  - exact IH.
Qed.
Lemma nexec_inv cs n n' : nexec cs n n' -> InvModel.inv_run (inv_calls cs) (n_inv n) = Val (n_inv n', inv_outs cs).
Proof.
  induction 1 as [n n' E1 E2 E3 E4|oe x cs n s c k n' E A IH|o x cs n i k n' E A IH|i x cs n s k n' T E A IH].
  - cbn. by rewrite E4.
  - exact IH.
  - unfold inv_calls, inv_outs. cbn [omap list_omap InvModel.inv_run]. rewrite E. cbn [mbind_M]. cbn [n_inv] in IH. unfold inv_calls in IH. rewrite IH. done.
  - exact IH.
Qed.
Lemma nexec_cbf cs n n' : nexec cs n n' -> CbfSpec.cbf_run P (cbf_calls cs) (n_cbf n) = Val (n_cbf n', cbf_outs cs).
Proof.
  induction 1 as [n n' E1 E2 E3 E4|oe x cs n s c k n' E A IH|o x cs n i k n' E A IH|i x cs n s k n' T E A IH].
  - cbn. by rewrite E3.
  - exact IH.
  - exact IH.
  - unfold cbf_calls, cbf_outs. cbn [omap list_omap CbfSpec.cbf_run]. rewrite E. cbn [mbind_M]. cbn [n_cbf] in IH. unfold cbf_calls in IH. rewrite IH. done.
Qed.

(** The calls of a run, step by step. *)
Inductive told : list nop -> state -> list (list ncall) -> list (list (fitem nmsg nev)) -> state -> Prop :=
| TNil s : told [] s [] [] s
| TCons o os s cs y x s1 css xs s' : node_step H scf P sock env magic o s = Val (s1, x) ->
    nexec cs (f_state s) (f_state s1) -> x = fqueued (peer_outs o ++ outs cs) ++ y -> announced x = announced y -> (forall c z, FQueued c z ∉ y) ->
    step_calls o (announced x) (f_state s) cs -> told os s1 css xs s' -> told (o :: os) s (cs :: css) (x :: xs) s'.
Lemma told_exec os s css xs s' : told os s css xs s' -> nexec (concat css) (f_state s) (f_state s').
Proof. induction 1; cbn [concat]; [apply nexec_refl|]. by eapply nexec_app. Qed.
Lemma told_app os s css xs s1 os' css' xs' s' : told os s css xs s1 -> told os' s1 css' xs' s' -> told (os ++ os') s (css ++ css') (xs ++ xs') s'.
Proof. induction 1; cbn [app]; [done|]. intros T. econstructor; eauto. Qed.
Lemma run_told os : forall s s' t, node_run H scf P sock env magic os s = Val (s', t) -> exists css xs, told os s css xs s' /\ t = concat xs.
Proof.
  induction os as [|o os IH]; intros s s' t; cbn [node_run].
  - intros [= <- <-]. exists [], []. split; [constructor|done].
  - destruct (node_step H scf P sock env magic o s) as [[s1 x]|] eqn:E; [|done]. cbn [mbind_M].
    destruct (node_run H scf P sock env magic os s1) as [[s2 y]|] eqn:R; [|done]. cbn [mbind_M]. intros [= <- <-].
    destruct (IH _ _ _ R) as (css & xs & T & ->). destruct (step_told _ _ _ _ E) as (cs & y & X & Ex & A & Q & Sc).
    exists (cs :: css), (x :: xs). split; [by econstructor|done].
Qed.
End Told.
