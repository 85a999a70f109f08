(** What a call listens to while it waits, and which errors it returns. *)
From Verif Require Import Base PowModel BlockModel AddrModel PeerModel DispModel LoadModel NodeModel FullModel FullSpec ClientModel ClientSpec ClientProofs.
From Verif Require SyncModel CbfModel InvModel.
Open Scope N_scope.

Section Client.
Context (H : header -> N) (step : wop -> wstate -> M (wstate * list (fitem wmsg wev))) (reply_of : cmd -> wstate -> M reply).
Notation kstep := (kstep H step reply_of).
Notation krun := (krun H step reply_of).

Definition ready (s : client) (t : N) (cm : cmd) : Prop := exists c, command_of c = Some cm /\
  ((k_threads s !! t = Some (TCalled c) /\ subscribes c = false) \/ k_threads s !! t = Some (TSubscribed c)).
Lemma sent_step o s t cm : KSent t cm ∈ (kstep o s).2 -> (kstep o s).2 = [KSent t cm] /\ ready s t cm.
Proof.
  assert (No : forall x, Forall (fun i => match i with KSent _ _ => False | _ => True end) x -> KSent t cm ∈ x -> x = [KSent t cm] /\ ready s t cm).
  { intros x F I. by apply (proj1 (Forall_forall _ _) F) in I. }
  assert (Nil : KSent t cm ∈ @nil kitem -> @nil kitem = [KSent t cm] /\ ready s t cm) by (intros I; by apply elem_of_nil in I).
  assert (Fd : forall o n p s1, KSent t cm ∈ (feed_node step o n p s1).2 -> (feed_node step o n p s1).2 = [KSent t cm] /\ ready s t cm).
  { intros o1 n p s1. apply No. unfold feed_node. destruct (step o1 n) as [[n' x]|]; by repeat constructor. }
  assert (Sd : forall t' c, (k_threads s !! t' = Some (TCalled c) /\ subscribes c = false) \/ k_threads s !! t' = Some (TSubscribed c) ->
    KSent t cm ∈ (send t' c s).2 -> (send t' c s).2 = [KSent t cm] /\ ready s t cm).
  { intros t' c Rd. unfold send. destruct (command_of c) eqn:Ec.
    - destruct (k_node s); [|apply No; by repeat constructor]. cbn [snd]. intros I. apply elem_of_list_singleton in I as [= -> ->]. split; [done|]. by exists c.
    - apply No. destruct c; try (apply Forall_nil; exact I). destruct (k_node s); [destruct (k_shutdown s); apply Forall_nil; exact I|by repeat constructor]. }
  destruct o as [|o| | | | | |t' c|t'|t'|t']; cbn [ClientModel.kstep].
  - destruct (k_phase s), (k_node s); try exact Nil. apply Fd.
  - destruct (k_node s); [|exact Nil]. destruct (input_now o (k_phase s)); [apply Fd|exact Nil].
  - destruct (k_phase s), (k_node s); try exact Nil. destruct (negb (k_woken s)); [exact Nil|]. destruct (k_shutdown s); [|exact Nil]. apply No. by repeat constructor.
  - destruct (k_phase s), (k_node s) as [n|]; try exact Nil. destruct (k_queue s) as [|[cm' t'] q]; [exact Nil|].
    destruct (reply_of cm' n); [|apply No; by repeat constructor]. destruct (step (WCommand cm') n) as [[n' x]|]; apply No; by repeat constructor.
  - destruct (k_phase s); exact Nil.
  - destruct (k_phase s), (k_node s) as [n|]; try exact Nil. destruct (step WNext n) as [[n' x]|]; [|apply No; by repeat constructor].
    destruct (emits x); [destruct (emitted_event x)|]; apply No; by repeat constructor.
  - destruct (k_node s); [|exact Nil]. apply No; by repeat constructor.
  - destruct (k_threads s !! t'); [exact Nil|]. apply No; by repeat constructor.
  - unfold run_thread. destruct (k_threads s !! t') as [th|] eqn:Et; [|exact Nil]. destruct th as [c|c|c|c|c known seen|f|r]; [| | | | | |exact Nil].
    + assert (Bc : KSent t cm ∈ [KSubscribed t'] -> [KSubscribed t'] = [KSent t cm] /\ ready s t cm).
      { intros I. by apply elem_of_list_singleton in I. }
      destruct c as [cm'| | | | | | |f|]; cbn [subscribes]; try exact Bc; try (apply Sd; left; by split).
      destruct cm'; try (apply Sd; left; by split). destruct (b <? a); [apply No; by repeat constructor|apply Sd; left; by split].
    + apply Sd. by right.
    + destruct (receives c); [exact Nil|]. destruct (subscribes c); [exact Nil|]. apply No; by repeat constructor.
    + destruct (k_replies s !! t') as [r|].
      * destruct (with_reply H c r); [|exact Nil]. apply No; by repeat constructor.
      * destruct (k_node s); [exact Nil|]. apply No; by repeat constructor.
    + destruct (k_feeds s !! t') as [[f [|[e| |] q]]|]; try exact Nil. destruct (waits_for c known seen e); apply No; by repeat constructor.
    + destruct (k_feeds s !! t') as [[f1 [|i q]]|]; try exact Nil. apply No; by repeat constructor.
  - destruct (k_threads s !! t') as [[]|]; try exact Nil. apply No; by repeat constructor.
  - destruct (k_threads s !! t') as [[]|]; try exact Nil. apply No; by repeat constructor.
Qed.

(** A call that listens does so before it sends. *)
Definition listens_ok (tr : list kitem) : Prop := forall a b t cm, tr = a ++ KSent t cm :: b ->
  exists c, called t c a /\ command_of c = Some cm /\ (subscribes c = true -> is_Some (heard t a)).
Lemma run_listens os n0 s tr : krun os (client0 n0) = (s, tr) -> listens_ok tr.
Proof.
  intros R. assert (Q : ginv H step reply_of n0 s tr /\ listens_ok tr); [|by destruct Q].
  refine (krun_inv H step reply_of (fun s tr => ginv H step reply_of n0 s tr /\ listens_ok tr) _ os _ [] _ _ _ R).
  - clear. intros o s tr [G S]. split; [by apply ginv_step|]. intros a b t cm E. symmetry in E. apply split_in in E as [(b' & E & _)|(a' & -> & E)]; [by eapply S|].
    destruct (sent_step o s t cm) as (Ex & c & Ec & Et); [rewrite E; apply elem_of_app; right; by left|].
    assert (a' = []) as -> by (rewrite Ex in E; destruct a' as [|? [|]]; done). rewrite app_nil_r. exists c.
    destruct Et as [[Et Sc]|Et].
    + destruct (called_here _ _ _ _ _ Et (g_threads _ _ _ _ _ _ G t)) as (c0 & C & _ & T). cbn [thread_ok] in T. destruct T as (<- & _). split; [done|]. split; [done|]. by rewrite Sc.
    + destruct (called_here _ _ _ _ _ Et (g_threads _ _ _ _ _ _ G t)) as (c0 & C & _ & T). cbn [thread_ok] in T. destruct T as (<- & Sc & F & _). split; [done|]. split; [done|]. intros _.
      unfold feed_ok in F. rewrite Sc in F. destruct F as (es & -> & _). by exists ([] ++ es).
  - split; [apply ginv0|]. intros a b t cm E. by destruct a.
Qed.

(** Nothing that was seen ended the wait. *)
Lemma unmet_each c e a b : forall known seen k, unmet c known seen (a ++ e :: b) = Some k -> exists k', waits_for c k' (seen ++ a) e = None.
Proof.
  induction a as [|e1 a IH]; intros known seen k; cbn [unmet app].
  - destruct (waits_for c known seen e) eqn:E; [done|]. intros _. exists known. by rewrite app_nil_r.
  - destruct (waits_for c known seen e1); [done|]. intros U. destruct (IH _ _ _ U) as (k' & W). exists k'. by rewrite <- app_assoc in W.
Qed.
Lemma waiting os n0 s tr t c known seen : krun os (client0 n0) = (s, tr) -> k_threads s !! t = Some (TWaiting c known seen) ->
  called t c tr /\ exists es, heard t tr = Some (seen ++ es) /\ k_feeds s !! t = Some (FeedEvents, ItEvent <$> es) /\
    forall a e b, seen = a ++ e :: b -> exists k, waits_for c k a e = None.
Proof.
  intros R Et. pose proof (run_ginv _ _ _ _ _ _ _ R) as G. destruct (called_here _ _ _ _ _ Et (g_threads _ _ _ _ _ _ G t)) as (c0 & C & _ & T). cbn [thread_ok] in T.
  destruct T as (<- & Sc & F & known0 & U & _). split; [done|]. unfold feed_ok in F. rewrite Sc in F. destruct F as (es & A & B & _). exists es. split; [done|]. split; [done|].
  intros a e b ->. exact (unmet_each _ _ _ _ _ _ _ U).
Qed.

(** Waits of the user: the first prefix that satisfies. *)
Lemma user_wait f v es : forall seen known, wait_result (HWait f) known seen es = Some v ->
  exists n, v = VUser n /\ f (seen ++ es) = Some n /\ forall a b, es = a ++ b -> a <> [] -> b <> [] -> f (seen ++ a) = None.
Proof.
  induction es as [|e es IH]; intros seen known; [done|]. destruct es as [|e1 es].
  - cbn [wait_result waits_for]. destruct (f (seen ++ [e])) as [n|] eqn:E; [|done]. intros [= <-]. exists n. split; [done|]. split; [done|]. intros [|x a] b Q Na Nb; [done|]. injection Q as <- Q. by destruct a, b.
  - cbn [wait_result waits_for]. destruct (f (seen ++ [e])) as [n|] eqn:E; [done|]. cbn [fmap option_fmap option_map]. intros W. destruct (IH _ _ W) as (n & -> & A & B). exists n. split; [done|].
    rewrite <- app_assoc in A. split; [exact A|]. intros [|x a] b Q Na Nb; [done|]. injection Q as <- Q. destruct a as [|y a]; [exact E|]. specialize (B _ _ Q (fun z => match z with end) Nb). by rewrite <- app_assoc in B.
Qed.
Lemma waited_user os n0 s a b t v f : krun os (client0 n0) = (s, a ++ KReturned t (HOk v) :: b) -> called t (HWait f) (a ++ KReturned t (HOk v) :: b) ->
  exists es es' n, heard t a = Some (es ++ es') /\ v = VUser n /\ f es = Some n /\ forall u w, es = u ++ w -> u <> [] -> w <> [] -> f u = None.
Proof.
  intros R C. destruct (run_returns _ _ _ _ _ _ _ R) as (_ & _ & W). destruct (W _ _ _ _ eq_refl) as (c' & _ & U & Q). pose proof (U _ C) as Ec. subst c'. inversion Q; subst; try done.
  match goal with X : wait_result _ _ _ _ = Some _ |- _ => destruct (user_wait _ _ _ _ _ X) as (n & -> & A & B) end. by exists es, es', n.
Qed.

(** Errors. *)
Lemma errors os n0 s a b t e c : krun os (client0 n0) = (s, a ++ KReturned t (HErr e) :: b) -> called t c (a ++ KReturned t (HErr e) :: b) ->
  match e with
  | EDisconnected => KStopped ∈ a /\ (is_Some (command_of c) \/ c = HShutdown)
  | ENotConnected => exists cm n n', c = HAsk cm /\ replied t c n n' (RpSubmit None) a
  | EFilters => exists cm n n', c = HAsk cm /\ replied t c n n' (RpFilters false) a
  | ETimeout => subscribes c = true
  end.
Proof.
  intros R C. destruct (run_returns _ _ _ _ _ _ _ R) as (_ & _ & W). destruct (W _ _ _ _ eq_refl) as (c' & _ & U & Q). pose proof (U _ C) as Ec. subst c'. inversion Q as [n n' r v Rc Re Wr| |? ? ? ? ? Sc| | | | | ]; subst; try done.
  destruct c; try done.
  - destruct r as [| | | | | | | |[]|[l|]|]; cbn in Wr; try discriminate Wr; injection Wr as <-; by eexists _, n, n'.
  - destruct r; try done. cbn in Wr. by destruct (lenN l =? count).
  - destruct r; try done. cbn in Wr. by destruct r.
Qed.
Lemma answers os n0 s a b t v c : krun os (client0 n0) = (s, a ++ KReturned t (HOk v) :: b) -> called t (HAsk c) (a ++ KReturned t (HOk v) :: b) -> has_reply c = true ->
  exists r, v = VReply r /\ r <> RpSubmit None /\ r <> RpFilters false.
Proof.
  intros R C Hr. destruct (run_returns _ _ _ _ _ _ _ R) as (_ & _ & W). destruct (W _ _ _ _ eq_refl) as (c' & _ & U & Q). pose proof (U _ C) as Ec. subst c'. inversion Q as [n n' r v' Rc Re Wr| | | | | | | ]; subst; try done; try congruence.
  - exists r. destruct r as [| | | | | | | |[]|[l|]|]; cbn in Wr; try discriminate Wr; by injection Wr as <-.
  - cbn in *. congruence.
Qed.
End Client.
