(** Only submitted transactions are tracked, sent and reported. *)
From Verif Require Import Base SortProofs FeeModel InvModel InvSpec InvProofs InvTrack.
Open Scope N_scope.

Section Origin.
Context (P : tx -> Prop).

Record owned (s : inv) : Prop := {
  ow_mempool : forall w t, iv_mempool s !! w = Some t -> P t;
  ow_confirmed : forall h l t, iv_confirmed s !! h = Some l -> t ∈ l -> P t;
  ow_outbox : forall a p w id, iv_peers s !! a = Some p -> ip_outbox p !! w = Some id -> exists t, P t /\ t_id t = id;
}.
Notation about := (concerns P).

Lemma owned0 : owned inv0.
Proof. split; cbn; intros *; rewrite lookup_empty; done. Qed.

Lemma announce_owned t s s' x : P t -> owned s -> announce t s = (s', x) -> owned s' /\ Forall about x.
Proof.
  intros Pt [A B C]. unfold announce, schedule_tick. cbv zeta. intros [= <- <-]. split; [|by repeat constructor].
  split; cbn.
  - intros w u. destruct (N.eq_dec (t_wid t) w) as [ <- |]; [rewrite lookup_insert; by intros [= <- ]|rewrite lookup_insert_ne by done; apply A].
  - exact B.
  - intros a p w id. rewrite lookup_fmap. destruct (iv_peers s !! a) as [q|] eqn:Q; [|done]. cbn. intros [= <- ]. destruct (ip_relay q); [|by apply (C a)].
    cbn. destruct (N.eq_dec (t_wid t) w) as [ <- |]; [rewrite lookup_insert; intros [= <- ]; by exists t|rewrite lookup_insert_ne by done; by apply (C a)].
Qed.
Lemma revert_txs_owned ts : forall s s' x, Forall P ts -> owned s -> revert_txs ts s = (s', x) -> owned s' /\ Forall about x.
Proof.
  induction ts as [|t ts IH]; intros s s' x F O; cbn [revert_txs]; [by intros [= <- <- ]|].
  apply Forall_cons in F as [Ft F]. destruct (announce t s) as [s1 x1] eqn:E1. destruct (revert_txs ts s1) as [s2 x2] eqn:E2. intros [= <- <- ].
  destruct (announce_owned _ _ _ _ Ft O E1) as [O1 F1]. destruct (IH _ _ _ F O1 E2) as [O2 F2]. split; [exact O2|].
  apply Forall_app. split; [exact F1|]. constructor; [done|exact F2].
Qed.
Lemma blocks_reverted_owned hs : forall s s' x, owned s -> blocks_reverted hs s = Val (s', x) -> owned s' /\ Forall about x.
Proof.
  induction hs as [|h hs IH]; intros s s' x O; cbn [blocks_reverted]; [by intros [= <- <- ]|].
  destruct (block_reverted h s) as [[s1 x1]|] eqn:E1; [|done]. cbn [mbind_M]. destruct (blocks_reverted hs s1) as [[s2 x2]|] eqn:E2; [|done]. cbn [mbind_M].
  intros [= <- <- ]. assert (G : owned s1 /\ Forall about x1).
  { unfold block_reverted in E1. destruct (fee_rollback _ _) as [e|]; [|done]. cbn [mbind_M] in E1. destruct O as [A B C].
    cbn [set_est iv_confirmed] in E1. destruct (iv_confirmed s !! h) as [ts|] eqn:Ec.
    - injection E1 as E1. eapply revert_txs_owned; [|  |exact E1].
      + apply Forall_forall. intros t. by apply (B h).
      + split; cbn; [exact A| |exact C]. intros h' l t. rewrite lookup_delete_Some. intros [_ ?]. by apply (B h').
    - injection E1 as <- <- . split; [by split|constructor]. }
  destruct G as [O1 F1]. destruct (IH _ _ _ O1 E2) as [O2 F2]. split; [exact O2|]. by apply Forall_app.
Qed.
Lemma announced_owned m p invs : (forall w t, m !! w = Some t -> P t) -> announced m p = Val invs ->
  forall i, i ∈ invs -> exists t, P t /\ names i t.
Proof.
  intros A. unfold announced. revert invs. generalize (map fst (map_to_list (ip_outbox p))). intros l. induction l as [|w l IH]; intros invs; cbn [foldr].
  - intros [= <- ] i Hi. by apply elem_of_nil in Hi.
  - destruct (foldr _ _ l) as [k|]; [|done]. cbn [mbind_M]. destruct (m !! w) as [t|] eqn:E; [|done]. intros [= <- ] i.
    rewrite elem_of_cons. intros [ -> |Hi]; [|by apply (IH k)]. exists t. split; [by apply (A w)|]. by destruct (ip_wtx p).
Qed.
Lemma peers_tick_owned now m l : forall l' x, (forall w t, m !! w = Some t -> P t) -> peers_tick now m l = Val (l', x) ->
  (forall a p', (a, p') ∈ l' -> exists p, (a, p) ∈ l /\ ip_outbox p' = ip_outbox p) /\ Forall about x.
Proof.
  induction l as [|[a p] l IH]; intros l' x A; cbn [peers_tick].
  - intros [= <- <- ]. split; [|constructor]. intros b q Q. by apply elem_of_nil in Q.
  - destruct (peer_tick now m a p) as [[p' x1]|] eqn:E1; [|done]. cbn [mbind_M]. destruct (peers_tick now m l) as [[l2 x2]|] eqn:E2; [|done]. cbn [mbind_M].
    intros [= <- <- ]. destruct (IH _ _ A eq_refl) as [G1 G2].
    assert (Q : (forall q, p' = Some q -> ip_outbox q = ip_outbox p) /\ Forall about x1).
    { unfold peer_tick in E1. destruct (bool_decide _); [injection E1 as <- <- ; split; [by intros q [= <- ]|constructor]|].
      destruct (_ <? _); [injection E1 as <- <- ; split; [by intros q [= <- ]|constructor]|].
      destruct (_ <=? _)%nat; [injection E1 as <- <- ; split; [done|by repeat constructor]|].
      destruct (announced m p) as [invs|] eqn:E; [|done]. cbn [mbind_M] in E1. injection E1 as <- <- . split; [by intros q [= <- ]|].
      constructor; [exact (announced_owned m p invs A E)|by repeat constructor]. }
    destruct Q as [Q1 Q2]. split; [|by apply Forall_app]. intros b q Hq. destruct p' as [p'|].
    + apply elem_of_cons in Hq as [[= -> -> ]|Hq]; [exists p; split; [left|by apply Q1]|]. destruct (G1 _ _ Hq) as (p0 & ? & ?). exists p0. split; [by right|done].
    + destruct (G1 _ _ Hq) as (p0 & ? & ?). exists p0. split; [by right|done].
Qed.
Lemma acknowledge_owned a w id s s' x : (forall i, id = Some i -> exists t, P t /\ t_id t = i) -> owned s -> acknowledge a w id s = (s', x) -> owned s' /\ Forall about x /\ iv_mempool s' = iv_mempool s.
Proof.
  intros Hi [A B C]. unfold acknowledge. destruct (iv_peers s !! a) as [p|] eqn:Ep; [|intros [= <- <- ]; by repeat split].
  destruct (ip_outbox p !! w) as [t|] eqn:Et; [|intros [= <- <- ]; by repeat split]. intros [= <- <- ]. split; [|split; [|done]].
  - split; cbn; [exact A|exact B|]. intros b q v id'. destruct (N.eq_dec a b) as [ <- |]; [rewrite lookup_insert; intros [= <- ]; cbn|rewrite lookup_insert_ne by done; apply C].
    rewrite lookup_delete_Some. intros [_ ?]. by apply (C a p v).
  - constructor; [|constructor]. cbn. destruct id as [i|]; cbn; [by apply Hi|]. by apply (C a p w).
Qed.
Lemma find_txid_some id m t : find_txid id m = Some t -> t_id t = id /\ exists w, m !! w = Some t.
Proof.
  unfold find_txid. destruct (sortN _) as [|w l] eqn:E; [done|]. intros Q. split; [|by exists w].
  assert (W : w ∈ map fst (List.filter (fun p : N * tx => t_id p.2 =? id) (map_to_list m))).
  { assert (S : forall l, sortN l ≡ₚ l) by (intros; apply sortN_perm). rewrite <- S, E. by left. }
  apply elem_of_list_fmap in W as ([w' u] & -> & W). apply elem_of_list_In, List.filter_In in W as [W1 W2]. apply elem_of_list_In, elem_of_map_to_list in W1.
  cbn in W2, Q. apply N.eqb_eq in W2. congruence.
Qed.
Lemma getdata_owned a is : forall s s' x, owned s -> getdata a is s = (s', x) -> owned s' /\ Forall about x.
Proof.
  induction is as [|i is IH]; intros s s' x O; cbn [getdata]; [by intros [= <- <- ]|].
  destruct (getdata_one a i s) as [s1 x1] eqn:E1. destruct (getdata a is s1) as [s2 x2] eqn:E2. intros [= <- <- ].
  assert (T : forall id, match find_txid id (iv_mempool s) with
      | Some t => let '(s, o) := acknowledge a (t_wid t) (Some id) s in (s, IoTx a t :: o)
      | None => (s, []) end = (s1, x1) -> owned s1 /\ Forall about x1).
  { intros id. destruct (find_txid id (iv_mempool s)) as [t|] eqn:F; [|by intros [= <- <- ]]. apply find_txid_some in F as (Ft & w & Fw).
    pose proof (ow_mempool s O _ _ Fw) as Pt. destruct (acknowledge a (t_wid t) (Some id) s) as [s3 x3] eqn:K.
    intros [= <- <- ]. destruct (acknowledge_owned a (t_wid t) (Some id) s s3 x3 ltac:(intros i0 [= <- ]; by exists t) O K) as (? & ? & _). split; [done|]. by constructor. }
  assert (G : owned s1 /\ Forall about x1).
  { destruct i; cbn [getdata_one] in E1; try (by apply T in E1); try (by injection E1 as <- <- ).
    match type of E1 with (let '(_, _) := acknowledge _ ?w _ _ in _) = _ => destruct (acknowledge a w None s) as [s3 x3] eqn:K; destruct (iv_mempool s !! w) as [t|] eqn:M end;
      injection E1 as <- <- ; destruct (acknowledge_owned a _ None s s3 x3 ltac:(done) O K) as (? & ? & _); (split; [done|]); [|done].
    constructor; [|done]. by apply (ow_mempool s O _ _ M). }
  destruct G as [O1 F1]. destruct (IH _ _ _ O1 E2) as [O2 F2]. split; [exact O2|]. by apply Forall_app.
Qed.
Lemma confirm_txs_owned hash h ts : forall s s' x, owned s -> confirm_txs hash h ts s = (s', x) -> owned s' /\ Forall about x.
Proof.
  induction ts as [|t ts IH]; intros s s' x O; cbn [confirm_txs]; [by intros [= <- <- ]|].
  destruct (confirm_tx hash h t s) as [s1 x1] eqn:E1. destruct (confirm_txs hash h ts s1) as [s2 x2] eqn:E2. intros [= <- <- ].
  assert (G : owned s1 /\ Forall about x1).
  { unfold confirm_tx in E1. destruct (iv_mempool s !! t_wid t) as [t'|] eqn:M; [|by injection E1 as <- <- ]. injection E1 as <- <- . destruct O as [A B C].
    split; [|constructor; [|constructor]; exists t'; split; [by apply (A _ _ M)|done]]. split; cbn.
    - intros w u. rewrite lookup_delete_Some. intros [_ ?]. by apply (A w).
    - intros h' l u. destruct (N.eq_dec h h') as [ <- |]; [rewrite lookup_insert; intros [= <- ]|rewrite lookup_insert_ne by done; apply B].
      intros [Hu|Hu]%elem_of_app; [|apply elem_of_list_singleton in Hu as -> ; by apply (A _ _ M)].
      destruct (iv_confirmed s !! h) as [l0|] eqn:L; cbn in Hu; [by apply (B h l0)|by apply elem_of_nil in Hu].
    - intros a p w id. rewrite lookup_fmap. destruct (iv_peers s !! a) as [q|] eqn:Q; [|done]. cbn. intros [= <- ]. cbn. rewrite lookup_delete_Some. intros [_ ?]. by apply (C a q w). }
  destruct G as [O1 F1]. destruct (IH _ _ _ O1 E2) as [O2 F2]. split; [exact O2|]. by apply Forall_app.
Qed.
Lemma process_queue_owned hs : forall s s' x, owned s -> process_queue hs s = Val (s', x) -> owned s' /\ Forall about x.
Proof.
  induction hs as [|h hs IH]; intros s s' x O; cbn [process_queue]; [by intros [= <- <- ]|].
  destruct (iv_received s !! h) as [b|]; [|by apply IH]. destruct (process_block h b _) as [[s1 x1]|] eqn:E1; [|done]. cbn [mbind_M].
  destruct (process_queue hs s1) as [[s2 x2]|] eqn:E2; [|done]. cbn [mbind_M]. intros [= <- <- ].
  unfold process_block in E1. destruct (confirm_txs (b_hash b) h (b_txs b) _) as [s3 x3] eqn:K. destruct (fee_process _ _ _) as [[e f]|]; [|done]. cbn [mbind_M] in E1.
  injection E1 as <- <- . destruct (confirm_txs_owned _ _ _ (set_received (delete h (iv_received s)) s) _ _ ltac:(destruct O; by split) K) as [O3 F3].
  destruct (IH (set_est e s3) _ _ ltac:(destruct O3; by split) E2) as [O2 F2]. split; [exact O2|]. rewrite !Forall_app. split; [|exact F2]. split; [exact F3|by repeat constructor].
Qed.

Lemma step_owned o s s' x : (forall t, o = IAnnounce t -> P t) -> owned s -> inv_step o s = Val (s', x) -> owned s' /\ Forall about x.
Proof.
  intros Po O. destruct o as [a n r w|a|hs|b hof|a is|now th pick|t|h]; cbn [inv_step].
  - intros [= <- <- ]. split; [|by repeat constructor]. destruct O as [A B C]. split; cbn; [exact A|exact B|]. intros b p v id.
    destruct (N.eq_dec a b) as [ <- |]; [rewrite lookup_insert; intros [= <- ]; cbn|rewrite lookup_insert_ne by done; apply C].
    rewrite lookup_fmap. destruct (iv_mempool s !! v) as [t|] eqn:M; [|done]. cbn. intros [= <- ]. exists t. split; [by apply (A v)|done].
  - intros [= <- <- ]. split; [|constructor]. destruct O as [A B C]. split; cbn; [exact A|exact B|]. intros b p v id. rewrite lookup_delete_Some. intros [_ ?]. by apply (C b).
  - by apply blocks_reverted_owned.
  - unfold received_block. destruct (iv_remaining s !! b_hash b); [|by intros [= <- <- ]]. destruct (hof (b_hash b)) as [h|].
    2:{ intros [= <- <- ]. split; [destruct O; by split|constructor]. }
    destruct (bool_decide _); [apply process_queue_owned; destruct O; by split|]. intros [= <- <- ]. split; [destruct O; by split|constructor].
  - intros [= E]. by eapply getdata_owned.
  - unfold inv_timer. cbv zeta. intros E.
    match type of E with (mbind_M ?m _) = _ => destruct m as [[l x2]|] eqn:T; [|done] end. cbn [mbind_M] in E.
    destruct (request_blocks _ _ _ _) as [r x3] eqn:Q. injection E as <- <- .
    set (s1 := if _ <=? _ then set_tick _ s else s) in *. assert (O1 : owned s1) by (subst s1; destruct (_ <=? _); [destruct O; by split|done]). clearbody s1.
    destruct O1 as [A B C]. destruct (peers_tick_owned _ _ _ _ _ A T) as [G1 G2]. split.
    + split; cbn; [exact A| |].
      * intros h l' t Hl. apply map_filter_lookup_Some in Hl as [Hl _]. by apply (B h).
      * intros a p w id Hp. apply elem_of_list_to_map_2 in Hp. destruct (G1 _ _ Hp) as (p0 & Hp0 & -> ). apply elem_of_map_to_list in Hp0. by apply (C a p0).
    + rewrite !Forall_app. split; [by destruct (_ <=? _); repeat constructor|]. split; [exact G2|].
      unfold request_blocks in Q. injection Q as _ <- . apply Forall_forall. intros o Ho. apply elem_of_list_In, in_concat in Ho as (l' & Hl & Ho). apply elem_of_list_In in Hl. apply elem_of_list_In in Ho.
      apply elem_of_list_fmap in Hl as ([h t] & -> & _). match type of Ho with _ ∈ match ?z with _ => _ end => destruct z end; [|by apply elem_of_nil in Ho].
      apply elem_of_cons in Ho as [ -> |Ho]; [done|]. by apply elem_of_list_singleton in Ho as -> .
  - intros E. assert (E' : announce t s = (s', x)) by congruence. exact (announce_owned t s s' x (Po t eq_refl) O E').
  - intros [= <- <- ]. split; [|by repeat constructor]. destruct (iv_remaining s !! h); destruct O; by split.
Qed.
End Origin.

Lemma run_owned os : forall Q s s' xs, owned Q s -> (forall t, IAnnounce t ∈ os -> Q t) -> inv_run os s = Val (s', xs) -> owned Q s'.
Proof.
  induction os as [|o os IH]; intros Q s s' xs O F; cbn [inv_run]; [by intros [= <- _]|].
  destruct (inv_step o s) as [[s1 x]|] eqn:E; [|done]. cbn [mbind_M]. destruct (inv_run os s1) as [[s2 ys]|] eqn:R; [|done]. cbn [mbind_M].
  intros [= <- _]. eapply IH; [|intros t Ht; apply F; by right|exact R]. eapply step_owned; [|exact O|exact E]. intros t -> . apply F. by left.
Qed.
Lemma submitted_only os s outs o s' x : inv_reach os s outs -> inv_step o s = Val (s', x) ->
  (forall w t, iv_mempool s' !! w = Some t -> IAnnounce t ∈ os ++ [o]) /\ Forall (concerns (fun t => IAnnounce t ∈ os ++ [o])) x.
Proof.
  intros R E. assert (O : owned (fun t => IAnnounce t ∈ os ++ [o]) s).
  { eapply (run_owned os); [apply owned0| |exact R]. intros t Ht. apply elem_of_app. by left. }
  destruct (step_owned (fun t => IAnnounce t ∈ os ++ [o]) o s s' x ltac:(intros t -> ; apply elem_of_app; right; by left) O E) as [O1 F]. split; [apply (ow_mempool _ _ O1)|exact F].
Qed.

(** ** Which inputs lead to messages *)
Definition silent (o : iout) : Prop := match o with IoInv _ _ | IoGetData _ _ | IoTx _ _ | IoTimedOut _ => False | _ => True end.
Lemma revert_txs_silent ts : forall s, Forall silent (revert_txs ts s).2.
Proof.
  induction ts as [|t ts IH]; intros s; cbn [revert_txs]; [constructor|]. destruct (announce t s) as [s1 x1] eqn:E1.
  assert (Forall silent x1) as F1 by (unfold announce, schedule_tick in E1; cbv zeta in E1; injection E1 as _ <-; by repeat constructor).
  specialize (IH s1). destruct (revert_txs ts s1) as [s2 x2]. cbn in *. apply Forall_app. split; [done|]. by constructor.
Qed.
Lemma blocks_reverted_silent hs : forall s s' x, blocks_reverted hs s = Val (s', x) -> Forall silent x.
Proof.
  induction hs as [|h hs IH]; intros s s' x; cbn [blocks_reverted]; [intros [= <- <-]; constructor|].
  destruct (block_reverted h s) as [[s1 x1]|] eqn:E1; [|done]. cbn [mbind_M]. destruct (blocks_reverted hs s1) as [[s2 x2]|] eqn:E2; [|done]. cbn [mbind_M].
  intros [= <- <-]. apply Forall_app. split; [|by eapply IH]. unfold block_reverted in E1. destruct (fee_rollback _ _); [|done]. cbn [mbind_M] in E1.
  cbn [set_est iv_confirmed] in E1. destruct (iv_confirmed s !! h) as [ts|]; [|injection E1 as <- <-; constructor].
  match type of E1 with Val (revert_txs ts ?z) = _ => pose proof (revert_txs_silent ts z) as F; destruct (revert_txs ts z) as [s3 x3] end. by injection E1 as <- <-.
Qed.
Lemma confirm_txs_silent hash h ts : forall s, Forall silent (confirm_txs hash h ts s).2.
Proof.
  induction ts as [|t ts IH]; intros s; cbn [confirm_txs]; [constructor|]. destruct (confirm_tx hash h t s) as [s1 x1] eqn:E1.
  specialize (IH s1). destruct (confirm_txs hash h ts s1) as [s2 x2]. cbn in *. apply Forall_app. split; [|done].
  unfold confirm_tx in E1. destruct (iv_mempool s !! t_wid t); injection E1 as <- <-; by repeat constructor.
Qed.
Lemma process_queue_silent hs : forall s s' x, process_queue hs s = Val (s', x) -> Forall silent x.
Proof.
  induction hs as [|h hs IH]; intros s s' x; cbn [process_queue]; [intros [= <- <-]; constructor|].
  destruct (iv_received s !! h) as [b|]; [|by apply IH]. destruct (process_block h b _) as [[s1 x1]|] eqn:E1; [|done]. cbn [mbind_M].
  destruct (process_queue hs s1) as [[s2 x2]|] eqn:E2; [|done]. cbn [mbind_M]. intros [= <- <-]. apply Forall_app. split; [|by eapply IH].
  unfold process_block in E1. match type of E1 with context [confirm_txs ?a ?b ?c ?d] => pose proof (confirm_txs_silent a b c d) as F; destruct (confirm_txs a b c d) as [s3 x3] end.
  destruct (fee_process _ _ _) as [[e f]|]; [|done]. cbn [mbind_M] in E1. injection E1 as <- <-. apply Forall_app. split; [done|by repeat constructor].
Qed.
Lemma getdata_kinds a is : forall s, Forall (fun y => silent y \/ exists t, y = IoTx a t) (getdata a is s).2.
Proof.
  induction is as [|i is IH]; intros s; cbn [getdata]; [constructor|]. destruct (getdata_one a i s) as [s1 x1] eqn:E1.
  specialize (IH s1). destruct (getdata a is s1) as [s2 x2]. cbn in *. apply Forall_app. split; [|done].
  assert (K : forall w id s', Forall (fun y => silent y \/ exists t, y = IoTx a t) (acknowledge a w id s').2).
  { intros w id s'. unfold acknowledge. destruct (iv_peers s' !! a) as [p|]; [|constructor]. destruct (ip_outbox p !! w); [|constructor]. cbn. constructor; [by left|constructor]. }
  assert (T : forall id, match find_txid id (iv_mempool s) with
      | Some t => let '(s, o) := acknowledge a (t_wid t) (Some id) s in (s, IoTx a t :: o)
      | None => (s, []) end = (s1, x1) -> Forall (fun y => silent y \/ exists t, y = IoTx a t) x1).
  { intros id. destruct (find_txid id (iv_mempool s)) as [t|]; [|intros [= <- <-]; constructor]. specialize (K (t_wid t) (Some id) s).
    destruct (acknowledge a (t_wid t) (Some id) s) as [s3 x3]. intros [= <- <-]. constructor; [right; by exists t|done]. }
  destruct i; cbn [getdata_one] in E1; try (by apply T in E1); try (injection E1 as <- <-; constructor).
  match type of E1 with (let '(_, _) := acknowledge _ ?w _ _ in _) = _ => specialize (K w None s); destruct (acknowledge a w None s) as [s3 x3]; destruct (iv_mempool s !! w) as [t|] end;
    injection E1 as <- <-; [|exact K]. constructor; [right; by exists t|exact K].
Qed.
Lemma step_kinds o s s' x : inv_step o s = Val (s', x) -> Forall (fun y => match y with
  | IoInv _ _ | IoGetData _ _ | IoTimedOut _ => exists now th pick, o = ITimer now th pick
  | IoTx a _ => exists is, o = IGetDataMsg a is
  | _ => True end) x.
Proof.
  intros E. assert (S : Forall silent x -> Forall (fun y => match y with
    | IoInv _ _ | IoGetData _ _ | IoTimedOut _ => exists now th pick, o = ITimer now th pick
    | IoTx a _ => exists is, o = IGetDataMsg a is
    | _ => True end) x). { intros F. eapply Forall_impl; [exact F|]. by intros []. }
  destruct o as [a n r w|a|hs|b hof|a is|now th pick|t|h]; cbn [inv_step] in E.
  - injection E as <- <-. by repeat constructor.
  - injection E as <- <-. by repeat constructor.
  - apply S. by eapply blocks_reverted_silent.
  - apply S. unfold received_block in E. destruct (iv_remaining s !! b_hash b); [|injection E as <- <-; constructor]. destruct (hof (b_hash b)); [|injection E as <- <-; constructor].
    destruct (bool_decide _); [by eapply process_queue_silent|injection E as <- <-; constructor].
  - pose proof (getdata_kinds a is s) as F. destruct (getdata a is s) as [s1 x1]. injection E as <- <-. eapply Forall_impl; [exact F|]. cbn.
    intros y [Q|(t & ->)]; [by destruct y|by exists is].
  - unfold inv_timer in E. cbv zeta in E. match type of E with (mbind_M ?m _) = _ => destruct m as [[l x2]|] eqn:T; [|done] end. cbn [mbind_M] in E.
    destruct (request_blocks _ _ _ _) as [r x3] eqn:Q. injection E as <- <-. rewrite !Forall_app. split; [by destruct (_ <=? _); repeat constructor|]. split.
    + apply Forall_forall. intros y Hy. clear -Hy T. revert x2 T Hy. generalize (map_to_list (iv_peers (set_confirmed (filter (fun '(h, _) => wrap64 (th + 2 ^ 64 - h) <=? prune_depth = true) (iv_confirmed (if inv_idle_timeout <=? now - default 0 (iv_tick s) then set_tick (Some now) s else s))) (if inv_idle_timeout <=? now - default 0 (iv_tick s) then set_tick (Some now) s else s)))).
      intros l0. revert l. induction l0 as [|[a p] l0 IH]; intros l x2; cbn [peers_tick]; [intros [= <- <-] Hy; by apply elem_of_nil in Hy|].
      destruct (peer_tick _ _ a p) as [[p' x1]|] eqn:E1; [|done]. cbn [mbind_M]. destruct (peers_tick _ _ l0) as [[l2 x3]|] eqn:E2; [|done]. cbn [mbind_M]. intros [= <- <-].
      intros [Hy|Hy]%elem_of_app; [|by eapply IH]. unfold peer_tick in E1. destruct (bool_decide _); [injection E1 as <- <-; by apply elem_of_nil in Hy|].
      destruct (_ <? _); [injection E1 as <- <-; by apply elem_of_nil in Hy|]. destruct (_ <=? _)%nat; [injection E1 as <- <-; apply elem_of_list_singleton in Hy as ->; by exists now, th, pick|].
      destruct (announced _ p) as [invs|]; [|done]. cbn [mbind_M] in E1. injection E1 as <- <-.
      apply elem_of_cons in Hy as [->|Hy]; [by exists now, th, pick|by apply elem_of_list_singleton in Hy as ->].
    + unfold request_blocks in Q. injection Q as _ <-. apply Forall_forall. intros o Ho. apply elem_of_list_In, in_concat in Ho as (l' & Hl & Ho). apply elem_of_list_In in Hl. apply elem_of_list_In in Ho.
      apply elem_of_list_fmap in Hl as ([h t] & -> & _). match type of Ho with _ ∈ match ?z with _ => _ end => destruct z end; [|by apply elem_of_nil in Ho].
      apply elem_of_cons in Ho as [->|Ho]; [by exists now, th, pick|]. by apply elem_of_list_singleton in Ho as ->.
  - apply S. unfold announce, schedule_tick in E. cbv zeta in E. injection E as <- <-. by repeat constructor.
  - injection E as <- <-. by repeat constructor.
Qed.

(** ** A confirmation that is reported is remembered *)
Lemma confirm_txs_recorded hash h ts : forall s s' x id hash' h', confirm_txs hash h ts s = (s', x) -> IoStatus id (StConfirmed hash' h') ∈ x ->
  exists t, t_id t = id /\ confirmed_at h' t s'.
Proof.
  induction ts as [|t ts IH]; intros s s' x id hash' h'; cbn [confirm_txs]; [intros [= <- <-] I; by apply elem_of_nil in I|].
  destruct (confirm_tx hash h t s) as [s1 x1] eqn:E1. destruct (confirm_txs hash h ts s1) as [s2 x2] eqn:E2. intros [= <- <-] [I|I]%elem_of_app; [|by eapply IH].
  unfold confirm_tx in E1. destruct (iv_mempool s !! t_wid t) as [t'|]; injection E1 as <- <-; [|by apply elem_of_nil in I].
  apply elem_of_list_singleton in I. injection I as -> -> ->. exists t'. split; [done|]. eapply (c_keep _ _ _ _ _ _ (confirm_txs_facts _ _ _ _ _ _ E2)).
  eexists. cbn. rewrite lookup_insert. split; [done|]. apply elem_of_app. right. by left.
Qed.
Lemma process_queue_keep hs : forall s s' x h t, process_queue hs s = Val (s', x) -> confirmed_at h t s -> confirmed_at h t s'.
Proof.
  induction hs as [|k hs IH]; intros s s' x h t; cbn [process_queue]; [by intros [= <- <-]|].
  destruct (iv_received s !! k) as [b|]; [|by apply IH]. destruct (process_block k b _) as [[s1 x1]|] eqn:E1; [|done]. cbn [mbind_M].
  destruct (process_queue hs s1) as [[s2 x2]|] eqn:E2; [|done]. cbn [mbind_M]. intros [= <- <-] C. eapply IH; [exact E2|].
  unfold process_block in E1. destruct (confirm_txs _ _ _ _) as [s3 x3] eqn:E3. destruct (fee_process _ _ _) as [[e f]|]; [|done]. cbn [mbind_M] in E1. injection E1 as <- <-.
  exact (c_keep _ _ _ _ _ _ (confirm_txs_facts _ _ _ _ _ _ E3) h t C).
Qed.
Lemma process_queue_recorded hs : forall s s' x id hash h, process_queue hs s = Val (s', x) -> IoStatus id (StConfirmed hash h) ∈ x ->
  exists t, t_id t = id /\ confirmed_at h t s'.
Proof.
  induction hs as [|k hs IH]; intros s s' x id hash h; cbn [process_queue]; [intros [= <- <-] I; by apply elem_of_nil in I|].
  destruct (iv_received s !! k) as [b|]; [|by apply IH]. destruct (process_block k b _) as [[s1 x1]|] eqn:E1; [|done]. cbn [mbind_M].
  destruct (process_queue hs s1) as [[s2 x2]|] eqn:E2; [|done]. cbn [mbind_M]. intros [= <- <-] [I|I]%elem_of_app; [|by eapply IH].
  unfold process_block in E1. destruct (confirm_txs _ _ _ _) as [s3 x3] eqn:E3. destruct (fee_process _ _ _) as [[e f]|]; [|done]. cbn [mbind_M] in E1. injection E1 as <- <-.
  apply elem_of_app in I as [I|I]; [|by apply elem_of_list_singleton in I]. destruct (confirm_txs_recorded _ _ _ _ _ _ _ _ _ E3 I) as (t & Et & C). exists t. split; [done|].
  eapply process_queue_keep; [exact E2|]. exact C.
Qed.
Lemma step_recorded o s s' x id hash h : inv_ok s -> inv_step o s = Val (s', x) -> IoStatus id (StConfirmed hash h) ∈ x ->
  exists t, t_id t = id /\ confirmed_at h t s'.
Proof.
  intros Ok E I. destruct (x_event _ _ _ _ (step_txfacts o s s' x Ok E) id hash h I) as (b & t & t' & Pb & _). clear t t'.
  destruct o as [a n r w|a|hs|b0 hof|a is|now th pick|t|k]; cbn [inv_step] in E.
  4:{ unfold received_block in E. destruct (iv_remaining s !! b_hash b0); [|injection E as <- <-; by apply elem_of_nil in I]. destruct (hof (b_hash b0)); [|injection E as <- <-; by apply elem_of_nil in I].
      destruct (bool_decide _); [by eapply process_queue_recorded|injection E as <- <-; by apply elem_of_nil in I]. }
  - injection E as <- <-. by apply elem_of_list_singleton in I.
  - injection E as <- <-. by apply elem_of_nil in I.
  - destruct (blocks_reverted_facts _ _ _ _ Ok E) as (_ & _ & _ & K & _). rewrite K in Pb. by apply elem_of_nil in Pb.
  - exfalso. destruct (getdata a is s) as [s1 x1] eqn:G. injection E as <- <-. apply getdata_fetch in G.
    by destruct (f_outs _ _ _ _ G _ I) as [[? ?]|[? ?]].
  - exfalso. apply inv_timer_facts in E. by destruct (t_outs _ _ _ _ _ E _ I) as [(? & ? & _ & [?|[? ?]])|[[? ?]|(? & ? & ?)]].
  - unfold announce, schedule_tick in E. cbv zeta in E. injection E as <- <-. by apply elem_of_list_singleton in I.
  - injection E as <- <-. by apply elem_of_list_singleton in I.
Qed.
