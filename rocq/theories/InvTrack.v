(** Tracking of submitted transactions and announcement retries. *)
From Coq Require Import Sorting.Sorted.
From Verif Require Import Base FeeModel FeeSpec FeeProofs InvModel InvSpec InvProofs.
Open Scope N_scope.

Lemma count_in {A} (f : A -> bool) l x : x ∈ l -> f x = true -> (0 < count f l)%nat.
Proof.
  intros Hx Fx. unfold count. assert (In x (List.filter f l)) as X by (apply List.filter_In; split; [by apply elem_of_list_In|done]).
  destruct (List.filter f l); [done|cbn; lia].
Qed.
Lemma count_zero_in {A} (f : A -> bool) l x : count f l = 0%nat -> x ∈ l -> f x = false.
Proof. intros C Hx. destruct (f x) eqn:E; [|done]. pose proof (count_in f l x Hx E). lia. Qed.

(** ** Transactions *)
Record txfacts (o : inv_op) (s s' : inv) (x : list iout) : Prop := {
  x_track : forall w, tracked w s -> tracked w s' \/ includes w x;
  x_count : forall txid, (count (confirms txid) x + mcount txid (iv_mempool s') <=
    mcount txid (iv_mempool s) + (if submits txid o then 1 else 0) + count (reverts txid) x)%nat;
  x_event : forall txid hash h, IoStatus txid (StConfirmed hash h) ∈ x -> exists b t t', (h, b) ∈ processed x /\ b_hash b = hash /\
    t ∈ b_txs b /\ iv_mempool s !! t_wid t = Some t' /\ t_id t' = txid;
  x_done : forall w t, includes w x -> iv_mempool s !! w = Some t -> iv_mempool s' !! w = None /\
    exists h b, (h, b) ∈ processed x /\ in_txs w (b_txs b) /\ confirmed_at h t s' /\ IoStatus (t_id t) (StConfirmed (b_hash b) h) ∈ x;
  x_keep : forall h t, keeps_height h o -> confirmed_at h t s -> confirmed_at h t s'
}.

(** Steps that keep the mempool and the confirmed transactions. *)
Lemma txfacts_same o s s' x : iv_mempool s' = iv_mempool s ->
  (forall h t, keeps_height h o -> confirmed_at h t s -> confirmed_at h t s') ->
  (forall y, y ∈ x -> match y with IoBlock _ _ _ | IoStatus _ (StConfirmed _ _) => False | _ => True end) ->
  txfacts o s s' x.
Proof.
  intros Em K F.
  assert (P : processed x = []).
  { clear -F. induction x as [|y x IH]; [done|]. pose proof (F y ltac:(by left)). cbn. destruct y; try done; apply IH; intros z Hz; apply F; by right. }
  split; try done.
  - intros w [t Ht]. left. exists t. by rewrite Em.
  - intros txid. rewrite Em, count_zero; [lia|]. intros y Hy. specialize (F y Hy). destruct y as [| | |? []| | |]; done.
  - intros txid hash h Hy. by specialize (F _ Hy).
  - intros w t Hi. by apply includes_none in Hi.
Qed.

Lemma prune_keeps h th : h <= th <= h + 12 -> th < 2 ^ 64 -> (wrap64 (th + 2 ^ 64 - h) <=? prune_depth) = true.
Proof.
  intros [A B] C. unfold wrap64, prune_depth. replace (th + 2 ^ 64 - h) with ((th - h) + 1 * 2 ^ 64) by lia.
  rewrite N.mod_add by lia. change (2 ^ 64) with 18446744073709551616 in *. rewrite N.mod_small by lia. lia.
Qed.

Lemma step_txfacts o s s' x : inv_ok s -> inv_step o s = Val (s', x) -> txfacts o s s' x.
Proof.
  intros I. destruct o as [a n r w|a|hs|b hof|a is|now th pick|t|h]; cbn [inv_step].
  - unfold inv_negotiated, schedule_tick. intros [= <- <-]. apply txfacts_same; try done.
    intros y Hy. by apply elem_of_list_singleton in Hy as ->.
  - intros [= <- <-]. apply txfacts_same; try done. intros y Hy. by apply elem_of_nil in Hy.
  - intros X. destruct (blocks_reverted_facts _ _ _ _ I X) as (K1 & K4 & K5 & K6 & K7 & K8 & K9 & K10 & K14 & K11 & K12 & K13).
    split.
    + intros w Hw. left. by apply K9.
    + intros txid. rewrite K7. specialize (K11 txid). cbn [submits]. lia.
    + intros txid hash h Hy. pose proof (count_zero_in _ _ _ (K7 txid) Hy) as Z. cbn in Z. by rewrite N.eqb_refl in Z.
    + intros w t Hi. by apply includes_none in Hi.
    + intros h t Hk. by apply K14.
  - intros X. apply received_block_facts in X as [(-> & -> & _)|(t & Et & [(-> & -> & _)|(h & _ & [(_ & -> & ->)|(D & R1 & R2 & P & S & L)])])].
    1-3: apply txfacts_same; try done; intros y Hy; by apply elem_of_nil in Hy.
    split.
    + intros w Hw. by apply (r_track _ _ _ P).
    + intros txid. pose proof (r_count _ _ _ P txid) as C. cbn [iv_mempool set_received set_remaining] in C. lia.
    + intros txid hash h' Hy. destruct (r_outs _ _ _ P _ Hy) as [(? & ? & ? & ?)|(h2 & b2 & u & u' & P1 & P2 & P3 & [= -> -> ->])]; [done|].
      exists b2, u, u'. done.
    + intros w u Hi Hw. split; [by apply (r_gone _ _ _ P)|]. by apply (r_done _ _ _ P).
    + intros h' u _ Hc. by apply (r_keep _ _ _ P).
  - intros [= X]. apply getdata_fetch in X. destruct (f_rest _ _ _ _ X) as [ps E]. apply txfacts_same; [by subst s'| |].
    + intros h t _ (l & El & Hl). exists l. by subst s'.
    + intros y Hy. by destruct (f_outs _ _ _ _ X y Hy) as [[t ->]|[t ->]].
  - intros X. apply inv_timer_facts in X. apply txfacts_same; [apply X| |].
    + intros h t [Hk Hb] (l & El & Hl). exists l. split; [|done]. rewrite (t_conf _ _ _ _ _ X).
      apply map_filter_lookup_Some. split; [done|]. by apply prune_keeps.
    + intros y Hy. by destruct (t_outs _ _ _ _ _ X y Hy) as [(? & ? & _ & [->|[? ->]])|[[? ->]|(? & ? & ->)]].
  - destruct (announce t s) as [s1 x1] eqn:A. intros [= <- <-]. destruct (announce_facts _ _ _ _ A) as (-> & Em & Ec & _ & E1 & E2 & _).
    split.
    + intros w [t' Ht]. left. unfold tracked. rewrite Em. destruct (decide (w = t_wid t)) as [->|NE].
      * rewrite lookup_insert. by eexists.
      * rewrite lookup_insert_ne by done. by eexists.
    + intros txid. rewrite Em, !count_cons, !count_nil. cbn [confirms reverts submits]. pose proof (mcount_insert txid (t_wid t) t (iv_mempool s)). lia.
    + intros txid hash h Hy. by apply elem_of_list_singleton in Hy.
    + intros w u Hi. by apply includes_none in Hi.
    + intros h u _ (l & El & Hl). exists l. by rewrite Ec.
  - unfold get_block, schedule_tick. intros [= <- <-]. apply txfacts_same.
    + by destruct (iv_remaining s !! h).
    + intros h' u _ (l & El & Hl). exists l. by destruct (iv_remaining s !! h).
    + intros y Hy. by apply elem_of_list_singleton in Hy as ->.
Qed.

Lemma run_cons o os s s' xs : inv_run (o :: os) s = Val (s', xs) ->
  exists s1 x xs1, inv_step o s = Val (s1, x) /\ inv_run os s1 = Val (s', xs1) /\ xs = x :: xs1.
Proof.
  cbn [inv_run]. destruct (inv_step o s) as [[s1 x]|] eqn:E; [|done]. cbn [mbind_M].
  destruct (inv_run os s1) as [[s2 xs1]|] eqn:E2; [|done]. cbn [mbind_M]. intros X. injection X as <- <-. by exists s1, x, xs1.
Qed.

Lemma run_tracked os s s' xs w : inv_ok s -> tracked w s -> inv_run os s = Val (s', xs) ->
  ~ includes w (concat xs) -> tracked w s'.
Proof.
  revert s xs. induction os as [|o os IH]; intros s xs I Hw R NI.
  - cbn in R. by injection R as <- _.
  - apply run_cons in R as (s1 & x & xs1 & E & R & ->). cbn [concat] in NI. rewrite includes_app in NI.
    eapply IH; [by eapply inv_step_ok| |exact R|tauto].
    destruct (x_track _ _ _ _ (step_txfacts _ _ _ _ I E) w Hw); tauto.
Qed.

Lemma run_confirms os s xs txid : inv_run os inv0 = Val (s, xs) ->
  (count (confirms txid) (concat xs) + mcount txid (iv_mempool s) <=
   count (submits txid) os + count (reverts txid) (concat xs))%nat.
Proof.
  revert s xs. induction os as [|o os IH] using rev_ind; intros s xs.
  { intros X. injection X as <- <-. cbn. unfold mcount. rewrite map_filter_empty. done. }
  intros X. apply run_split in X as (s1 & xs1 & x & A & B & ->). specialize (IH _ _ A).
  pose proof (inv_run_ok _ _ _ _ inv0_ok A) as I. pose proof (x_count _ _ _ _ (step_txfacts _ _ _ _ I B) txid) as C.
  rewrite concat_app, !count_app, count_cons, count_nil. cbn [concat]. rewrite app_nil_r. lia.
Qed.

Lemma run_keeps os s s' xs h t : inv_ok s -> Forall (keeps_height h) os -> confirmed_at h t s ->
  inv_run os s = Val (s', xs) -> confirmed_at h t s'.
Proof.
  revert s xs. induction os as [|o os IH]; intros s xs I F Hc R.
  - cbn in R. by injection R as <- _.
  - apply run_cons in R as (s1 & x & xs1 & E & R & ->). inversion_clear F as [|? ? Ho Hos].
    eapply IH; [by eapply inv_step_ok|done| |exact R]. by eapply (x_keep _ _ _ _ (step_txfacts _ _ _ _ I E)).
Qed.

Theorem confirmed_then_reverted os s outs o s1 x w t :
  inv_reach os s outs -> inv_step o s = Val (s1, x) -> iv_mempool s !! w = Some t -> includes w x ->
  iv_mempool s1 !! w = None /\
  exists h b, (h, b) ∈ processed x /\ in_txs w (b_txs b) /\ IoStatus (t_id t) (StConfirmed (b_hash b) h) ∈ x /\
  forall os' s2 xs hs s3 y, inv_run os' s1 = Val (s2, xs) -> Forall (keeps_height h) os' -> h ∈ hs ->
    inv_step (IReverted hs) s2 = Val (s3, y) -> IoStatus (t_id t) (StReverted t) ∈ y /\ tracked w s3.
Proof.
  intros R E Hw Hi. pose proof (inv_run_ok _ _ _ _ inv0_ok R) as I.
  destruct (x_done _ _ _ _ (step_txfacts _ _ _ _ I E) w t Hi Hw) as (G & h & b & P1 & P2 & P3 & P4).
  split; [done|]. exists h, b. split; [done|]. split; [done|]. split; [done|].
  intros os' s2 xs hs s3 y R' F Hh E3. pose proof (inv_step_ok _ _ _ _ I E) as I1.
  pose proof (inv_run_ok _ _ _ _ I1 R') as I2. pose proof (run_keeps _ _ _ _ _ _ I1 F P3 R') as C.
  cbn [inv_step] in E3. destruct (blocks_reverted_facts _ _ _ _ I2 E3) as (_ & _ & _ & _ & _ & _ & _ & K10 & _).
  destruct (K10 h t Hh C) as [T Y]. split; [done|]. destruct I as (A & _). by rewrite (A w t Hw) in T.
Qed.

(** ** Announcements *)
Definition pfacts (a : N) (o : inv_op) (s s' : inv) (x : list iout) : Prop :=
  match iv_peers s !! a with
  | None => iv_peers s' !! a = None /\ count (announces_to a) x = 0%nat /\ count (acked_by a) x = 0%nat
  | Some p =>
      match iv_peers s' !! a with
      | None => count (announces_to a) x = 0%nat /\ count (acked_by a) x = 0%nat /\ (0 < count (drops a) x)%nat /\ (3 <= ip_attempts p)%nat
      | Some p' =>
          (count (announces_to a) x = 0%nat /\ count (acked_by a) x = 0%nat /\ ip_attempts p' = ip_attempts p /\ ip_last p' = ip_last p /\
            forall w, is_Some (ip_outbox p !! w) -> includes w x \/ is_Some (ip_outbox p' !! w)) \/
          (count (announces_to a) x = 0%nat /\ (0 < count (acked_by a) x)%nat /\ ip_attempts p' = 0%nat /\ ip_last p' = None) \/
          (exists now th pick, o = ITimer now th pick /\ count (announces_to a) x = 1%nat /\ count (acked_by a) x = 0%nat /\
            (ip_attempts p < 3)%nat /\ ip_attempts p' = S (ip_attempts p) /\ ip_last p' = Some now /\
            default 0 (ip_last p) + 60000 <= now /\ ip_outbox p' = ip_outbox p)
      end
  end.

Lemma pfacts_same a o s s' x : count (announces_to a) x = 0%nat -> count (acked_by a) x = 0%nat ->
  (iv_peers s !! a = None -> iv_peers s' !! a = None) ->
  (forall p, iv_peers s !! a = Some p -> exists p', iv_peers s' !! a = Some p' /\ ip_attempts p' = ip_attempts p /\ ip_last p' = ip_last p /\
     forall w, is_Some (ip_outbox p !! w) -> includes w x \/ is_Some (ip_outbox p' !! w)) ->
  pfacts a o s s' x.
Proof.
  intros C1 C2 N0 N1. unfold pfacts. destruct (iv_peers s !! a) as [p|] eqn:E; [|auto].
  destruct (N1 p eq_refl) as (p' & -> & Q). left. tauto.
Qed.

Lemma count_filter_about f a (x y : list iout) : (forall z, f z = true -> about a z = true) ->
  List.filter (about a) x = List.filter (about a) y -> count f x = count f y.
Proof.
  intros F E. unfold count.
  assert (G : forall l, List.filter f l = List.filter f (List.filter (about a) l)).
  { induction l as [|z l IH]; [done|]. cbn. destruct (f z) eqn:Ez.
    - rewrite (F z Ez). cbn. by rewrite Ez, IH.
    - destruct (about a z); cbn; [by rewrite Ez|done]. }
  by rewrite (G x), (G y), E.
Qed.

Lemma step_pfacts a o s s' x : inv_ok s -> same_session a o -> inv_step o s = Val (s', x) -> pfacts a o s s' x.
Proof.
  intros I SS. destruct o as [a' n r w|a'|hs|b hof|a' is|now th pick|t|h]; cbn [inv_step].
  - unfold inv_negotiated, schedule_tick. intros [= <- <-]. cbn in SS. apply pfacts_same; cbn; try done.
    + by rewrite lookup_insert_ne.
    + intros p E. exists p. rewrite lookup_insert_ne by done. do 3 (split; [done|]). auto.
  - intros [= <- <-]. cbn in SS. apply pfacts_same; cbn; try done.
    + by rewrite lookup_delete_ne.
    + intros p E. exists p. rewrite lookup_delete_ne by done. do 3 (split; [done|]). auto.
  - intros X. destruct (blocks_reverted_facts _ _ _ _ I X) as (K1 & K4 & K5 & K6 & K7 & K8 & K9 & K10 & K14 & K11 & K12 & K13).
    destruct (K8 a) as (Q1 & Q2 & _). apply pfacts_same; try done; [apply K13|].
    intros p E. destruct (K12 a p E) as (p' & E' & R1 & R2 & R3). exists p'. do 3 (split; [done|]). auto.
  - intros X. apply received_block_facts in X as [(-> & -> & _)|(t & Et & [(-> & -> & _)|(h & _ & [(_ & -> & ->)|(D & R1 & R2 & P & S & L)])])].
    1-3: apply pfacts_same; try done; intros p E; exists p; do 3 (split; [done|]); auto.
    assert (Z : forall f, (forall b h g, f (IoBlock b h g) = false) -> (forall i j k, f (IoStatus i (StConfirmed j k)) = false) -> count f x = 0%nat).
    { intros f F1 F2. apply count_zero. intros y Hy. by destruct (r_outs _ _ _ P y Hy) as [(? & ? & ? & ->)|(? & ? & ? & ? & _ & _ & _ & ->)]. }
    apply pfacts_same; [by apply Z|by apply Z|apply (r_nopeer _ _ _ P)|].
    intros p E. destruct (r_peers _ _ _ P a p E) as (p' & E' & Q1 & Q2 & Q3). exists p'. do 3 (split; [done|]).
    intros w Hw. destruct (decide (is_Some (ip_outbox p' !! w))) as [Y|Nn]; [by right|left].
    destruct I as (_ & I2 & _). destruct (I2 a p w E Hw) as [tw Htw].
    destruct (r_track _ _ _ P w) as [T|T]; [by exists tw| |done].
    exfalso. apply Nn. apply Q3; [done|]. intros Inc. destruct T as [tt Htt]. by rewrite (r_gone _ _ _ P w Inc) in Htt.
  - intros [= X]. apply getdata_fetch in X.
    assert (Z : count (announces_to a) x = 0%nat).
    { apply count_zero. intros y Hy. by destruct (f_outs _ _ _ _ X y Hy) as [[? ->]|[? ->]]. }
    destruct (decide (a = a')) as [<-|NE].
    + unfold pfacts. destruct (iv_peers s !! a) as [p|] eqn:E.
      * destruct (f_some _ _ _ _ X p E) as (p' & -> & [(C & ->)|(C & Q1 & Q2)] & O); [left|right; left]; repeat split; auto.
      * destruct (f_none _ _ _ _ X E). auto.
    + apply pfacts_same; [done| |by rewrite (f_other _ _ _ _ X)|].
      * apply count_zero. intros y Hy. destruct (f_outs _ _ _ _ X y Hy) as [[? ->]|[? ->]]; [done|]. cbn. by apply N.eqb_neq.
      * intros p E. exists p. rewrite (f_other _ _ _ _ X) by done. do 3 (split; [done|]). auto.
  - intros X. apply inv_timer_facts in X.
    assert (Za : count (acked_by a) x = 0%nat).
    { apply count_zero. intros y Hy. by destruct (t_outs _ _ _ _ _ X y Hy) as [(? & ? & _ & [->|[? ->]])|[[? ->]|(? & ? & ->)]]. }
    unfold pfacts. destruct (iv_peers s !! a) as [p|] eqn:E.
    + destruct (t_peers _ _ _ _ _ X a p E) as (p' & o' & Q & -> & Fl & _).
      assert (C : count (announces_to a) x = count (announces_to a) o').
      { apply (count_filter_about _ a); [|done]. intros z Hz. unfold about. by rewrite Hz. }
      assert (C' : count (drops a) x = count (drops a) o').
      { apply (count_filter_about _ a); [|done]. intros z Hz. unfold about. by rewrite Hz, orb_true_r. }
      apply peer_tick_facts in Q as [(-> & ->)|[(-> & -> & L)|(invs & _ & -> & -> & L & T & _)]].
      * left. rewrite C. do 4 (split; [done|]). auto.
      * rewrite C, C', !count_cons, !count_nil. cbn [announces_to drops]. rewrite N.eqb_refl. repeat split; try done. lia.
      * right. right. exists now, th, pick. rewrite C, !count_cons, !count_nil. cbn [announces_to]. rewrite N.eqb_refl. repeat split; done.
    + split; [by apply X|]. split; [|done]. apply count_zero. intros y Hy.
      destruct (t_outs _ _ _ _ _ X y Hy) as [(a2 & p2 & E2 & [->|[? ->]])|[[? ->]|(? & ? & ->)]]; try done. cbn.
      apply N.eqb_neq. intros ->. congruence.
  - destruct (announce t s) as [s1 x1] eqn:A. intros [= <- <-]. destruct (announce_facts _ _ _ _ A) as (-> & Em & Ec & _ & E1 & E2 & Ep).
    apply pfacts_same; try done; rewrite Ep, lookup_fmap; [by intros ->|]. intros p ->. eexists. split; [done|].
    split; [by destruct (ip_relay p)|]. split; [by destruct (ip_relay p)|]. intros w Hw. right. destruct (ip_relay p); [|done]. cbn.
    destruct (decide (w = t_wid t)) as [->|NE]; [rewrite lookup_insert; by eexists|by rewrite lookup_insert_ne].
  - unfold get_block, schedule_tick. intros [= <- <-]. apply pfacts_same; try done; destruct (iv_remaining s !! h); try done; intros p E; exists p; do 3 (split; [done|]); auto.
Qed.

(** Attempts are counted up to three. *)
Definition attempts_of (a : N) (s : inv) : nat := match iv_peers s !! a with Some p => ip_attempts p | None => 3 end.

Lemma run_announces a os s s' xs : inv_ok s -> (attempts_of a s <= 3)%nat -> Forall (same_session a) os -> inv_run os s = Val (s', xs) ->
  (attempts_of a s' <= 3)%nat /\
  (count (announces_to a) (concat xs) + (3 - attempts_of a s') <= (3 - attempts_of a s) + 3 * count (acked_by a) (concat xs))%nat.
Proof.
  revert s xs. induction os as [|o os IH]; intros s xs I B F R.
  - cbn in R. injection R as <- <-. cbn. lia.
  - apply run_cons in R as (s1 & x & xs1 & E & R & ->). inversion_clear F as [|? ? Ho Hos].
    pose proof (step_pfacts a _ _ _ _ I Ho E) as P. pose proof (inv_step_ok _ _ _ _ I E) as I1.
    assert (G : (attempts_of a s1 <= 3)%nat /\ (count (announces_to a) x + (3 - attempts_of a s1) <= (3 - attempts_of a s) + 3 * count (acked_by a) x)%nat).
    { unfold pfacts in P. unfold attempts_of in *. destruct (iv_peers s !! a) as [p|].
      - destruct (iv_peers s1 !! a) as [p'|].
        + destruct P as [(P1 & P2 & P3 & _)|[(P1 & P2 & P3 & _)|(? & ? & ? & _ & P1 & P2 & P3 & P4 & _)]]; lia.
        + destruct P as (P1 & P2 & _). lia.
      - destruct P as (-> & P1 & P2). lia. }
    destruct G as [G1 G2]. destruct (IH _ _ I1 G1 Hos R) as [H1 H2]. split; [done|]. cbn [concat]. rewrite !count_app. lia.
Qed.

Lemma existsb_count {A} (f : A -> bool) l : existsb f l = negb (count f l =? 0)%nat.
Proof.
  induction l as [|x l IH]; [done|]. rewrite count_cons. cbn. rewrite IH. destruct (f x); [done|]. done.
Qed.

Lemma spaced_cons_none l : spaced (None :: l) <-> spaced l.
Proof.
  split.
  - intros S i t t' E E'. by apply (S (Datatypes.S i)).
  - intros S [|i] t t' E E'; [done|]. by apply (S i).
Qed.
Lemma spaced_cons t l : spaced (Some t :: l) <-> spaced l /\ (forall t', l !! 0%nat = Some (Some t') -> t + 60000 <= t').
Proof.
  split.
  - intros S. split; [intros i u u' E E'; by apply (S (Datatypes.S i))|]. intros t' E. by apply (S 0%nat).
  - intros [S H] [|i] u u' E E'; [|by apply (S i)]. cbn in E. injection E as <-. by apply H.
Qed.

Lemma run_spaced a os s s' xs : inv_ok s -> Forall (same_session a) os -> inv_run os s = Val (s', xs) ->
  spaced (announce_logs a os xs) /\
  forall p t t', iv_peers s !! a = Some p -> ip_last p = Some t -> announce_logs a os xs !! 0%nat = Some (Some t') -> t + 60000 <= t'.
Proof.
  revert s xs. induction os as [|o os IH]; intros s xs I F R.
  - cbn in R. injection R as <- <-. split; [by intros ? ? ?|done].
  - apply run_cons in R as (s1 & x & xs1 & E & R & ->). inversion_clear F as [|? ? Ho Hos].
    pose proof (step_pfacts a _ _ _ _ I Ho E) as P. pose proof (inv_step_ok _ _ _ _ I E) as I1.
    destruct (IH _ _ I1 Hos R) as [S1 S2]. clear IH. cbn [announce_logs]. unfold announce_log. rewrite !existsb_count.
    unfold pfacts in P. destruct (iv_peers s !! a) as [p|] eqn:Ep.
    + destruct (iv_peers s1 !! a) as [p'|] eqn:Ep'.
      * destruct P as [(P1 & P2 & P3 & P4 & _)|[(P1 & P2 & P3 & P4)|(now & th & pick & -> & P1 & P2 & P3 & P4 & P5 & P6 & _)]].
        -- rewrite P1, P2. cbn [Nat.eqb negb app]. assert (match o with ITimer _ _ _ => ([] : list (option N)) | _ => [] end = []) as -> by by destruct o.
           cbn [app]. split; [done|]. intros p0 t t' [= <-] Et. by apply (S2 p' t t' eq_refl); rewrite P4.
        -- rewrite P1. destruct (count (acked_by a) x =? 0)%nat eqn:Z; [apply Nat.eqb_eq in Z; lia|]. cbn [Nat.eqb negb app].
           assert (match o with ITimer _ _ _ => ([] : list (option N)) | _ => [] end = []) as -> by by destruct o. cbn [app].
           split; [by apply spaced_cons_none|]. intros p0 t t' _ _ X. done.
        -- rewrite P1, P2. cbn [Nat.eqb negb app]. split.
           ++ apply spaced_cons. split; [done|]. intros t' X. by apply (S2 p' now t').
           ++ intros p0 t t' [= <-] Et X. cbn in X. injection X as <-. rewrite Et in P6. exact P6.
      * destruct P as (P1 & P2 & _). rewrite P1, P2. cbn [Nat.eqb negb app].
        assert (match o with ITimer _ _ _ => ([] : list (option N)) | _ => [] end = []) as -> by by destruct o. cbn [app]. split; [done|].
        intros p0 t t' _ _ X. exfalso.
        (* dropped: nothing is sent any more *)
        clear -I1 Hos R Ep' X. revert s1 xs1 I1 R Ep' X. induction os as [|o os IH]; intros s1 xs1 I1 R Ep' X; [done|].
        apply run_cons in R as (s2 & y & xs2 & E2 & R & ->). inversion_clear Hos as [|? ? Ho Hos'].
        pose proof (step_pfacts a _ _ _ _ I1 Ho E2) as P. unfold pfacts in P. rewrite Ep' in P. destruct P as (P0 & P1 & P2).
        cbn [announce_logs] in X. unfold announce_log in X. rewrite !existsb_count, P1, P2 in X. cbn [Nat.eqb negb app] in X.
        assert (Z : match o with ITimer _ _ _ => ([] : list (option N)) | _ => [] end = []) by by destruct o. rewrite Z in X. cbn [app] in X.
        eapply IH; [exact Hos'|by eapply inv_step_ok|exact R|done|exact X].
    + destruct P as (P0 & P1 & P2). rewrite P1, P2. cbn [Nat.eqb negb app].
      assert (match o with ITimer _ _ _ => ([] : list (option N)) | _ => [] end = []) as -> by by destruct o. cbn [app]. split; [done|]. done.
Qed.

(** An announced transaction stays in the peer's outbox until it is fetched
    or confirmed, or the peer is dropped. *)
Lemma run_outbox a w os s s' xs p : inv_ok s -> Forall (same_session a) os -> inv_run os s = Val (s', xs) ->
  iv_peers s !! a = Some p -> is_Some (ip_outbox p !! w) ->
  count (acked_by a) (concat xs) = 0%nat -> count (drops a) (concat xs) = 0%nat -> ~ includes w (concat xs) ->
  exists p', iv_peers s' !! a = Some p' /\ is_Some (ip_outbox p' !! w).
Proof.
  revert s xs p. induction os as [|o os IH]; intros s xs p I F R Ep Hw Ca Cd NI.
  - cbn in R. injection R as <- _. eauto.
  - apply run_cons in R as (s1 & x & xs1 & E & R & ->). inversion_clear F as [|? ? Ho Hos]. cbn [concat] in *.
    rewrite count_app in Ca, Cd. rewrite includes_app in NI.
    pose proof (step_pfacts a _ _ _ _ I Ho E) as P. pose proof (inv_step_ok _ _ _ _ I E) as I1. unfold pfacts in P. rewrite Ep in P.
    destruct (iv_peers s1 !! a) as [p'|] eqn:Ep'; [|lia].
    assert (X : is_Some (ip_outbox p' !! w)).
    { destruct P as [(_ & _ & _ & _ & O)|[(_ & C & _)|(? & ? & ? & _ & _ & _ & _ & _ & _ & _ & O)]]; [|lia|by rewrite O].
      destruct (O w Hw); tauto. }
    eapply IH; [exact I1|done|exact R|exact Ep'|exact X|lia|lia|tauto].
Qed.

Theorem announced_until os s outs t s1 y a p os' s2 xs now th pick s3 x :
  inv_reach os s outs -> inv_step (IAnnounce t) s = Val (s1, y) ->
  iv_peers s !! a = Some p -> ip_relay p = true ->
  inv_run os' s1 = Val (s2, xs) -> Forall (same_session a) os' ->
  count (acked_by a) (concat xs) = 0%nat -> count (drops a) (concat xs) = 0%nat -> ~ includes (t_wid t) (concat xs) ->
  inv_step (ITimer now th pick) s2 = Val (s3, x) ->
  exists p2, iv_peers s2 !! a = Some p2 /\
    (default 0 (ip_last p2) + 60000 <= now ->
      IoTimedOut a ∈ x \/ exists invs t', iv_mempool s2 !! t_wid t = Some t' /\ IoInv a invs ∈ x /\ (if ip_wtx p2 then InvWTx (t_wid t) else InvTx (t_id t')) ∈ invs).
Proof.
  intros R EA Ep Hr R' F Ca Cd NI ET. pose proof (inv_run_ok _ _ _ _ inv0_ok R) as I.
  pose proof (inv_step_ok _ _ _ _ I EA) as I1. cbn [inv_step] in EA. destruct (announce t s) as [s1' y'] eqn:A. injection EA as -> ->.
  destruct (announce_facts _ _ _ _ A) as (_ & Em & _ & _ & _ & _ & Eps).
  assert (Ep1 : iv_peers s1 !! a = Some (set_outbox (<[t_wid t := t_id t]> (ip_outbox p)) p)) by by rewrite Eps, lookup_fmap, Ep; cbn; rewrite Hr.
  destruct (run_outbox a (t_wid t) os' s1 s2 xs _ I1 F R' Ep1) as (p2 & Ep2 & Hw2); try done.
  { cbn. rewrite lookup_insert. by eexists. }
  exists p2. split; [done|]. intros L. pose proof (inv_run_ok _ _ _ _ I1 R') as I2. cbn [inv_step] in ET. apply inv_timer_facts in ET.
  destruct (t_peers _ _ _ _ _ ET a p2 Ep2) as (p' & o' & Q & _ & _ & Sub).
  assert (NE : ip_outbox p2 <> ∅) by (intros Z; rewrite Z, lookup_empty in Hw2; by destruct Hw2).
  pose proof Q as Q'. unfold peer_tick in Q. rewrite bool_decide_eq_false_2 in Q by done.
  assert ((now - default 0 (ip_last p2) <? rebroadcast_timeout) = false) as X by (apply N.ltb_ge; unfold rebroadcast_timeout; lia). rewrite X in Q.
  destruct (max_attempts <=? ip_attempts p2)%nat.
  - injection Q as <- <-. left. apply Sub. by left.
  - right. destruct (announced (iv_mempool s2) p2) as [invs|] eqn:An; [|done]. cbn in Q. injection Q as <- <-.
    destruct I2 as (J1 & J2 & _). destruct (J2 a p2 (t_wid t) Ep2 Hw2) as [t' Ht'].
    exists invs, t'. split; [done|]. split; [apply Sub; by left|]. pose proof (announced_all _ _ _ _ _ An Hw2 Ht') as G.
    by rewrite (J1 _ _ Ht') in G.
Qed.

Theorem session_announces os s outs a n r w s1 y os' s' xs : inv_reach os s outs ->
  inv_step (INegotiated a n r w) s = Val (s1, y) -> inv_run os' s1 = Val (s', xs) -> Forall (same_session a) os' ->
  (count (announces_to a) (concat xs) <= 3 * (1 + count (acked_by a) (concat xs)))%nat.
Proof.
  intros R E R' F. pose proof (inv_run_ok _ _ _ _ inv0_ok R) as I. pose proof (inv_step_ok _ _ _ _ I E) as I1.
  assert (A : attempts_of a s1 = 0%nat).
  { cbn [inv_step] in E. unfold inv_negotiated, schedule_tick in E. injection E as <- _. unfold attempts_of. cbn. by rewrite lookup_insert. }
  destruct (run_announces a os' s1 s' xs I1 ltac:(lia) F R') as [_ B]. lia.
Qed.

Theorem last_block_completes os s outs b hof h t s' x : inv_reach os s outs -> inv_step (IBlock b hof) s = Val (s', x) ->
  iv_remaining s = {[b_hash b := t]} -> hof (b_hash b) = Some h ->
  forall h' b', (h', b') ∈ processed x <-> <[h := b]> (iv_received s) !! h' = Some b'.
Proof.
  intros _ E Er Eh. cbn [inv_step] in E.
  assert (D : delete (b_hash b) (iv_remaining s) = ∅) by (rewrite Er; apply delete_singleton).
  apply received_block_facts in E as [(_ & _ & X)|(t0 & Et & [(_ & _ & X)|(h0 & X & [(X2 & _)|(_ & _ & _ & _ & _ & L)])])].
  - rewrite Er, lookup_singleton in X. done.
  - congruence.
  - done.
  - rewrite Eh in X. injection X as <-. exact L.
Qed.
