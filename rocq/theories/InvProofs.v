(** Proofs about the inventory manager. *)
From Coq Require Import Sorting.Sorted.
From Verif Require Import Base SortProofs UtilProofs FeeModel FeeSpec FeeProofs InvModel InvSpec.
Open Scope N_scope.

Definition inv_ok (s : inv) : Prop :=
  (forall w t, iv_mempool s !! w = Some t -> t_wid t = w) /\
  (forall a p w, iv_peers s !! a = Some p -> is_Some (ip_outbox p !! w) -> is_Some (iv_mempool s !! w)) /\
  est_inv (iv_est s).

Lemma count_app {A} (f : A -> bool) l l' : count f (l ++ l') = (count f l + count f l')%nat.
Proof. unfold count. by rewrite List.filter_app, app_length. Qed.
Lemma count_cons {A} (f : A -> bool) x l : count f (x :: l) = ((if f x then 1 else 0) + count f l)%nat.
Proof. unfold count. cbn. by destruct (f x). Qed.
Lemma count_nil {A} (f : A -> bool) : count f [] = 0%nat.
Proof. done. Qed.
Lemma processed_app x y : processed (x ++ y) = processed x ++ processed y.
Proof. apply omap_app. Qed.

Definition mcount (txid : N) (m : gmap N tx) : nat := size (filter (fun p => t_id p.2 = txid) m).

Lemma mcount_insert txid w t m :
  (mcount txid (<[w := t]> m) <= mcount txid m + (if (t_id t =? txid)%N then 1 else 0))%nat.
Proof.
  unfold mcount. destruct (N.eqb_spec (t_id t) txid) as [E|E].
  - rewrite map_filter_insert_True by done. rewrite map_size_insert. case_match; cbn; lia.
  - rewrite map_filter_insert_False by done. rewrite Nat.add_0_r, map_filter_delete, map_size_delete.
    case_match; cbn; lia.
Qed.
Lemma mcount_delete txid w t m : m !! w = Some t ->
  mcount txid m = (mcount txid (delete w m) + (if (t_id t =? txid)%N then 1 else 0))%nat.
Proof.
  intros E. unfold mcount. rewrite map_filter_delete, map_size_delete.
  destruct (N.eqb_spec (t_id t) txid) as [Q|Q].
  - assert (X : filter (fun p : N * tx => t_id p.2 = txid) m !! w = Some t) by by apply map_filter_lookup_Some.
    rewrite X. assert (size (filter (fun p : N * tx => t_id p.2 = txid) m) <> 0%nat).
    { intros Z. apply map_size_empty_inv in Z. rewrite Z in X. by rewrite lookup_empty in X. }
    lia.
  - assert (X : filter (fun p : N * tx => t_id p.2 = txid) m !! w = None).
    { apply map_filter_lookup_None. right. intros x Ex. rewrite E in Ex. injection Ex as <-. done. }
    rewrite X. cbn. lia.
Qed.

(** ** Announcing *)
Lemma announce_facts t s s' o : announce t s = (s', o) ->
  o = [IoTimer 1000] /\
  iv_mempool s' = <[t_wid t := t]> (iv_mempool s) /\ iv_confirmed s' = iv_confirmed s /\
  iv_est s' = iv_est s /\ iv_remaining s' = iv_remaining s /\ iv_received s' = iv_received s /\
  iv_peers s' = (fun p => if ip_relay p then set_outbox (<[t_wid t := t_id t]> (ip_outbox p)) p else p) <$> iv_peers s.
Proof. unfold announce, schedule_tick. intros [= <- <-]. repeat split. Qed.

Lemma announce_ok t s s' o : inv_ok s -> announce t s = (s', o) -> inv_ok s'.
Proof.
  intros (I1 & I2 & I3) A. destruct (announce_facts _ _ _ _ A) as (_ & Em & _ & Ee & _ & _ & Ep).
  split; [|split]; rewrite ?Em, ?Ee, ?Ep; [| |done].
  - intros w t' E. apply lookup_insert_Some in E as [[<- <-]|[_ E]]; [done|by apply I1].
  - intros a p w E Hw. rewrite lookup_fmap in E. destruct (iv_peers s !! a) as [p0|] eqn:E0; [|done].
    cbn in E. injection E as <-. destruct (decide (w = t_wid t)) as [->|NE]; [rewrite lookup_insert; by eexists|].
    rewrite lookup_insert_ne by done. apply (I2 a p0); [done|].
    destruct (ip_relay p0); [|done]. cbn in Hw. by rewrite lookup_insert_ne in Hw.
Qed.

Lemma revert_txs_facts ts s s' o : revert_txs ts s = (s', o) ->
  (inv_ok s -> inv_ok s') /\
  iv_confirmed s' = iv_confirmed s /\ iv_est s' = iv_est s /\ iv_remaining s' = iv_remaining s /\ iv_received s' = iv_received s /\
  processed o = [] /\ (forall txid, count (confirms txid) o = 0%nat) /\
  (forall a, count (announces_to a) o = 0%nat /\ count (acked_by a) o = 0%nat /\ count (drops a) o = 0%nat) /\
  (forall w, tracked w s -> tracked w s') /\
  (forall t, t ∈ ts -> tracked (t_wid t) s' /\ IoStatus (t_id t) (StReverted t) ∈ o) /\
  (forall txid, mcount txid (iv_mempool s') <= mcount txid (iv_mempool s) + count (reverts txid) o)%nat /\
  (forall a p, iv_peers s !! a = Some p -> exists p', iv_peers s' !! a = Some p' /\ ip_attempts p' = ip_attempts p /\ ip_last p' = ip_last p /\
     forall w, is_Some (ip_outbox p !! w) -> is_Some (ip_outbox p' !! w)) /\
  (forall a, iv_peers s !! a = None -> iv_peers s' !! a = None).
Proof.
  revert s s' o. induction ts as [|t ts IH]; intros s s' o; cbn [revert_txs].
  { intros [= <- <-]. do 9 (split; [done|]). split; [intros t Ht; by apply elem_of_nil in Ht|].
    split; [intros; rewrite count_nil; lia|]. split; [|done]. intros a p E. exists p. repeat split; done. }
  destruct (announce t s) as [s1 o1] eqn:A. destruct (revert_txs ts s1) as [s2 o2] eqn:R. intros [= <- <-].
  destruct (announce_facts _ _ _ _ A) as (-> & Em & Ec & Ee & Er & Eq & Ep).
  destruct (IH _ _ _ R) as (K1 & K2 & K3 & K4 & K5 & K6 & K7 & K8 & K9 & K10 & K11 & K12 & K13).
  split; [intros I; apply K1; by eapply announce_ok|].
  split; [congruence|]. split; [congruence|]. split; [congruence|]. split; [congruence|].
  split; [rewrite processed_app; exact K6|].
  split; [intros txid; rewrite count_app, count_cons; cbn; apply K7|].
  split; [intros a; rewrite !count_app, !count_cons; cbn; apply K8|].
  assert (Tr : forall w, tracked w s -> tracked w s1).
  { intros w [t' Hw]. unfold tracked. rewrite Em. destruct (decide (w = t_wid t)) as [->|NE].
    - rewrite lookup_insert. by eexists.
    - rewrite lookup_insert_ne by done. by eexists. }
  split; [intros w Hw; by apply K9, Tr|].
  split.
  { intros t' Ht. apply elem_of_cons in Ht as [->|Ht].
    - split; [|apply elem_of_app; right; by left]. apply K9. exists t. by rewrite Em, lookup_insert.
    - destruct (K10 _ Ht) as [X Y]. split; [done|]. apply elem_of_app. right. by right. }
  split.
  { intros txid. specialize (K11 txid). rewrite count_app, !count_cons, count_nil. cbn [reverts]. 
    pose proof (mcount_insert txid (t_wid t) t (iv_mempool s)) as G. rewrite <-Em in G. lia. }
  split.
  { intros a p E. destruct (K12 a (if ip_relay p then set_outbox (<[t_wid t := t_id t]> (ip_outbox p)) p else p)) as (p' & E' & Q1 & Q2 & Q3).
    { by rewrite Ep, lookup_fmap, E. }
    exists p'. split; [done|]. rewrite Q1, Q2. split; [by destruct (ip_relay p)|]. split; [by destruct (ip_relay p)|].
    intros w Hw. apply Q3. destruct (ip_relay p); [|done]. cbn. destruct (decide (w = t_wid t)) as [->|NE].
    - rewrite lookup_insert. by eexists.
    - by rewrite lookup_insert_ne. }
  intros a E. apply K13. by rewrite Ep, lookup_fmap, E.
Qed.

(** ** Reverting *)
Lemma block_reverted_facts h s s' o : inv_ok s -> block_reverted h s = Val (s', o) ->
  inv_ok s' /\
  iv_remaining s' = iv_remaining s /\ iv_received s' = iv_received s /\
  processed o = [] /\ (forall txid, count (confirms txid) o = 0%nat) /\
  (forall a, count (announces_to a) o = 0%nat /\ count (acked_by a) o = 0%nat /\ count (drops a) o = 0%nat) /\
  (forall w, tracked w s -> tracked w s') /\
  (forall t, confirmed_at h t s -> tracked (t_wid t) s' /\ IoStatus (t_id t) (StReverted t) ∈ o) /\
  (forall h' t, h' <> h -> confirmed_at h' t s -> confirmed_at h' t s') /\
  (forall txid, mcount txid (iv_mempool s') <= mcount txid (iv_mempool s) + count (reverts txid) o)%nat /\
  (forall a p, iv_peers s !! a = Some p -> exists p', iv_peers s' !! a = Some p' /\ ip_attempts p' = ip_attempts p /\ ip_last p' = ip_last p /\
     forall w, is_Some (ip_outbox p !! w) -> is_Some (ip_outbox p' !! w)) /\
  (forall a, iv_peers s !! a = None -> iv_peers s' !! a = None).
Proof.
  intros I. unfold block_reverted. set (h0 := if h =? 0 then u64_max else h - 1).
  destruct (fee_rollback_val h0 (iv_est s) (proj2 (proj2 I))) as (e & -> & Ie & _). cbn [mbind_M].
  assert (I1 : inv_ok (set_est e s)) by (destruct I as (A & B & _); by split; [|split]).
  change (iv_confirmed (set_est e s)) with (iv_confirmed s).
  destruct (iv_confirmed s !! h) as [ts|] eqn:E.
  - destruct (revert_txs ts (set_confirmed (delete h (iv_confirmed s)) (set_est e s))) as [s1 o1] eqn:R. intros X. injection X as -> ->.
    destruct (revert_txs_facts _ _ _ _ R) as (K1 & K2 & K3 & K4 & K5 & K6 & K7 & K8 & K9 & K10 & K11 & K12 & K13).
    split; [by apply K1|]. split; [done|]. split; [done|]. split; [done|]. split; [done|]. split; [done|].
    split; [intros w Hw; by apply K9|].
    split; [intros t (l & El & Ht); rewrite E in El; injection El as <-; by apply K10|].
    split; [intros h' t NE (l & El & Ht); exists l; split; [|done]; rewrite K2; cbn; by rewrite lookup_delete_ne|].
    split; [done|]. split; [done|]. done.
  - intros X. injection X as <- <-. split; [done|]. split; [done|]. split; [done|]. split; [done|]. split; [done|].
    split; [done|]. split; [done|].
    split; [intros t (l & El & Ht); by rewrite E in El|].
    split; [done|]. split; [intros; rewrite count_nil; cbn; lia|]. split; [|done].
    intros a p Ep. exists p. repeat split; done.
Qed.

Lemma blocks_reverted_facts hs s s' o : inv_ok s -> blocks_reverted hs s = Val (s', o) ->
  inv_ok s' /\
  iv_remaining s' = iv_remaining s /\ iv_received s' = iv_received s /\
  processed o = [] /\ (forall txid, count (confirms txid) o = 0%nat) /\
  (forall a, count (announces_to a) o = 0%nat /\ count (acked_by a) o = 0%nat /\ count (drops a) o = 0%nat) /\
  (forall w, tracked w s -> tracked w s') /\
  (forall h t, h ∈ hs -> confirmed_at h t s -> tracked (t_wid t) s' /\ IoStatus (t_id t) (StReverted t) ∈ o) /\
  (forall h' t, h' ∉ hs -> confirmed_at h' t s -> confirmed_at h' t s') /\
  (forall txid, mcount txid (iv_mempool s') <= mcount txid (iv_mempool s) + count (reverts txid) o)%nat /\
  (forall a p, iv_peers s !! a = Some p -> exists p', iv_peers s' !! a = Some p' /\ ip_attempts p' = ip_attempts p /\ ip_last p' = ip_last p /\
     forall w, is_Some (ip_outbox p !! w) -> is_Some (ip_outbox p' !! w)) /\
  (forall a, iv_peers s !! a = None -> iv_peers s' !! a = None).
Proof.
  revert s s' o. induction hs as [|h hs IH]; intros s s' o I; cbn [blocks_reverted].
  { intros [= <- <-]. do 7 (split; [done|]). split; [intros h t Hh; by apply elem_of_nil in Hh|]. split; [done|].
    split; [intros; rewrite count_nil; lia|]. split; [|done]. intros a p E. exists p. repeat split; done. }
  destruct (block_reverted h s) as [[s1 o1]|] eqn:B; [|done]. cbn [mbind_M].
  destruct (blocks_reverted hs s1) as [[s2 o2]|] eqn:R; [|done]. cbn [mbind_M]. intros X. injection X as <- <-.
  destruct (block_reverted_facts _ _ _ _ I B) as (J1 & J4 & J5 & J6 & J7 & J8 & J9 & J10 & J14 & J11 & J12 & J13).
  destruct (IH _ _ _ J1 R) as (K1 & K4 & K5 & K6 & K7 & K8 & K9 & K10 & K14 & K11 & K12 & K13).
  split; [done|]. split; [congruence|]. split; [congruence|].
  split; [by rewrite processed_app, J6, K6|].
  split; [intros txid; by rewrite count_app, J7, K7|].
  split; [intros a; destruct (J8 a) as (Q1 & Q2 & Q3), (K8 a) as (R1 & R2 & R3); rewrite !count_app; lia|].
  split; [intros w Hw; by apply K9, J9|].
  split.
  { intros h' t Hh Hc. destruct (decide (h' = h)) as [->|NE].
    - destruct (J10 t Hc) as [X Y]. split; [by apply K9|]. apply elem_of_app. by left.
    - apply elem_of_cons in Hh as [->|Hh]; [done|]. destruct (K10 h' t Hh (J14 h' t NE Hc)) as [X Y].
      split; [done|]. apply elem_of_app. by right. }
  split.
  { intros h' t Hh Hc. apply not_elem_of_cons in Hh as [NE Hh]. apply K14; [done|]. by apply J14. }
  split; [intros txid; specialize (J11 txid); specialize (K11 txid); rewrite count_app; lia|].
  split; [|intros a E; by apply K13, J13].
  intros a p E. destruct (J12 a p E) as (p1 & E1 & Q1 & Q2 & Q3). destruct (K12 a p1 E1) as (p2 & E2 & R1 & R2 & R3).
  exists p2. split; [done|]. split; [congruence|]. split; [congruence|]. auto.
Qed.

(** Reverting does not panic. *)
Lemma blocks_reverted_val hs s : inv_ok s -> exists r, blocks_reverted hs s = Val r.
Proof.
  revert s. induction hs as [|h hs IH]; intros s I; cbn [blocks_reverted]; [by eexists|].
  destruct (block_reverted h s) as [[s1 o1]|p] eqn:B.
  - cbn [mbind_M]. destruct (block_reverted_facts _ _ _ _ I B) as (I1 & _). destruct (IH _ I1) as [[s2 o2] ->]. cbn [mbind_M]. by eexists.
  - unfold block_reverted in B.
    destruct (fee_rollback_val (if h =? 0 then u64_max else h - 1) (iv_est s) (proj2 (proj2 I))) as (e & Ee & _). rewrite Ee in B. cbn [mbind_M] in B.
    by destruct (iv_confirmed (set_est e s) !! h).
Qed.

(** ** Processing blocks *)
Definition in_txs (w : N) (ts : list tx) : Prop := exists t, t ∈ ts /\ t_wid t = w.

Record conf (hash h : N) (ts : list tx) (s s' : inv) (o : list iout) : Prop := {
  c_ok : inv_ok s -> inv_ok s';
  c_est : iv_est s' = iv_est s;
  c_rem : iv_remaining s' = iv_remaining s;
  c_rec : iv_received s' = iv_received s;
  c_proc : processed o = [];
  c_outs : forall x, x ∈ o -> exists t t', t ∈ ts /\ iv_mempool s !! t_wid t = Some t' /\ x = IoStatus (t_id t') (StConfirmed hash h);
  c_pool : forall w t, iv_mempool s' !! w = Some t -> iv_mempool s !! w = Some t;
  c_track : forall w, tracked w s -> tracked w s' \/ in_txs w ts;
  c_gone : forall w, in_txs w ts -> iv_mempool s' !! w = None;
  c_done : forall w t, in_txs w ts -> iv_mempool s !! w = Some t ->
    confirmed_at h t s' /\ IoStatus (t_id t) (StConfirmed hash h) ∈ o;
  c_keep : forall h' t, confirmed_at h' t s -> confirmed_at h' t s';
  c_count : forall txid, (count (confirms txid) o + mcount txid (iv_mempool s') = mcount txid (iv_mempool s))%nat;
  c_peers : forall a p, iv_peers s !! a = Some p -> exists p', iv_peers s' !! a = Some p' /\ ip_attempts p' = ip_attempts p /\ ip_last p' = ip_last p /\
     forall w, is_Some (ip_outbox p !! w) -> ~ in_txs w ts -> is_Some (ip_outbox p' !! w);
  c_nopeer : forall a, iv_peers s !! a = None -> iv_peers s' !! a = None
}.

Lemma confirm_tx_facts hash h t s s' o : confirm_tx hash h t s = (s', o) -> conf hash h [t] s s' o.
Proof.
  assert (IT : forall w, in_txs w [t] <-> w = t_wid t).
  { intros w. split.
    - intros (t' & Ht & <-). apply elem_of_list_singleton in Ht as ->. done.
    - intros ->. exists t. split; [by left|done]. }
  unfold confirm_tx. destruct (iv_mempool s !! t_wid t) as [t'|] eqn:E; intros [= <- <-].
  - split; cbn [iv_mempool iv_peers iv_confirmed iv_est iv_remaining iv_received set_confirmed set_peers set_mempool]; try done.
    + intros (A & B & C). split; [|split]; [| |done]; cbn [iv_mempool iv_peers set_confirmed set_peers set_mempool].
      * intros w x Hx. apply lookup_delete_Some in Hx as [_ Hx]. by apply A.
      * intros a p w Ep Hw. rewrite lookup_fmap in Ep. destruct (iv_peers s !! a) as [p0|] eqn:E0; [|done]. cbn in Ep. injection Ep as <-.
        cbn in Hw. destruct (decide (w = t_wid t)) as [->|NE]; [by rewrite lookup_delete in Hw; destruct Hw|].
        rewrite lookup_delete_ne in Hw by done. rewrite lookup_delete_ne by done. by eapply B.
    + intros x Hx. apply elem_of_list_singleton in Hx as ->. exists t, t'. split; [by left|done].
    + intros w x Hx. by apply lookup_delete_Some in Hx as [_ Hx].
    + intros w [x Hx]. rewrite IT. destruct (decide (w = t_wid t)) as [->|NE]; [by right|left].
      exists x. cbn. by rewrite lookup_delete_ne.
    + intros w. rewrite IT. intros ->. apply lookup_delete.
    + intros w x. rewrite IT. intros -> Hx. rewrite E in Hx. injection Hx as <-. split; [|by left].
      eexists. cbn. rewrite lookup_insert. split; [done|]. apply elem_of_app. right. by left.
    + intros h' x (l & El & Hx). destruct (decide (h' = h)) as [->|NE].
      * eexists. cbn. rewrite lookup_insert. split; [done|]. rewrite El. cbn. apply elem_of_app. by left.
      * exists l. cbn. by rewrite lookup_insert_ne.
    + intros txid. rewrite (mcount_delete txid _ _ _ E), count_cons, count_nil. cbn [confirms]. lia.
    + intros a p Ep. exists (set_outbox (delete (t_wid t) (ip_outbox p)) p). rewrite lookup_fmap, Ep. split; [done|]. split; [done|]. split; [done|].
      intros w Hw. rewrite IT. intros NE. cbn. by rewrite lookup_delete_ne.
    + intros a Ep. by rewrite lookup_fmap, Ep.
  - split; try done.
    + intros x Hx. by apply elem_of_nil in Hx.
    + intros w Hw. by left.
    + intros w. rewrite IT. by intros ->.
    + intros w x. rewrite IT. intros -> Hx. by rewrite E in Hx.
    + intros a p Ep. exists p. repeat split; try done.
Qed.

Lemma confirm_txs_facts hash h ts s s' o : confirm_txs hash h ts s = (s', o) -> conf hash h ts s s' o.
Proof.
  revert s s' o. induction ts as [|t ts IH]; intros s s' o; cbn [confirm_txs].
  { intros [= <- <-]. split; try done.
    - intros x Hx. by apply elem_of_nil in Hx.
    - intros w Hw. by left.
    - intros w (t & Ht & _). by apply elem_of_nil in Ht.
    - intros w t (t' & Ht & _). by apply elem_of_nil in Ht.
    - intros a p Ep. exists p. repeat split; try done. }
  destruct (confirm_tx hash h t s) as [s1 o1] eqn:A. destruct (confirm_txs hash h ts s1) as [s2 o2] eqn:B. intros [= <- <-].
  apply confirm_tx_facts in A. specialize (IH _ _ _ B).
  assert (IT : forall w, in_txs w (t :: ts) <-> in_txs w [t] \/ in_txs w ts).
  { intros w. unfold in_txs. setoid_rewrite elem_of_cons. setoid_rewrite elem_of_nil. split.
    - intros (x & [->|Hx] & <-); [left|right]; eexists; split; try done. by left.
    - intros [(x & [->|[]] & <-)|(x & Hx & <-)]; eexists; split; try done; [by left|by right]. }
  split.
  - intros I. by apply IH, A.
  - by rewrite (c_est _ _ _ _ _ _ IH), (c_est _ _ _ _ _ _ A).
  - by rewrite (c_rem _ _ _ _ _ _ IH), (c_rem _ _ _ _ _ _ A).
  - by rewrite (c_rec _ _ _ _ _ _ IH), (c_rec _ _ _ _ _ _ A).
  - by rewrite processed_app, (c_proc _ _ _ _ _ _ IH), (c_proc _ _ _ _ _ _ A).
  - intros x Hx. apply elem_of_app in Hx as [Hx|Hx].
    + destruct (c_outs _ _ _ _ _ _ A x Hx) as (u & u' & Hu & Eu & ->). apply elem_of_list_singleton in Hu as ->.
      exists t, u'. split; [by left|done].
    + destruct (c_outs _ _ _ _ _ _ IH x Hx) as (u & u' & Hu & Eu & ->). exists u, u'. split; [by right|]. split; [|done].
      by apply (c_pool _ _ _ _ _ _ A).
  - intros w x Hx. by apply (c_pool _ _ _ _ _ _ A), (c_pool _ _ _ _ _ _ IH).
  - intros w Hw. rewrite IT. destruct (c_track _ _ _ _ _ _ A w Hw) as [X|X]; [|by right; left].
    destruct (c_track _ _ _ _ _ _ IH w X) as [Y|Y]; [by left|by right; right].
  - intros w. rewrite IT. intros [X|X]; [|by apply (c_gone _ _ _ _ _ _ IH)].
    destruct (iv_mempool s2 !! w) as [y|] eqn:Y; [|done]. apply (c_pool _ _ _ _ _ _ IH) in Y.
    by rewrite (c_gone _ _ _ _ _ _ A w X) in Y.
  - intros w x. rewrite IT. intros X Hx. destruct (decide (w = t_wid t)) as [->|NE].
    + destruct (c_done _ _ _ _ _ _ A (t_wid t) x) as [P Q]; [exists t; split; [by left|done]|done|].
      split; [by apply (c_keep _ _ _ _ _ _ IH)|]. apply elem_of_app. by left.
    + destruct X as [(u & Hu & <-)|X]; [by apply elem_of_list_singleton in Hu as ->|].
      destruct (c_done _ _ _ _ _ _ IH w x X) as [P Q].
      { destruct (c_track _ _ _ _ _ _ A w) as [[y Y]|(u & Hu & Eu)]; [by exists x| |].
        - rewrite Y. apply (c_pool _ _ _ _ _ _ A) in Y. congruence.
        - apply elem_of_list_singleton in Hu as ->. done. }
      split; [done|]. apply elem_of_app. by right.
  - intros h' x Hx. by apply (c_keep _ _ _ _ _ _ IH), (c_keep _ _ _ _ _ _ A).
  - intros txid. rewrite count_app. pose proof (c_count _ _ _ _ _ _ IH txid). pose proof (c_count _ _ _ _ _ _ A txid). lia.
  - intros a p Ep. destruct (c_peers _ _ _ _ _ _ A a p Ep) as (p1 & E1 & Q1 & Q2 & Q3).
    destruct (c_peers _ _ _ _ _ _ IH a p1 E1) as (p2 & E2 & R1 & R2 & R3). exists p2.
    split; [done|]. split; [congruence|]. split; [congruence|]. intros w Hw. rewrite IT. intros N. apply R3; [apply Q3|]; tauto.
  - intros a Ep. by apply (c_nopeer _ _ _ _ _ _ IH), (c_nopeer _ _ _ _ _ _ A).
Qed.

Lemma includes_app w x y : includes w (x ++ y) <-> includes w x \/ includes w y.
Proof.
  unfold includes. rewrite processed_app. setoid_rewrite elem_of_app. split.
  - intros (h & b & t & [H|H] & R); [left|right]; eauto.
  - intros [(h & b & t & H & R)|(h & b & t & H & R)]; exists h, b, t; tauto.
Qed.
Lemma includes_none w x : processed x = [] -> ~ includes w x.
Proof. intros E (h & b & t & H & _). rewrite E in H. by apply elem_of_nil in H. Qed.

Lemma count_zero {A} (f : A -> bool) l : (forall x, x ∈ l -> f x = false) -> count f l = 0%nat.
Proof. intros F. unfold count. by rewrite (lfilter_none f l F). Qed.

Record procd (s s' : inv) (o : list iout) : Prop := {
  r_ok : inv_ok s -> inv_ok s';
  r_rem : iv_remaining s' = iv_remaining s;
  r_outs : forall x, x ∈ o -> (exists b h f, x = IoBlock b h f) \/
    exists h b t t', (h, b) ∈ processed o /\ t ∈ b_txs b /\ iv_mempool s !! t_wid t = Some t' /\
      x = IoStatus (t_id t') (StConfirmed (b_hash b) h);
  r_pool : forall w t, iv_mempool s' !! w = Some t -> iv_mempool s !! w = Some t;
  r_track : forall w, tracked w s -> tracked w s' \/ includes w o;
  r_gone : forall w, includes w o -> iv_mempool s' !! w = None;
  r_done : forall w t, includes w o -> iv_mempool s !! w = Some t ->
    exists h b, (h, b) ∈ processed o /\ in_txs w (b_txs b) /\ confirmed_at h t s' /\
      IoStatus (t_id t) (StConfirmed (b_hash b) h) ∈ o;
  r_keep : forall h' t, confirmed_at h' t s -> confirmed_at h' t s';
  r_count : forall txid, (count (confirms txid) o + mcount txid (iv_mempool s') = mcount txid (iv_mempool s))%nat;
  r_peers : forall a p, iv_peers s !! a = Some p -> exists p', iv_peers s' !! a = Some p' /\ ip_attempts p' = ip_attempts p /\ ip_last p' = ip_last p /\
     forall w, is_Some (ip_outbox p !! w) -> ~ includes w o -> is_Some (ip_outbox p' !! w);
  r_nopeer : forall a, iv_peers s !! a = None -> iv_peers s' !! a = None
}.

Lemma procd_refl s : procd s s [].
Proof.
  split; try done.
  - intros x Hx. by apply elem_of_nil in Hx.
  - intros w Hw. by left.
  - intros w Hw. by apply includes_none in Hw.
  - intros w t Hw. by apply includes_none in Hw.
  - intros a p Ep. exists p. repeat split; try done.
Qed.

Lemma procd_trans s1 s2 s3 o1 o2 : procd s1 s2 o1 -> procd s2 s3 o2 -> procd s1 s3 (o1 ++ o2).
Proof.
  intros A B. split.
  - intros I. by apply B, A.
  - by rewrite (r_rem _ _ _ B), (r_rem _ _ _ A).
  - intros x Hx. rewrite processed_app. setoid_rewrite elem_of_app. apply elem_of_app in Hx as [Hx|Hx].
    + destruct (r_outs _ _ _ A x Hx) as [X|(h & b & t & t' & X)]; [by left|right; exists h, b, t, t'; tauto].
    + destruct (r_outs _ _ _ B x Hx) as [X|(h & b & t & t' & X & Y & Z & W)]; [by left|right; exists h, b, t, t'].
      split; [tauto|]. split; [done|]. split; [|done]. by apply (r_pool _ _ _ A).
  - intros w t Hw. by apply (r_pool _ _ _ A), (r_pool _ _ _ B).
  - intros w Hw. rewrite includes_app. destruct (r_track _ _ _ A w Hw) as [X|X]; [|tauto].
    destruct (r_track _ _ _ B w X); tauto.
  - intros w. rewrite includes_app. intros [X|X]; [|by apply (r_gone _ _ _ B)].
    destruct (iv_mempool s3 !! w) as [y|] eqn:Y; [|done]. apply (r_pool _ _ _ B) in Y. by rewrite (r_gone _ _ _ A w X) in Y.
  - intros w t X Hw. rewrite processed_app. setoid_rewrite elem_of_app.
    destruct (r_track _ _ _ A w) as [[t' Ht]|X1]; [by exists t| |].
    + assert (t' = t) as -> by (apply (r_pool _ _ _ A) in Ht; congruence).
      rewrite includes_app in X. destruct X as [X|X]; [by rewrite (r_gone _ _ _ A w X) in Ht|].
      destruct (r_done _ _ _ B w t X Ht) as (h & b & P1 & P2 & P3 & P4). exists h, b. tauto.
    + destruct (r_done _ _ _ A w t X1 Hw) as (h & b & P1 & P2 & P3 & P4). exists h, b.
      split; [tauto|]. split; [done|]. split; [|tauto]. by apply (r_keep _ _ _ B).
  - intros h t X. by apply (r_keep _ _ _ B), (r_keep _ _ _ A).
  - intros txid. rewrite count_app. pose proof (r_count _ _ _ A txid). pose proof (r_count _ _ _ B txid). lia.
  - intros a p Ep. destruct (r_peers _ _ _ A a p Ep) as (p1 & E1 & Q1 & Q2 & Q3).
    destruct (r_peers _ _ _ B a p1 E1) as (p2 & E2 & R1 & R2 & R3). exists p2.
    split; [done|]. split; [congruence|]. split; [congruence|]. intros w Hw. rewrite includes_app. intros N. apply R3; [apply Q3|]; tauto.
  - intros a Ep. by apply (r_nopeer _ _ _ B), (r_nopeer _ _ _ A).
Qed.

Lemma process_block_facts h b s s' o : process_block h b s = Val (s', o) ->
  procd s s' o /\ processed o = [(h, b)] /\ iv_received s' = iv_received s.
Proof.
  unfold process_block. destruct (confirm_txs (b_hash b) h (b_txs b) s) as [s1 o1] eqn:C.
  destruct (fee_process (b_txs b) h (iv_est s1)) as [[e f]|] eqn:F; [|done]. cbn [mbind_M]. intros X. injection X as <- <-.
  apply confirm_txs_facts in C.
  assert (P : processed (o1 ++ [IoBlock b h f]) = [(h, b)]) by (rewrite processed_app, (c_proc _ _ _ _ _ _ C); done).
  assert (IC : forall w, includes w (o1 ++ [IoBlock b h f]) <-> in_txs w (b_txs b)).
  { intros w. unfold includes, in_txs. rewrite P. setoid_rewrite elem_of_list_singleton. split.
    - intros (h' & b' & t & [= -> ->] & Ht & E). by exists t.
    - intros (t & Ht & E). by exists h, b, t. }
  split; [|split; [done|by rewrite <-(c_rec _ _ _ _ _ _ C)]]. split.
  - intros I. destruct (c_ok _ _ _ _ _ _ C I) as (A & B & D). split; [done|]. split; [done|]. cbn. by eapply fee_process_inv.
  - cbn. apply C.
  - intros x Hx. apply elem_of_app in Hx as [Hx|Hx].
    + right. destruct (c_outs _ _ _ _ _ _ C x Hx) as (t & t' & Ht & E & ->). exists h, b, t, t'. rewrite P. split; [by left|done].
    + apply elem_of_list_singleton in Hx as ->. left. eauto.
  - apply C.
  - intros w Hw. rewrite IC. by apply C.
  - intros w. rewrite IC. apply C.
  - intros w t. rewrite IC, P. intros X Hw. destruct (c_done _ _ _ _ _ _ C w t X Hw) as [Y Z].
    exists h, b. split; [by left|]. split; [done|]. split; [done|]. apply elem_of_app. by left.
  - apply C.
  - intros txid. rewrite count_app, count_cons, count_nil. pose proof (c_count _ _ _ _ _ _ C txid). cbn [confirms]. cbn in *. lia.
  - intros a p Ep. destruct (c_peers _ _ _ _ _ _ C a p Ep) as (p' & X & Y & Z & W). exists p'. do 3 (split; [done|]).
    intros w. rewrite IC. apply W.
  - apply C.
Qed.

Lemma procd_received s s' o r : procd (set_received r s) s' o -> procd s s' o.
Proof. intros A. destruct A. split; assumption. Qed.

Lemma process_queue_facts hs s s' o : NoDup hs -> process_queue hs s = Val (s', o) ->
  procd s s' o /\
  processed o = omap (fun h => pair h <$> iv_received s !! h) hs /\
  (forall h, iv_received s' !! h = if bool_decide (h ∈ hs) then None else iv_received s !! h).
Proof.
  revert s s' o. induction hs as [|h hs IH]; intros s s' o ND; cbn [process_queue].
  { intros X. injection X as <- <-. split; [apply procd_refl|]. split; [done|]. intros h. by rewrite bool_decide_eq_false_2 by apply not_elem_of_nil. }
  apply NoDup_cons in ND as [Nin ND]. destruct (iv_received s !! h) as [b|] eqn:E.
  - destruct (process_block h b _) as [[s1 o1]|] eqn:B; [|done]. cbn [mbind_M].
    destruct (process_queue hs s1) as [[s2 o2]|] eqn:Q; [|done]. cbn [mbind_M]. intros X. injection X as <- <-.
    apply process_block_facts in B as (B1 & B2 & B3). destruct (IH _ _ _ ND Q) as (Q1 & Q2 & Q3).
    apply procd_received in B1. split; [by eapply procd_trans|]. cbn [set_received iv_received] in B3.
    split.
    + rewrite processed_app, B2, Q2. cbn [omap list_omap]. rewrite E. cbn. f_equal. rewrite B3.
      clear -Nin. induction hs as [|x hs IH]; [done|]. apply not_elem_of_cons in Nin as [N1 N2]. cbn. rewrite lookup_delete_ne by done.
      by rewrite IH.
    + intros h'. rewrite Q3, B3. destruct (decide (h' = h)) as [->|NE].
      * rewrite (bool_decide_eq_true_2 (h ∈ h :: hs)) by by left. rewrite lookup_delete. by case_bool_decide.
      * rewrite lookup_delete_ne by done. assert (D : bool_decide (h' ∈ h :: hs) = bool_decide (h' ∈ hs)).
        { apply bool_decide_ext. rewrite elem_of_cons. tauto. }
        by rewrite D.
  - intros Q. destruct (IH _ _ _ ND Q) as (Q1 & Q2 & Q3). split; [done|]. split.
    + rewrite Q2. cbn. by rewrite E.
    + intros h'. rewrite Q3. destruct (decide (h' = h)) as [->|NE].
      * rewrite (bool_decide_eq_true_2 (h ∈ h :: hs)) by by left. rewrite E. by case_bool_decide.
      * assert (D : bool_decide (h' ∈ h :: hs) = bool_decide (h' ∈ hs)) by (apply bool_decide_ext; rewrite elem_of_cons; tauto).
        by rewrite D.
Qed.

(** The queue processed is exactly the received blocks, by height. *)
Lemma queue_keys {A} (m : gmap N A) : NoDup (sortN (map fst (map_to_list m))) /\
  forall h, h ∈ sortN (map fst (map_to_list m)) <-> is_Some (m !! h).
Proof.
  split.
  - rewrite sortN_perm. apply NoDup_fst_map_to_list.
  - intros h. rewrite sortN_perm. rewrite elem_of_list_fmap. split.
    + intros ([h' a] & -> & Ha). apply elem_of_map_to_list in Ha. by eexists.
    + intros [a Ha]. exists (h, a). split; [done|]. by apply elem_of_map_to_list.
Qed.

Lemma queue_sorted {A} (m : gmap N A) (f : N -> option A) :
  StronglySorted N.lt (map fst (omap (fun h => pair h <$> f h) (sortN (map fst (map_to_list m))))).
Proof.
  destruct (queue_keys m) as [ND _]. pose proof (sortN_strongly (map fst (map_to_list m))) as S.
  set (l := sortN _) in *. clearbody l. induction S as [|x l S IH F]; [constructor|].
  apply NoDup_cons in ND as [Nin ND]. cbn. specialize (IH ND). destruct (f x) as [y|]; [|done]. cbn.
  constructor; [done|]. apply Forall_forall. intros z Hz. apply elem_of_list_fmap in Hz as ([z' v] & -> & Hz).
  apply elem_of_list_omap in Hz as (k & Hk & Ek). destruct (f k) as [w|] eqn:Fk; [|done]. cbn in Ek. injection Ek as <- <-.
  rewrite Forall_forall in F. specialize (F _ Hk). cbn. assert (k <> x) by (intros ->; done). lia.
Qed.

(** What a received block does. *)
Lemma received_block_facts b hof s s' o : received_block b hof s = Val (s', o) ->
  (s' = s /\ o = [] /\ iv_remaining s !! b_hash b = None) \/
  exists t, iv_remaining s !! b_hash b = Some t /\
  ((s' = set_remaining (delete (b_hash b) (iv_remaining s)) s /\ o = [] /\ hof (b_hash b) = None) \/
   exists h, hof (b_hash b) = Some h /\
   ((delete (b_hash b) (iv_remaining s) <> ∅ /\ o = [] /\
     s' = set_received (<[h := b]> (iv_received s)) (set_remaining (delete (b_hash b) (iv_remaining s)) s)) \/
    (delete (b_hash b) (iv_remaining s) = ∅ /\ iv_remaining s' = ∅ /\ iv_received s' = ∅ /\
     procd (set_received (<[h := b]> (iv_received s)) (set_remaining (delete (b_hash b) (iv_remaining s)) s)) s' o /\
     StronglySorted N.lt (map fst (processed o)) /\
     forall h' b', (h', b') ∈ processed o <-> <[h := b]> (iv_received s) !! h' = Some b'))).
Proof.
  unfold received_block. destruct (iv_remaining s !! b_hash b) as [t|] eqn:E.
  2:{ intros X. injection X as <- <-. by left. }
  intros X. right. exists t. split; [done|]. destruct (hof (b_hash b)) as [h|] eqn:Eh.
  2:{ injection X as <- <-. by left. }
  right. exists h. split; [done|]. cbn [set_remaining set_received iv_remaining iv_received] in X.
  case_bool_decide as D.
  2:{ injection X as <- <-. by left. }
  right. split; [done|]. destruct (queue_keys (<[h := b]> (iv_received s))) as [ND QK].
  destruct (process_queue_facts _ _ _ _ ND X) as (P & Q & R). cbn [iv_received set_received] in Q, R.
  split; [rewrite (r_rem _ _ _ P); exact D|]. split.
  { apply map_eq. intros k. rewrite R, lookup_empty. case_bool_decide as K; [done|]. rewrite QK in K.
    destruct (<[h := b]> (iv_received s) !! k) eqn:Ek; [|done]. exfalso. apply K. by eexists. }
  split; [exact P|]. split.
  { rewrite Q. apply queue_sorted. }
  intros h' b'. rewrite Q, elem_of_list_omap. split.
  - intros (k & Hk & Ek).
    destruct (<[h := b]> (iv_received s) !! k) as [v|] eqn:Kv; [|done]. cbn in Ek. by injection Ek as <- <-.
  - intros Hl. exists h'. split; [apply QK; by eexists|]. by rewrite Hl.
Qed.

(** ** Transactions fetched by a peer *)
Record fetch (addr : N) (s s' : inv) (o : list iout) : Prop := {
  f_rest : exists p, s' = set_peers p s;
  f_outs : forall x, x ∈ o -> (exists t, x = IoTx addr t) \/ exists txid, x = IoStatus txid (StAcknowledged addr);
  f_other : forall a, a <> addr -> iv_peers s' !! a = iv_peers s !! a;
  f_none : iv_peers s !! addr = None -> iv_peers s' !! addr = None /\ count (acked_by addr) o = 0%nat;
  f_some : forall p, iv_peers s !! addr = Some p -> exists p', iv_peers s' !! addr = Some p' /\
    (count (acked_by addr) o = 0%nat /\ p' = p \/ (0 < count (acked_by addr) o)%nat /\ ip_attempts p' = 0%nat /\ ip_last p' = None) /\
    forall w, is_Some (ip_outbox p' !! w) -> is_Some (ip_outbox p !! w)
}.

Lemma set_peers_same s : set_peers (iv_peers s) s = s.
Proof. by destruct s. Qed.

Lemma fetch_refl addr s o : (forall x, x ∈ o -> exists t, x = IoTx addr t) -> fetch addr s s o.
Proof.
  intros F. assert (C : count (acked_by addr) o = 0%nat).
  { apply count_zero. intros x Hx. by destruct (F x Hx) as [t ->]. }
  split; [exists (iv_peers s); by rewrite set_peers_same|intros x Hx; left; auto|done|done|].
  intros p E. exists p. split; [done|]. split; [by left|done].
Qed.

Lemma fetch_trans addr s1 s2 s3 o1 o2 : fetch addr s1 s2 o1 -> fetch addr s2 s3 o2 -> fetch addr s1 s3 (o1 ++ o2).
Proof.
  intros A B. split.
  - destruct (f_rest _ _ _ _ A) as [p ->]. destruct (f_rest _ _ _ _ B) as [p' ->]. by exists p'.
  - intros x Hx. apply elem_of_app in Hx as [Hx|Hx]; [by apply (f_outs _ _ _ _ A)|by apply (f_outs _ _ _ _ B)].
  - intros a Ha. by rewrite (f_other _ _ _ _ B), (f_other _ _ _ _ A).
  - intros E. rewrite count_app. destruct (f_none _ _ _ _ A E) as [E1 C1]. destruct (f_none _ _ _ _ B E1) as [E2 C2]. split; [done|lia].
  - intros p E. rewrite count_app. destruct (f_some _ _ _ _ A p E) as (p1 & E1 & D1 & O1).
    destruct (f_some _ _ _ _ B p1 E1) as (p2 & E2 & D2 & O2). exists p2. split; [done|]. split; [|auto].
    destruct D1 as [(C1 & ->)|(C1 & Q1 & R1)], D2 as [(C2 & ->)|(C2 & Q2 & R2)]; [left|right|right|right]; repeat split; try done; lia.
Qed.

Lemma acknowledge_fetch addr w txid s s' o : acknowledge addr w txid s = (s', o) -> fetch addr s s' o.
Proof.
  unfold acknowledge. destruct (iv_peers s !! addr) as [p|] eqn:E.
  2:{ intros [= <- <-]. apply fetch_refl. intros x Hx. by apply elem_of_nil in Hx. }
  destruct (ip_outbox p !! w) as [t|] eqn:Ew.
  2:{ intros [= <- <-]. apply fetch_refl. intros x Hx. by apply elem_of_nil in Hx. }
  intros [= <- <-]. split.
  - by eexists.
  - intros x Hx. apply elem_of_list_singleton in Hx as ->. right. by eexists.
  - intros a Ha. cbn. by rewrite lookup_insert_ne.
  - by rewrite E.
  - intros p0 E0. rewrite E in E0. injection E0 as <-. cbn [set_peers iv_peers]. rewrite lookup_insert. eexists. split; [done|].
    split.
    + right. rewrite count_cons. cbn [acked_by]. rewrite N.eqb_refl. split; [lia|done].
    + intros w' Hw. cbn in Hw. destruct (decide (w' = w)) as [->|NE]; [by rewrite lookup_delete in Hw; destruct Hw|].
      by rewrite lookup_delete_ne in Hw.
Qed.

Lemma getdata_one_fetch addr i s s' o : getdata_one addr i s = (s', o) -> fetch addr s s' o.
Proof.
  assert (N0 : forall s, fetch addr s s []) by (intros; apply fetch_refl; intros x Hx; by apply elem_of_nil in Hx).
  assert (G : forall txid, match find_txid txid (iv_mempool s) with
      | Some t => let '(s, o) := acknowledge addr (t_wid t) (Some txid) s in (s, IoTx addr t :: o)
      | None => (s, []) end = (s', o) -> fetch addr s s' o).
  { intros txid. destruct (find_txid txid (iv_mempool s)) as [t|]; [|intros [= <- <-]; apply N0].
    destruct (acknowledge addr (t_wid t) (Some txid) s) as [s1 o1] eqn:A. intros [= <- <-].
    apply acknowledge_fetch in A. apply (fetch_trans addr s s s1 [IoTx addr t] o1); [|done].
    apply fetch_refl. intros x Hx. apply elem_of_list_singleton in Hx as ->. by eexists. }
  destruct i as [txid|txid|w|h|]; cbn [getdata_one]; try (intros [= <- <-]; apply N0); try apply G.
  destruct (acknowledge addr w None s) as [s1 o1] eqn:A. intros [= <- <-].
  apply acknowledge_fetch in A. eapply fetch_trans; [|exact A]. apply fetch_refl.
  intros x Hx. case_match; [apply elem_of_list_singleton in Hx as ->; by eexists|by apply elem_of_nil in Hx].
Qed.

Lemma getdata_fetch addr is s s' o : getdata addr is s = (s', o) -> fetch addr s s' o.
Proof.
  revert s s' o. induction is as [|i is IH]; intros s s' o; cbn [getdata].
  { intros [= <- <-]. apply fetch_refl. intros x Hx. by apply elem_of_nil in Hx. }
  destruct (getdata_one addr i s) as [s1 o1] eqn:A. destruct (getdata addr is s1) as [s2 o2] eqn:B. intros [= <- <-].
  eapply fetch_trans; [by eapply getdata_one_fetch|by apply IH].
Qed.

(** ** Timers *)
Definition about (a : N) (x : iout) : bool := announces_to a x || acked_by a x || drops a x.

Lemma peer_tick_facts now m a p p' o : peer_tick now m a p = Val (p', o) ->
  (p' = Some p /\ o = []) \/
  (p' = None /\ o = [IoTimedOut a] /\ (3 <= ip_attempts p)%nat) \/
  exists invs, announced m p = Val invs /\ o = [IoInv a invs; IoTimer rebroadcast_timeout] /\
    p' = Some (IPeer (ip_relay p) (ip_network p) (ip_wtx p) (ip_outbox p) (S (ip_attempts p)) (Some now)) /\
    (ip_attempts p < 3)%nat /\ default 0 (ip_last p) + 60000 <= now /\ ip_outbox p <> ∅.
Proof.
  unfold peer_tick. case_bool_decide as E; [intros [= <- <-]; by left|].
  destruct (N.ltb_spec (now - default 0 (ip_last p)) rebroadcast_timeout) as [L|L]; [intros [= <- <-]; by left|].
  destruct (Nat.leb_spec max_attempts (ip_attempts p)) as [A|A]; [intros [= <- <-]; right; left; done|].
  destruct (announced m p) as [invs|] eqn:An; [|done]. cbn [mbind_M]. intros X. injection X as <- <-.
  right. right. exists invs. repeat split; try done. unfold rebroadcast_timeout in L. lia.
Qed.

Lemma peers_tick_facts now m l l' o : NoDup (map fst l) -> peers_tick now m l = Val (l', o) ->
  NoDup (map fst l') /\
  (forall a p', (a, p') ∈ l' -> exists p, (a, p) ∈ l) /\
  (forall x, x ∈ o -> (exists a p, (a, p) ∈ l /\ (x = IoTimedOut a \/ exists invs, x = IoInv a invs)) \/ exists d, x = IoTimer d) /\
  (forall a p, (a, p) ∈ l -> exists p' o', peer_tick now m a p = Val (p', o') /\ (forall q, (a, q) ∈ l' <-> p' = Some q) /\
     List.filter (about a) o = List.filter (about a) o' /\ (forall x, x ∈ o' -> x ∈ o)).
Proof.
  revert l' o. induction l as [|[a p] l IH]; intros l' o ND; cbn [peers_tick].
  { intros [= <- <-]. split; [constructor|]. split; [intros a p' H; by apply elem_of_nil in H|].
    split; [intros x H; by apply elem_of_nil in H|intros a p H; by apply elem_of_nil in H]. }
  cbn [map fst] in ND. apply NoDup_cons in ND as [Nin ND].
  destruct (peer_tick now m a p) as [[p' o1]|] eqn:P; [|done]. cbn [mbind_M].
  destruct (peers_tick now m l) as [[l1 o2]|] eqn:Q; [|done]. cbn [mbind_M]. intros X. injection X as El Eo.
  destruct (IH _ _ ND eq_refl) as (I1 & I2 & I3 & I4).
  assert (Nl : forall q, (a, q) ∉ l1).
  { intros q Hq. destruct (I2 _ _ Hq) as [p0 Hp]. apply Nin. apply elem_of_list_fmap. by exists (a, p0). }
  assert (Ex1 : forall x, x ∈ o1 -> (x = IoTimedOut a \/ exists invs, x = IoInv a invs) \/ exists d, x = IoTimer d).
  { intros x Hx. destruct (peer_tick_facts _ _ _ _ _ _ P) as [[_ ->]|[(_ & -> & _)|(invs & _ & -> & _)]].
    - by apply elem_of_nil in Hx.
    - apply elem_of_list_singleton in Hx as ->. left. by left.
    - apply elem_of_cons in Hx as [->|Hx]; [left; right; by eexists|]. apply elem_of_list_singleton in Hx as ->. right. by eexists. }
  split; [|split; [|split]].
  - subst l'. destruct p' as [p'|]; [|done]. cbn. apply NoDup_cons. split; [|done].
    intros H. apply elem_of_list_fmap in H as ([a' q] & -> & H). by apply (Nl q).
  - intros b q Hq. subst l'. destruct p' as [p'|].
    + apply elem_of_cons in Hq as [[= -> ->]|Hq]; [exists p; by left|]. destruct (I2 _ _ Hq) as [p0 Hp]. exists p0. by right.
    + destruct (I2 _ _ Hq) as [p0 Hp]. exists p0. by right.
  - intros x Hx. subst o. apply elem_of_app in Hx as [Hx|Hx].
    + destruct (Ex1 x Hx) as [E|E]; [left|by right]. exists a, p. split; [by left|done].
    + destruct (I3 x Hx) as [(b & q & Hq & E)|E]; [left|by right]. exists b, q. split; [by right|done].
  - intros b q Hq. subst o. apply elem_of_cons in Hq as [[= -> ->]|Hq].
    + exists p', o1. split; [done|]. split.
      { intros r. subst l'. destruct p' as [p'|].
        - rewrite elem_of_cons. split; [intros [[= ->]|H]; [done|by apply Nl in H]|intros [= ->]; by left].
        - split; [intros H; by apply Nl in H|done]. }
      split.
      { rewrite List.filter_app. rewrite (lfilter_none _ o2), app_nil_r; [done|].
        intros x Hx. destruct (I3 x Hx) as [(b & r & Hr & [->|[invs ->]])|[d ->]]; unfold about; cbn; [| |done].
        all: assert (b =? a = false) as ->; [|done].
        all: apply N.eqb_neq; intros ->; apply Nin; apply elem_of_list_fmap; by exists (a, r). }
      intros x Hx. apply elem_of_app. by left.
    + assert (NE : b <> a).
      { intros ->. apply Nin. apply elem_of_list_fmap. by exists (a, q). }
      destruct (I4 _ _ Hq) as (q' & o' & E1 & E2 & E3 & E4). exists q', o'. split; [done|]. split.
      { intros r. rewrite <-E2. subst l'. destruct p' as [p'|]; [|done]. rewrite elem_of_cons. split; [intros [[= -> ->]|H]; [congruence|done]|by right]. }
      split.
      { rewrite List.filter_app, E3. rewrite (lfilter_none _ o1); [done|].
        intros x Hx. destruct (Ex1 x Hx) as [[->|[invs ->]]|[d ->]]; unfold about; cbn; [| |done].
        all: assert (a =? b = false) as ->; [|done]. all: apply N.eqb_neq; congruence. }
      intros x Hx. apply elem_of_app. right. by apply E4.
Qed.

Lemma request_blocks_facts now pick peers r r' o : request_blocks now pick peers r = (r', o) ->
  (forall h, is_Some (r' !! h) <-> is_Some (r !! h)) /\
  (forall x, x ∈ o -> (exists a h, x = IoGetData a h) \/ exists d, x = IoTimer d).
Proof.
  unfold request_blocks. intros [= <- <-]. split.
  - intros h. rewrite map_lookup_imap. destruct (r !! h); cbn; split; intros [? ?]; try done; by eexists.
  - intros x Hx. apply elem_of_list_In, in_concat in Hx as (y & Hy & Hx). apply in_map_iff in Hy as ([h t] & <- & _).
    apply elem_of_list_In in Hx. case_match; [|by apply elem_of_nil in Hx].
    apply elem_of_cons in Hx as [->|Hx]; [left; eauto|]. apply elem_of_list_singleton in Hx as ->. right. eauto.
Qed.

Record ticked (now th : N) (s s' : inv) (o : list iout) : Prop := {
  t_pool : iv_mempool s' = iv_mempool s;
  t_est : iv_est s' = iv_est s;
  t_rec : iv_received s' = iv_received s;
  t_rem : forall h, is_Some (iv_remaining s' !! h) <-> is_Some (iv_remaining s !! h);
  t_conf : iv_confirmed s' = filter (fun '(h, _) => wrap64 (th + 2 ^ 64 - h) <=? prune_depth = true) (iv_confirmed s);
  t_outs : forall x, x ∈ o -> (exists a p, iv_peers s !! a = Some p /\ (x = IoTimedOut a \/ exists invs, x = IoInv a invs)) \/
     (exists d, x = IoTimer d) \/ exists a h, x = IoGetData a h;
  t_nopeer : forall a, iv_peers s !! a = None -> iv_peers s' !! a = None;
  t_peers : forall a p, iv_peers s !! a = Some p -> exists p' o', peer_tick now (iv_mempool s) a p = Val (p', o') /\
    iv_peers s' !! a = p' /\ List.filter (about a) o = List.filter (about a) o' /\ forall x, x ∈ o' -> x ∈ o
}.

Lemma inv_timer_facts now th pick s s' o : inv_timer now th pick s = Val (s', o) -> ticked now th s s' o.
Proof.
  unfold inv_timer. set (due := inv_idle_timeout <=? now - default 0 (iv_tick s)).
  set (s1 := if due then set_tick (Some now) s else s).
  assert (E1 : iv_mempool s1 = iv_mempool s /\ iv_est s1 = iv_est s /\ iv_received s1 = iv_received s /\
    iv_remaining s1 = iv_remaining s /\ iv_confirmed s1 = iv_confirmed s /\ iv_peers s1 = iv_peers s) by (unfold s1; destruct due; done).
  clearbody s1. destruct E1 as (A1 & A2 & A3 & A4 & A5 & A6).
  cbn [set_confirmed iv_mempool iv_peers iv_remaining set_peers]. rewrite A1, A4, A5, A6.
  destruct (peers_tick now (iv_mempool s) (map_to_list (iv_peers s))) as [[l o2]|] eqn:P; [|done]. cbn [mbind_M].
  destruct (request_blocks now pick (list_to_map l) (iv_remaining s)) as [r o3] eqn:R. intros X. injection X as <- <-.
  destruct (peers_tick_facts _ _ _ _ _ (NoDup_fst_map_to_list _) P) as (P1 & P2 & P3 & P4).
  destruct (request_blocks_facts _ _ _ _ _ _ R) as [R1 R2].
  assert (O1 : forall x, x ∈ (if due then [IoTimer inv_idle_timeout] else []) -> x = IoTimer inv_idle_timeout).
  { intros x Hx. destruct due; [by apply elem_of_list_singleton in Hx|by apply elem_of_nil in Hx]. }
  split; cbn [set_confirmed iv_mempool iv_peers iv_remaining set_peers set_remaining iv_est iv_received iv_confirmed]; try done.
  - intros x Hx. apply elem_of_app in Hx as [Hx|Hx]; [apply O1 in Hx as ->; right; left; by eexists|].
    apply elem_of_app in Hx as [Hx|Hx].
    + destruct (P3 x Hx) as [(a & p & Hp & E)|E]; [left|by right; left]. exists a, p. split; [by apply elem_of_map_to_list|done].
    + right. destruct (R2 x Hx); tauto.
  - intros a E. apply not_elem_of_list_to_map_1. intros H. apply elem_of_list_fmap in H as ([a' p'] & -> & H).
    destruct (P2 _ _ H) as [p Hp]. apply elem_of_map_to_list in Hp. cbn in E. congruence.
  - intros a p E. destruct (P4 a p) as (p' & o' & Q1 & Q2 & Q3 & Q4); [by apply elem_of_map_to_list|].
    exists p', o'. split; [done|]. split; [|split].
    + destruct p' as [q|].
      * apply elem_of_list_to_map_1; [done|]. by apply Q2.
      * apply not_elem_of_list_to_map_1. intros H. apply elem_of_list_fmap in H as ([a' q] & -> & H). cbn in *. by apply Q2 in H.
    + rewrite !List.filter_app, Q3. rewrite (lfilter_none (about a) o3), (lfilter_none (about a) (if due then _ else _)), app_nil_r; [done| |].
      * intros x Hx. by rewrite (O1 x Hx).
      * intros x Hx. destruct (R2 x Hx) as [(b & h & ->)|[d ->]]; done.
    + intros x Hx. apply elem_of_app. right. apply elem_of_app. left. by apply Q4.
Qed.

Lemma announced_val m p : (forall w, is_Some (ip_outbox p !! w) -> is_Some (m !! w)) -> exists invs, announced m p = Val invs.
Proof.
  intros F. unfold announced.
  assert (G : forall w, w ∈ map fst (map_to_list (ip_outbox p)) -> is_Some (m !! w)).
  { intros w Hw. apply elem_of_list_fmap in Hw as ([w' t] & -> & Hw). apply elem_of_map_to_list in Hw. apply F. by eexists. }
  revert G. generalize (map fst (map_to_list (ip_outbox p))). intros l. induction l as [|w l IH]; intros G; [by eexists|].
  cbn. destruct IH as [invs ->]; [intros; apply G; by right|]. cbn [mbind_M].
  destruct (G w) as [t ->]; [by left|]. by eexists.
Qed.

(** The announcement lists every transaction of the peer's outbox. *)
Lemma announced_all m p invs w t : announced m p = Val invs -> is_Some (ip_outbox p !! w) -> m !! w = Some t ->
  (if ip_wtx p then InvWTx (t_wid t) else InvTx (t_id t)) ∈ invs.
Proof.
  unfold announced. intros A [v Hv] Hm. apply elem_of_map_to_list in Hv. apply (elem_of_list_fmap_1 fst) in Hv. cbn [fst] in Hv.
  change ((map_to_list (ip_outbox p)).*1) with (map fst (map_to_list (ip_outbox p))) in Hv.
  revert invs A Hv. generalize (map fst (map_to_list (ip_outbox p))). intros l. induction l as [|u l IH]; intros invs A Hv; [by apply elem_of_nil in Hv|].
  cbn in A. match type of A with mbind_M ?x _ = _ => destruct x as [k|] eqn:Ek; [|done] end. cbn [mbind_M] in A.
  destruct (m !! u) as [t'|] eqn:Eu; [|done]. injection A as <-. apply elem_of_cons in Hv as [->|Hv].
  - rewrite Hm in Eu. injection Eu as ->. by left.
  - right. by apply IH.
Qed.

Lemma peers_tick_val now m l : (forall a p w, (a, p) ∈ l -> is_Some (ip_outbox p !! w) -> is_Some (m !! w)) ->
  exists r, peers_tick now m l = Val r.
Proof.
  induction l as [|[a p] l IH]; intros F; cbn [peers_tick]; [by eexists|].
  assert (exists r, peer_tick now m a p = Val r) as [[p' o] ->].
  { unfold peer_tick. case_bool_decide; [by eexists|]. case_match; [by eexists|]. case_match; [by eexists|].
    destruct (announced_val m p) as [invs ->]; [intros w; apply F with a; by left|]. cbn. by eexists. }
  cbn [mbind_M]. destruct IH as [[l' o'] ->]; [intros b q w Hb; apply F with b; by right|]. cbn [mbind_M]. by eexists.
Qed.

(** ** Invariant and panics *)
Lemma inv_step_ok o s s' x : inv_ok s -> inv_step o s = Val (s', x) -> inv_ok s'.
Proof.
  intros I. destruct o as [a n r w|a|hs|b hof|a is|now th pick|t|h]; cbn [inv_step].
  - unfold inv_negotiated, schedule_tick. intros [= <- <-]. destruct I as (A & B & C). split; [done|]. split; [|done].
    cbn. intros a' p w'. destruct (decide (a' = a)) as [->|NE].
    + rewrite lookup_insert. intros [= <-]. cbn. by rewrite lookup_fmap, fmap_is_Some.
    + rewrite lookup_insert_ne by done. apply B.
  - intros [= <- <-]. destruct I as (A & B & C). split; [done|]. split; [|done]. cbn. intros a' p w H. apply lookup_delete_Some in H as [_ H]. by eapply B.
  - intros X. by apply blocks_reverted_facts in X as (J & _).
  - intros X. apply received_block_facts in X as [(-> & _)|(t & _ & [(-> & _)|(h & _ & [(_ & _ & ->)|(_ & _ & _ & P & _)])])]; try done.
    by apply (r_ok _ _ _ P).
  - intros [= X]. apply getdata_fetch in X. destruct (f_rest _ _ _ _ X) as [ps Eps]. destruct I as (A & B & C).
    split; [subst s'; done|]. split; [|subst s'; done]. intros a' p w E Hw.
    assert (Em : iv_mempool s' = iv_mempool s) by by subst s'. rewrite Em.
    destruct (decide (a' = a)) as [->|NE].
    + destruct (iv_peers s !! a) as [p0|] eqn:E0.
      * destruct (f_some _ _ _ _ X p0 E0) as (p1 & E1 & _ & O). rewrite E in E1. injection E1 as <-. by eapply B, O.
      * destruct (f_none _ _ _ _ X E0). congruence.
    + rewrite (f_other _ _ _ _ X) in E by done. by eapply B.
  - intros X. apply inv_timer_facts in X. destruct I as (A & B & C).
    split; [rewrite (t_pool _ _ _ _ _ X); done|]. split; [|rewrite (t_est _ _ _ _ _ X); done].
    rewrite (t_pool _ _ _ _ _ X). intros a p w E Hw. destruct (iv_peers s !! a) as [p0|] eqn:E0.
    + destruct (t_peers _ _ _ _ _ X a p0 E0) as (p' & o' & Q & E' & _). rewrite E in E'. subst p'.
      apply peer_tick_facts in Q as [([= ->] & _)|[(? & _)|(invs & _ & _ & [= ->] & _)]]; [|done|]; by eapply B.
    + rewrite (t_nopeer _ _ _ _ _ X a E0) in E. done.
  - destruct (announce t s) as [s1 x1] eqn:A. intros [= <- <-]. by eapply announce_ok.
  - unfold get_block, schedule_tick. intros [= <- <-]. by destruct (iv_remaining s !! h).
Qed.

Lemma inv0_ok : inv_ok inv0.
Proof. split; [done|]. split; [done|]. apply est0_inv. Qed.
Lemma inv_run_ok os s s' xs : inv_ok s -> inv_run os s = Val (s', xs) -> inv_ok s'.
Proof.
  revert s xs. induction os as [|o os IH]; intros s xs I; cbn [inv_run]; [by intros [= <- _]|].
  destruct (inv_step o s) as [[s1 x]|] eqn:E; [|done]. cbn [mbind_M].
  destruct (inv_run os s1) as [[s2 y]|] eqn:E2; [|done]. cbn [mbind_M]. intros X. injection X as <- _.
  eapply IH; [|exact E2]. by eapply inv_step_ok.
Qed.

Lemma apply_txs_panic ts u fees p : apply_txs ts u fees = Panic p -> p = PAssert 169.
Proof.
  revert u fees. induction ts as [|t ts IH]; intros u fees; cbn [apply_txs]; [done|].
  unfold apply_tx. destruct (add_outputs t u) as [u1 sent]. destruct (is_coin_base t); [cbn [mbind_M]; apply IH|].
  destruct (take_inputs (t_ins t) u1 0) as [u2 [rec|]]; [|cbn [mbind_M]; apply IH].
  unfold assertM. destruct (sent <=? rec); cbn [mbind_M]; [apply IH|congruence].
Qed.
Lemma fee_process_panic txs h e p : fee_process txs h e = Panic p -> p = PAssert 169.
Proof.
  unfold fee_process. case_match; [done|]. destruct (apply_txs txs (e_utxos e) []) as [[u f]|q] eqn:A; [done|].
  cbn. intros [= <-]. by eapply apply_txs_panic.
Qed.
Lemma process_queue_panic hs s p : process_queue hs s = Panic p -> p = PAssert 169.
Proof.
  revert s. induction hs as [|h hs IH]; intros s; cbn [process_queue]; [done|].
  destruct (iv_received s !! h) as [b|]; [|apply IH].
  destruct (process_block h b _) as [[s1 o1]|q] eqn:B; cbn [mbind_M].
  - destruct (process_queue hs s1) as [[s2 o2]|q] eqn:Q; cbn [mbind_M]; [done|]. intros [= <-]. by eapply IH.
  - intros [= <-]. unfold process_block in B. destruct (confirm_txs _ _ _ _) as [s2 o2].
    destruct (fee_process (b_txs b) h (iv_est s2)) as [[e f]|q'] eqn:F; [done|]. cbn in B. injection B as <-. by eapply fee_process_panic.
Qed.

Theorem inv_panics o s p : inv_ok s -> inv_step o s = Panic p ->
  p = PAssert 169 /\ exists b hof, o = IBlock b hof.
Proof.
  intros I. destruct o as [a n r w|a|hs|b hof|a is|now th pick|t|h]; cbn [inv_step]; try done.
  - intros X. destruct (blocks_reverted_val hs s I) as [v Ev]. congruence.
  - unfold received_block. destruct (iv_remaining s !! b_hash b); [|done]. destruct (hof (b_hash b)); [|done].
    case_bool_decide; [|done]. intros X. apply process_queue_panic in X. split; [done|eauto].
  - unfold inv_timer. set (s1 := if inv_idle_timeout <=? now - default 0 (iv_tick s) then set_tick (Some now) s else s).
    assert (E1 : iv_mempool s1 = iv_mempool s /\ iv_peers s1 = iv_peers s) by (unfold s1; by case_match).
    clearbody s1. destruct E1 as [A1 A6]. cbn [set_confirmed iv_mempool iv_peers]. rewrite A1, A6.
    destruct (peers_tick_val now (iv_mempool s) (map_to_list (iv_peers s))) as [[l o2] ->].
    { intros a q w Hq. apply elem_of_map_to_list in Hq. by eapply I. }
    cbn [mbind_M]. by destruct (request_blocks _ _ _ _).
Qed.

(** ** C38: processing requested blocks *)
Definition has {A} (o : option A) : nat := if o then 1 else 0.
Definition qcount (hash : N) (q : gmap N block) : nat := size (filter (fun p => b_hash p.2 = hash) q).
Lemma qcount_insert hash h b q : (qcount hash (<[h := b]> q) <= qcount hash q + (if (b_hash b =? hash)%N then 1 else 0))%nat.
Proof.
  unfold qcount. destruct (N.eqb_spec (b_hash b) hash) as [E|E].
  - rewrite map_filter_insert_True by done. rewrite map_size_insert. case_match; cbn; lia.
  - rewrite map_filter_insert_False by done. rewrite Nat.add_0_r, map_filter_delete, map_size_delete.
    case_match; cbn; lia.
Qed.

Lemma count_processed hash x :
  count (processed_hash hash) x = count (fun p : N * block => (b_hash p.2 =? hash)%N) (processed x).
Proof.
  induction x as [|o x IH]; [done|]. rewrite count_cons, IH. destruct o as [| | | |b h f| |]; try done.
  change (processed (IoBlock b h f :: x)) with ((h, b) :: processed x). by rewrite count_cons.
Qed.

(** A duplicate-free listing of a map counts like the map. *)
Lemma count_listing hash (q : gmap N block) l : StronglySorted N.lt (map fst l) ->
  (forall h b, (h, b) ∈ l <-> q !! h = Some b) ->
  count (fun p : N * block => (b_hash p.2 =? hash)%N) l = qcount hash q.
Proof.
  intros S. assert (ND : NoDup (map fst l)).
  { clear -S. induction (map fst l) as [|x k IH]; [constructor|]. inversion_clear S as [|? ? S' F]. apply NoDup_cons. split; [|auto].
    intros H. rewrite Forall_forall in F. specialize (F _ H). lia. }
  clear S. revert q. induction l as [|[h b] l IH]; intros q E.
  - assert (q = ∅) as ->; [|done]. apply map_eq. intros h. rewrite lookup_empty. destruct (q !! h) as [b|] eqn:Q; [|done].
    apply E in Q. by apply elem_of_nil in Q.
  - cbn [map fst] in ND. apply NoDup_cons in ND as [Nin ND]. rewrite count_cons. cbn [snd].
    rewrite (IH ND (delete h q)).
    + assert (Q : q !! h = Some b) by (apply E; by left). unfold qcount. rewrite map_filter_delete, map_size_delete.
      destruct (N.eqb_spec (b_hash b) hash) as [D|D].
      * assert (X : filter (fun p : N * block => b_hash p.2 = hash) q !! h = Some b) by by apply map_filter_lookup_Some.
        rewrite X. assert (size (filter (fun p : N * block => b_hash p.2 = hash) q) <> 0%nat).
        { intros Z. apply map_size_empty_inv in Z. rewrite Z in X. by rewrite lookup_empty in X. }
        lia.
      * assert (X : filter (fun p : N * block => b_hash p.2 = hash) q !! h = None).
        { apply map_filter_lookup_None. right. intros x Ex. rewrite Q in Ex. injection Ex as <-. done. }
        by rewrite X.
    + intros h' b'. rewrite lookup_delete_Some, <-E, elem_of_cons. split.
      * intros H. split; [|by right]. intros ->. apply Nin. apply elem_of_list_fmap. by exists (h', b').
      * intros [NE [[= -> ->]|H]]; done.
Qed.

Lemma has_lookup {A B} (o : option A) (o' : option B) : (is_Some o' -> is_Some o) -> (has o' <= has o)%nat.
Proof. destruct o, o'; cbn; try lia. intros H. destruct H as [? ?]; [by eexists|done]. Qed.

Definition idle_proc (s s' : inv) (x : list iout) : Prop :=
  processed x = [] /\ iv_received s' = iv_received s /\ forall h, is_Some (iv_remaining s' !! h) -> is_Some (iv_remaining s !! h).

Lemma step_idle_proc o s s' x : inv_ok s -> inv_step o s = Val (s', x) ->
  match o with IBlock _ _ | IGetBlock _ => True | _ => idle_proc s s' x end.
Proof.
  intros I. destruct o as [a n r w|a|hs|b hof|a is|now th pick|t|h]; cbn [inv_step]; try done.
  - unfold inv_negotiated, schedule_tick. by intros [= <- <-].
  - by intros [= <- <-].
  - intros X. destruct (blocks_reverted_facts _ _ _ _ I X) as (_ & E1 & E2 & E3 & _). split; [done|]. split; [done|]. by rewrite E1.
  - intros [= X]. apply getdata_fetch in X. destruct (f_rest _ _ _ _ X) as [ps ->]. split; [|done].
    assert (F : forall y, y ∈ x -> match y with IoBlock _ _ _ => False | _ => True end).
    { intros y Hy. by destruct (f_outs _ _ _ _ X y Hy) as [[t ->]|[t ->]]. }
    clear -F. induction x as [|y x IH]; [done|]. cbn. pose proof (F y ltac:(by left)). destruct y; try done; apply IH; intros z Hz; apply F; by right.
  - intros X. apply inv_timer_facts in X. split; [|split; [apply X|intros h; apply X]].
    assert (F : forall y, y ∈ x -> match y with IoBlock _ _ _ => False | _ => True end).
    { intros y Hy. by destruct (t_outs _ _ _ _ _ X y Hy) as [(? & ? & _ & [->|[? ->]])|[[? ->]|(? & ? & ->)]]. }
    clear -F. induction x as [|y x IH]; [done|]. cbn. pose proof (F y ltac:(by left)). destruct y; try done; apply IH; intros z Hz; apply F; by right.
  - destruct (announce t s) as [s1 x1] eqn:A. intros [= <- <-]. destruct (announce_facts _ _ _ _ A) as (-> & _ & _ & _ & E1 & E2 & _).
    split; [done|]. split; [done|]. by rewrite E1.
Qed.

Lemma step_processed o s s' x : inv_ok s -> inv_step o s = Val (s', x) ->
  StronglySorted N.lt (map fst (processed x)) /\
  (processed x <> [] -> iv_remaining s' = ∅ /\ iv_received s' = ∅ /\ exists b hof, o = IBlock b hof) /\
  forall hash, (count (processed_hash hash) x + has (iv_remaining s' !! hash) + qcount hash (iv_received s') <=
    has (iv_remaining s !! hash) + qcount hash (iv_received s) + (if requests_hash hash o then 1 else 0))%nat.
Proof.
  intros I E. pose proof (step_idle_proc o s s' x I E) as Q.
  assert (Idle : idle_proc s s' x -> StronglySorted N.lt (map fst (processed x)) /\
    (processed x <> [] -> iv_remaining s' = ∅ /\ iv_received s' = ∅ /\ exists b hof, o = IBlock b hof) /\
    forall hash, (count (processed_hash hash) x + has (iv_remaining s' !! hash) + qcount hash (iv_received s') <=
    has (iv_remaining s !! hash) + qcount hash (iv_received s) + (if requests_hash hash o then 1 else 0))%nat).
  { intros (P & R & M). split; [rewrite P; constructor|]. split; [by rewrite P|]. intros hash.
    rewrite count_processed, P, R. pose proof (has_lookup (iv_remaining s !! hash) (iv_remaining s' !! hash) (M hash)). rewrite count_nil. lia. }
  destruct o as [a n r w|a|hs|b hof|a is|now th pick|t|h]; try (by apply Idle); cbn [inv_step] in E.
  - clear Q. apply received_block_facts in E as [(-> & -> & _)|(t & Et & [(-> & -> & _)|(h & _ & [(_ & -> & ->)|(D & R1 & R2 & P & S & L)])])].
    + by apply Idle.
    + apply Idle. split; [done|]. split; [done|]. cbn. intros h' H. destruct (decide (h' = b_hash b)) as [->|NE]; [by rewrite Et|].
      by rewrite lookup_delete_ne in H.
    + split; [constructor|]. split; [done|]. intros hash. rewrite count_nil. cbn [requests_hash set_received set_remaining iv_remaining iv_received].
      pose proof (qcount_insert hash h b (iv_received s)) as G. destruct (decide (hash = b_hash b)) as [->|NE].
      * rewrite lookup_delete, Et. rewrite N.eqb_refl in G. cbn [has]. lia.
      * rewrite lookup_delete_ne by done. assert (b_hash b =? hash = false) as X by (apply N.eqb_neq; congruence). rewrite X in G. lia.
    + split; [done|]. split; [intros _; split; [done|split; [done|eauto]]|]. intros hash.
      rewrite count_processed, (count_listing hash _ _ S L), R1, R2, lookup_empty. cbn [has requests_hash].
      pose proof (qcount_insert hash h b (iv_received s)) as G.
      assert (Z : qcount hash ∅ = 0%nat) by done. rewrite Z. destruct (decide (hash = b_hash b)) as [->|NE].
      * rewrite Et. rewrite N.eqb_refl in G. cbn [has]. lia.
      * assert (b_hash b =? hash = false) as X by (apply N.eqb_neq; congruence). rewrite X in G. lia.
  - unfold get_block, schedule_tick in E. injection E as <- <-. split; [constructor|]. split; [done|]. intros hash.
    rewrite count_cons, count_nil. cbn [processed_hash requests_hash].
    destruct (iv_remaining s !! h) as [t|] eqn:Eh; cbn [iv_remaining set_tick set_remaining iv_received]; [lia|].
    destruct (N.eqb_spec h hash) as [->|NE].
    + rewrite lookup_insert, Eh. cbn. lia.
    + rewrite lookup_insert_ne by done. lia.
Qed.

Lemma run_split os o s xs : inv_run (os ++ [o]) inv0 = Val (s, xs) ->
  exists s1 xs1 x, inv_run os inv0 = Val (s1, xs1) /\ inv_step o s1 = Val (s, x) /\ xs = xs1 ++ [x].
Proof.
  generalize inv0. revert xs. induction os as [|o1 os IH]; intros xs s0; cbn [app inv_run].
  - destruct (inv_step o s0) as [[s1 x]|] eqn:E; [|done]. cbn. intros [= <- <-]. by exists s0, [], x.
  - destruct (inv_step o1 s0) as [[s1 x]|] eqn:E; [|done]. cbn [mbind_M].
    destruct (inv_run (os ++ [o]) s1) as [[s2 x2]|] eqn:E2; [|done]. cbn [mbind_M]. intros X. injection X as <- <-.
    destruct (IH _ _ E2) as (s3 & xs3 & x3 & A & B & ->). rewrite A. cbn [mbind_M]. by exists s3, (x :: xs3), x3.
Qed.

Lemma run_once os s xs hash : inv_run os inv0 = Val (s, xs) ->
  (count (processed_hash hash) (concat xs) + has (iv_remaining s !! hash) + qcount hash (iv_received s) <=
   count (requests_hash hash) os)%nat.
Proof.
  revert s xs. induction os as [|o os IH] using rev_ind; intros s xs.
  { intros X. injection X as <- <-. cbn. unfold qcount. rewrite map_filter_empty. done. }
  intros X. apply run_split in X as (s1 & xs1 & x & A & B & ->). specialize (IH _ _ A).
  pose proof (inv_run_ok _ _ _ _ inv0_ok A) as I. destruct (step_processed _ _ _ _ I B) as (_ & _ & C). specialize (C hash).
  rewrite concat_app, count_app, count_app, count_cons, count_nil. cbn [concat]. rewrite app_nil_r. lia.
Qed.
