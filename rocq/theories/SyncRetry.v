(** How often a request for headers is retried. *)
From Verif Require Import Base PowModel BlockModel SyncModel SyncSpec SyncProofs.
Open Scope N_scope.

Section Retry.
Context (H : header -> N) (cf : sconf).
Notation infl s a := (sy_inflight s !! a).

(** The retries left: of a request with a stop hash. *)
Definition left_of (r : greq) : nat :=
  match gr_timeout r with TRetry n => if (gr_locators r).2 =? 0 then 0 else n | _ => 0 end.
Definition left (m : gmap N greq) : nat := map_fold (fun _ r n => (left_of r + n)%nat) 0%nat m.
Lemma left_insert m a r : m !! a = None -> left (<[a := r]> m) = (left_of r + left m)%nat.
Proof. intros E. unfold left. rewrite map_fold_insert_L; [done| |done]. intros. lia. Qed.
Lemma left_delete m a : left m = (match m !! a with Some r => left_of r | None => 0 end + left (delete a m))%nat.
Proof.
  destruct (m !! a) as [r|] eqn:E; [|by rewrite delete_notin].
  rewrite <- (insert_delete m a r E) at 1. apply left_insert, lookup_delete.
Qed.

Lemma count_app f x y : count f (x ++ y) = (count f x + count f y)%nat.
Proof. unfold count. by rewrite List.filter_app, app_length. Qed.
Lemma no_asks_upto x : no_asks x -> count upto x = 0%nat.
Proof.
  induction x as [|o x IH]; [done|]. intros A.
  assert (no_asks x) as A'. { intros a. specialize (A a). destruct o; try exact A. cbn in A. by destruct (_ =? _). }
  specialize (IH A'). unfold count in *. destruct o; try exact IH. specialize (A addr). cbn in A. by rewrite N.eqb_refl in A.
Qed.

(** A request costs what it may be retried. *)
Definition charge (l : locators) (t : on_timeout) : nat := left_of (GReq l 0 t).
Lemma request_left e a l t s s' x : request cf e a l t s = (s', x) ->
  (left (sy_inflight s') <= charge l t * count upto x + left (sy_inflight s) /\ count upto x <= (if (l.2 =? 0)%N then 0 else 1))%nat.
Proof.
  unfold request. destruct (infl s a) eqn:E; [intros [= <- <-]; cbn; destruct (_ =? _); lia|].
  destruct (sy_peers s !! a) as [p|]; [|intros [= <- <-]; cbn; destruct (_ =? _); lia].
  intros [= <- <-]. cbn [with_inflight sy_inflight with_peers]. rewrite left_insert by done.
  assert (left_of (GReq l (se_now e) t) = charge l t) as -> by done.
  rewrite count_app. assert (forall b : bool, count upto (if b then [SoDebugAssert a] else []) = 0%nat) as -> by by intros [].
  unfold count, charge, left_of. cbn. destruct (l.2 =? 0); cbn; destruct t; lia.
Qed.
Lemma request_ignore e a l s s' x : request cf e a (l, 0) TIgnore s = (s', x) ->
  (left (sy_inflight s') <= left (sy_inflight s) /\ count upto x = 0)%nat.
Proof. intros R%request_left. unfold charge, left_of in R. cbn in R. lia. Qed.

Definition free (s : sync) (x : list sout) (s' : sync) : Prop :=
  (left (sy_inflight s') <= left (sy_inflight s) /\ count upto x = 0)%nat.
Lemma free_refl s x : count upto x = 0%nat -> free s x s.
Proof. intros E. by split. Qed.
Lemma free_trans s x s1 y s2 : free s x s1 -> free s1 y s2 -> free s (x ++ y) s2.
Proof. unfold free. rewrite count_app. lia. Qed.

Lemma do_sync_free e c s s' x b : do_sync H cf e c s = Val (s', x, b) -> free s x s'.
Proof.
  unfold do_sync. destruct (addrs s) as [|? ?]; [intros [= <- <- <-]; by apply free_refl|].
  destruct (is_synced _ _ _ _ _); [intros [= <- <- <-]; by apply free_refl|].
  destruct (locator_hashes H c (c_height c)) as [lh|]; [cbn|done].
  destruct (syncing _ _); [intros [= <- <- <-]; by apply free_refl|].
  destruct (preferred_peer _ _ _ _); [|intros [= <- <- <-]; by apply free_refl].
  destruct (_ <? _); [|intros [= <- <- <-]; by apply free_refl].
  destruct (request _ _ _ _ _ _) as [s1 x1] eqn:R. intros [= <- <- <-]. exact (request_ignore _ _ _ _ _ _ R).
Qed.
Lemma request_all_free e l ps s s' x : request_all cf e (l, 0) ps s = (s', x) -> free s x s'.
Proof.
  revert s s' x. induction ps as [|a ps IH]; intros s s' x; cbn -[request]; [intros [= <- <-]; by apply free_refl|].
  destruct (request _ _ _ _ _ _) as [s1 x1] eqn:R. destruct (request_all _ _ _ _ _) as [s2 x2] eqn:Q. intros [= <- <-].
  eapply free_trans; [exact (request_ignore _ _ _ _ _ _ R)|exact (IH _ _ _ Q)].
Qed.
Lemma sample_free e c s s' x : sample_peers H cf e c s = Val (s', x) -> free s x s'.
Proof.
  unfold sample_peers. destruct (_ <? _); [intros [= <- <-]; by apply free_refl|].
  destruct (stale_tip _ _ _ _ _); [|intros [= <- <-]; by apply free_refl].
  destruct (locator_hashes H c (c_height c)) as [l|]; [cbn [mbind_M]|done].
  intros [= R]. apply request_all_free in R. exact R.
Qed.
Lemma idle_free e c s s' x : idle H cf e c s = Val (s', x) -> free s x s'.
Proof.
  unfold idle. destruct (_ <=? _); [|intros [= <- <-]; by apply free_refl].
  destruct (do_sync H cf e c s) as [[[s1 x1] b]|] eqn:D; [cbn [mbind_M]|done]. apply do_sync_free in D.
  destruct b; cbn [mbind_M].
  - intros [= <- <-]. eapply free_trans; [exact D|]. by apply (free_refl s1).
  - destruct (sample_peers H cf e c s1) as [[s2 x2]|] eqn:Q; [cbn [mbind_M]|done]. apply sample_free in Q. intros [= <- <-].
    eapply free_trans; [exact D|]. unfold free in *. rewrite count_app. cbn. lia.
Qed.
Lemma negotiated_free e a h nw fl ob c s s' x : sync_negotiated H cf e a h nw fl ob c s = Val (s', x) -> free s x s'.
Proof.
  unfold sync_negotiated. destruct (ob && negb nw); [intros [= <- <-]; by apply free_refl|].
  destruct (do_sync H cf e c _) as [[[s1 x1] b]|] eqn:D; [cbn [mbind_M]|done]. apply do_sync_free in D. intros [= <- <-].
  eapply free_trans; [|exact D]. split; [done|]. by destruct (_ <? _).
Qed.

(** Requests that cannot be retried add nothing, whatever they ask for. *)
Definition spent (s s' : sync) : Prop := (left (sy_inflight s') <= left (sy_inflight s))%nat.
Lemma request_spent e a l t s s' x : (forall n, t <> TRetry n) -> request cf e a l t s = (s', x) -> spent s s'.
Proof. intros Nt R%request_left. unfold charge, left_of in R. cbn in R. unfold spent. destruct t; [lia..|]. by destruct (Nt n). Qed.
Lemma process_spent e from hd hds c s s' c' x : process_headers H cf e from hd hds c s = Val (s', c', x) -> spent s s'.
Proof.
  unfold process_headers. destruct (contains c _); [intros [= <- <- <-]; unfold spent; lia|].
  destruct (sync_import H e (hd :: hds) c s) as [[[c1 x1] r]|] eqn:I; [cbn [mbind_M]|done]. clear I.
  destruct r as [[? k h rv cn|]|er].
  - set (s0 := Sync _ _ _ _ _). assert (spent s s0) as Z by (unfold spent, s0; cbn; rewrite raise_infl; lia).
    destruct (_ <? _).
    + destruct (do_sync H cf e c1 s0) as [[[s1 x2] b]|] eqn:D; [cbn [mbind_M]|done]. apply do_sync_free in D as [D _].
      intros [= <- <- <-]. unfold spent in *. lia.
    + destruct (request _ _ _ _ _ _) as [s1 x2] eqn:R. intros [= <- <- <-]. apply request_spent in R; [|by intros n]. unfold spent in *. lia.
  - destruct (locator_hashes H c1 (c_height c1)) as [l|]; [cbn [mbind_M]|done].
    destruct (request _ _ _ _ _ _) as [s1 x2] eqn:R. intros [= <- <- <-]. refine (request_spent _ _ _ _ _ _ _ _ R). by intros n.
  - destruct er; intros [= <- <- <-]; unfold spent; lia.
Qed.
Lemma delete_left s a : (left (delete a (sy_inflight s)) <= left (sy_inflight s))%nat.
Proof. rewrite (left_delete (sy_inflight s) a). lia. Qed.
Lemma headers_spent e a hds s c s' c' x : received_headers H cf e a hds c s = Val (s', c', x) -> spent s s'.
Proof.
  unfold received_headers. pose proof (delete_left s a) as D. destruct hds as [|hd hds]; [intros [= <- <- <-]; exact D|].
  destruct (_ <? _); [intros [= <- <- <-]; exact D|]. destruct (_ && _); [intros [= <- <- <-]; exact D|].
  destruct (sy_peers _ !! a) as [p|]; [|intros [= <- <- <-]; exact D].
  intros E%process_spent. unfold spent in *. cbn in E. lia.
Qed.

Lemma inv_left e a inv c s s' x : received_inv H cf e a inv c s = Val (s', x) ->
  (left (sy_inflight s') <= 3 * count upto x + left (sy_inflight s))%nat.
Proof.
  unfold received_inv. destruct (is_syncing s); [intros [= <- <-]; lia|].
  destruct (_ <? _); [intros [= <- <-]; lia|].
  destruct (sy_peers s !! a) as [p|]; [|intros [= <- <-]; lia].
  destruct (last _); [|intros [= <- <-]; cbn; lia].
  destruct (locator_hashes H c (c_height c)) as [l|]; [cbn -[request]|done].
  intros [= R]. apply request_left in R as [R _]. unfold charge, left_of in R. cbn -[Nat.mul] in R. destruct (_ =? 0); lia.
Qed.

(** At the timer a retry is paid for by the request that has timed out. *)
Lemma drop_one_left e i i0 a s s' x b : drop_one cf e i i0 a s = (s', x, b) ->
  (count upto x + left (sy_inflight s') <= left (sy_inflight s) + match i0 !! a with Some r => left_of r | None => 0 end)%nat.
Proof.
  unfold drop_one. destruct (i0 !! a) as [r|]; [|intros [= <- <- <-]; cbn; lia].
  destruct (gr_timeout r) as [| |[|n]] eqn:T; [intros [= <- <- <-]; cbn; lia..|].
  destruct (head _); [|intros [= <- <- <-]; cbn; lia].
  destruct (request _ _ _ _ _ _) as [s1 x1] eqn:R. intros [= <- <- <-]. apply request_left in R as [R1 R2].
  unfold charge, left_of in *. cbn in R1. rewrite T. destruct (_ =? 0); [lia|]. destruct (count upto x1) as [|[|k]]; lia.
Qed.
Lemma time_out_left e i i0 ps s s' x b : time_out cf e i i0 ps s = (s', x, b) -> NoDup ps ->
  (forall p, p ∈ ps -> is_Some (infl s p) /\ infl s p = i0 !! p) ->
  (count upto x + left (sy_inflight s') <= left (sy_inflight s))%nat.
Proof.
  revert i s s' x b. induction ps as [|p ps IH]; intros i s s' x b; [cbn; intros [= <- <- <-]; cbn; lia|].
  rewrite time_out_cons. set (s0 := with_inflight s _).
  destruct (drop_one _ e i i0 p s0) as [[s1 x1] b1] eqn:D. destruct (time_out cf e (S i) i0 ps s1) as [[s2 x2] b2] eqn:O.
  intros [= <- <- <-] [Np ND]%NoDup_cons A. rewrite count_app.
  assert (count upto x2 + left (sy_inflight s2) <= left (sy_inflight s1))%nat as B.
  { apply (IH _ _ _ _ _ O ND). intros q Hq. destruct (A q) as [[r Er] Ei]; [by right|]. assert (q <> p) as Nq by congruence.
    pose proof (drop_one_evolves _ _ _ _ _ _ _ _ _ q D) as E.
    assert (infl s0 q = Some r) as Q by (unfold s0; cbn; by rewrite lookup_delete_ne). rewrite Q in E.
    apply evolves_some in E as [_ E]. rewrite E. split; [by eexists|congruence]. }
  apply drop_one_left in D. destruct (A p) as [_ Ei]; [by left|]. rewrite (left_delete (sy_inflight s) p), Ei.
  change (sy_inflight s0) with (delete p (sy_inflight s)) in D. lia.
Qed.
Lemma timer_left e c s s' x : fair_env e -> sync_timer H cf e c s = Val (s', x) ->
  (count upto x + left (sy_inflight s') <= left (sy_inflight s))%nat.
Proof.
  intros F. unfold sync_timer. destruct (time_out _ _ _ _ _ _) as [[s1 x1] b] eqn:O. apply time_out_left in O.
  - destruct b.
    + destruct (do_sync H cf e c s1) as [[[s2 x2] b2]|] eqn:D; [cbn [mbind_M]|done]. apply do_sync_free in D as [D1 D2].
      intros [= <- <-]. rewrite count_app. lia.
    + destruct (idle H cf e c s1) as [[s2 x2]|] eqn:D; [cbn [mbind_M]|done]. apply idle_free in D as [D1 D2].
      intros [= <- <-]. rewrite count_app. lia.
  - by apply timed_out_nodup.
  - intros p (r & E & _)%timed_out_spec; [|done]. split; [by eexists|done].
Qed.

Lemma step_left oe s c s' c' x : fair_env oe.2 -> sync_step H cf oe (s, c) = Val (s', c', x) ->
  ((if at_timer oe.1 then count upto x else 0) + left (sy_inflight s') <= 3 * (if at_inv oe.1 then count upto x else 0) + left (sy_inflight s))%nat.
Proof.
  destruct oe as [o e]. intros F. cbn [snd] in F. destruct o; cbn [sync_step at_timer at_inv fst].
  - destruct (idle H cf e c s) as [[s1 x1]|] eqn:D; [cbn [mbind_M]|done]. intros [= <- <- <-]. apply idle_free in D as [D _]. lia.
  - destruct (sync_negotiated _ _ _ _ _ _ _ _ _ _) as [[s1 x1]|] eqn:D; [cbn [mbind_M]|done]. intros [= <- <- <-]. apply negotiated_free in D as [D _]. lia.
  - intros [= <- <- <-]. pose proof (delete_left s addr). cbn. lia.
  - intros D%headers_spent. unfold spent in D. lia.
  - destruct (received_getheaders _ _ _ _ _) as [x1|]; [cbn [mbind_M]|done]. intros [= <- <- <-]. lia.
  - destruct (received_inv _ _ _ _ _ _ _) as [[s1 x1]|] eqn:D; [cbn [mbind_M]|done]. intros [= <- <- <-]. apply inv_left in D. lia.
  - destruct (sync_timer _ _ _ _ _) as [[s1 x1]|] eqn:D; [cbn [mbind_M]|done]. intros [= <- <- <-]. apply timer_left in D; [|done]. lia.
  - destruct (sync_import _ _ _ _ _) as [[[c1 x1] r]|]; [cbn [mbind_M]|done]. intros [= <- <- <-]. lia.
Qed.
Lemma run_left os s c s' c' xs : fair_envs os -> sync_run H cf os (s, c) = Val (s', c', xs) ->
  (asked_by at_timer os xs + left (sy_inflight s') <= 3 * asked_by at_inv os xs + left (sy_inflight s))%nat.
Proof.
  revert s c xs. induction os as [|oe os IH]; intros s c xs F; cbn [sync_run].
  { intros [= <- <- <-]. cbn. lia. }
  apply Forall_cons in F as [Fe F].
  destruct (sync_step H cf oe (s, c)) as [[[s1 c1] x]|] eqn:E; [cbn [mbind_M]|done].
  destruct (sync_run H cf os (s1, c1)) as [[[s2 c2] xs']|] eqn:R; [cbn [mbind_M]|done]. intros [= <- <- <-].
  apply step_left in E; [|done]. apply IH in R; [|done]. cbn [asked_by]. lia.
Qed.
Lemma retries_bounded os c0 s c xs : fair_envs os -> sync_run H cf os (sync_init, c0) = Val (s, c, xs) ->
  (asked_by at_timer os xs <= 3 * asked_by at_inv os xs)%nat.
Proof.
  intros F R. apply run_left in R; [|done]. assert (left (sy_inflight sync_init) = 0%nat) as Z by apply map_fold_empty. lia.
Qed.

End Retry.
