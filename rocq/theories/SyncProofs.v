(** Facts about the header sync manager. *)
From Verif Require Import Base PowModel BlockModel SyncModel SyncSpec.
Open Scope N_scope.

Section Proofs.
Context (H : header -> N) (cf : sconf).
Notation infl s a := (sy_inflight s !! a).
Notation T := (sc_timeout cf).

Lemma asks_app a x y : asks a (x ++ y) = asks a x ++ asks a y.
Proof. apply omap_app. Qed.
Lemma asks_in a l x : SoGetHeaders a l ∈ x <-> l ∈ asks a x.
Proof.
  unfold asks. rewrite elem_of_list_omap. split.
  - intros E. exists (SoGetHeaders a l). by rewrite N.eqb_refl.
  - intros (o & Ho & E). destruct o; try done. destruct (N.eqb_spec addr a); simplify_eq/=. done.
Qed.
Definition no_asks (x : list sout) : Prop := forall a, asks a x = [].
Lemma no_asks_app x y : no_asks x -> no_asks y -> no_asks (x ++ y).
Proof. intros A B a. by rewrite asks_app, A, B. Qed.
Lemma no_asks_forall x : Forall (fun o => match o with SoGetHeaders _ _ => False | _ => True end) x -> no_asks x.
Proof. intros F a. induction F as [|o x Ho F IH]; [done|]. destruct o; try done; exact IH. Qed.

(** How the request to one peer changes: not at all, or one is sent when there was none. *)
Definition evolves (now a : N) (v : option greq) (x : list sout) (v' : option greq) : Prop :=
  (asks a x = [] /\ v' = v) \/ (exists l t, asks a x = [l] /\ v = None /\ v' = Some (GReq l now t)).
Lemma evolves_refl now a v x : asks a x = [] -> evolves now a v x v.
Proof. by left. Qed.
Lemma evolves_trans now a v x v1 y v2 : evolves now a v x v1 -> evolves now a v1 y v2 -> evolves now a v (x ++ y) v2.
Proof.
  intros [[A ->]|(l & t & A & -> & ->)] [[B ->]|(l' & t' & B & E & ->)]; unfold evolves; rewrite asks_app, A, B.
  - by left.
  - right. eauto.
  - right. eauto.
  - done.
Qed.
Lemma evolves_some now a r x v' : evolves now a (Some r) x v' -> asks a x = [] /\ v' = Some r.
Proof. intros [E|(l & t & A & E & _)]; [done|done]. Qed.

Lemma request_evolves e a' l t s s' x a : request cf e a' l t s = (s', x) -> evolves (se_now e) a (infl s a) x (infl s' a).
Proof.
  unfold request. destruct (infl s a') eqn:E; [intros [= <- <-]; by left|].
  destruct (sy_peers s !! a') as [p|] eqn:P; [|intros [= <- <-]; by left].
  intros [= <- <-]. unfold evolves; rewrite asks_app. cbn [with_inflight sy_inflight].
  assert (forall b : bool, asks a (if b then [SoDebugAssert a'] else []) = []) as -> by by intros [].
  destruct (decide (a' = a)) as [->|Ne].
  - right. exists l, t. rewrite lookup_insert. unfold asks. cbn. rewrite N.eqb_refl. done.
  - left. rewrite lookup_insert_ne by done. unfold asks. cbn. rewrite (proj2 (N.eqb_neq a' a)) by done. done.
Qed.

Lemma do_sync_evolves e c s s' x b a : do_sync H cf e c s = Val (s', x, b) -> evolves (se_now e) a (infl s a) x (infl s' a).
Proof.
  unfold do_sync. destruct (addrs s) as [|? ?]; [intros [= <- <- <-]; by left|].
  destruct (is_synced _ _ _ _ _); [intros [= <- <- <-]; by left|].
  destruct (locator_hashes H c (c_height c)) as [lh|]; [cbn|done].
  destruct (syncing _ _); [intros [= <- <- <-]; by left|].
  destruct (preferred_peer _ _ _ _); [|intros [= <- <- <-]; by left].
  destruct (_ <? _); [|intros [= <- <- <-]; by left].
  destruct (request _ _ _ _ _ _) as [s1 x1] eqn:R. intros [= <- <- <-]. by eapply request_evolves.
Qed.

Lemma request_all_evolves e l ps s s' x a : request_all cf e l ps s = (s', x) -> evolves (se_now e) a (infl s a) x (infl s' a).
Proof.
  revert s s' x. induction ps as [|p ps IH]; intros s s' x; cbn; [intros [= <- <-]; by left|].
  destruct (request _ _ _ _ _ _) as [s1 x1] eqn:R. destruct (request_all _ _ _ _ _) as [s2 x2] eqn:R2.
  intros [= <- <-]. eapply evolves_trans; [by eapply request_evolves|by eapply IH].
Qed.

Lemma sample_evolves e c s s' x a : sample_peers H cf e c s = Val (s', x) -> evolves (se_now e) a (infl s a) x (infl s' a).
Proof.
  unfold sample_peers. destruct (_ <? _); [intros [= <- <-]; by left|].
  destruct (stale_tip _ _ _ _ _); [|intros [= <- <-]; by left].
  destruct (locator_hashes H c (c_height c)) as [lh|]; [cbn|done]. intros [= R]. apply request_all_evolves with (a := a) in R. exact R.
Qed.

Lemma idle_evolves e c s s' x a : idle H cf e c s = Val (s', x) -> evolves (se_now e) a (infl s a) x (infl s' a).
Proof.
  unfold idle. destruct (_ <=? _); [|intros [= <- <-]; by left].
  destruct (do_sync _ _ _ _ _) as [[[s1 x1] b]|] eqn:D; [cbn|done].
  pose proof (do_sync_evolves _ _ _ _ _ _ a D) as E1. destruct b; cbn.
  - intros [= <- <-]. cbn. eapply evolves_trans; [exact E1|by left].
  - destruct (sample_peers _ _ _ _ _) as [[s2 x2]|] eqn:S2; [cbn|done]. intros [= <- <-]. cbn.
    eapply evolves_trans; [exact E1|]. eapply evolves_trans; [by eapply sample_evolves|by left].
Qed.

Lemma negotiated_evolves e a' h nw fl ob c s s' x a : sync_negotiated H cf e a' h nw fl ob c s = Val (s', x) ->
  evolves (se_now e) a (infl s a) x (infl s' a).
Proof.
  unfold sync_negotiated. destruct (_ && _); [intros [= <- <-]; by left|].
  destruct (do_sync _ _ _ _ _) as [[[s1 x1] b]|] eqn:D; [cbn|done]. intros [= <- <-].
  apply do_sync_evolves with (a := a) in D. cbn in D. eapply evolves_trans; [|exact D].
  left. by destruct (_ <? _).
Qed.

Lemma broadcast_no_asks order k c s : no_asks (broadcast_tip order k c s).
Proof.
  apply no_asks_forall. unfold broadcast_tip. destruct (get_block c k) as [[h b]|]; [|done].
  apply Forall_forall. intros o Ho%elem_of_list_fmap. by destruct Ho as (z & -> & _).
Qed.
Lemma import_no_asks e hds c s c' x r : sync_import H e hds c s = Val (c', x, r) -> no_asks x.
Proof.
  unfold sync_import. destruct (import_blocks H c hds (se_block_time e)) as [[c1 r1]|]; [cbn|done].
  intros [= <- <- <-]. destruct r1 as [[hd k h rv cn|]|]; try done.
  repeat apply no_asks_app.
  - apply no_asks_forall, Forall_forall. intros o Ho%elem_of_list_fmap. by destruct Ho as (z & -> & _).
  - apply no_asks_forall, Forall_forall. intros o Ho%elem_of_list_fmap. by destruct Ho as (z & -> & _).
  - intros a. exact (broadcast_no_asks _ _ _ _ a).
Qed.

Lemma raise_infl a k h s : sy_inflight (raise_peer a k h s) = sy_inflight s.
Proof. unfold raise_peer. destruct (_ !! _); [|done]. by destruct (_ <? _). Qed.

(** The batch import reports either a result or an aborted import. *)
Lemma import_aborted c hds now c' r : import_blocks H c hds now = Val (c', r) ->
  match r with Ok _ => True | Err e => exists e' i h, e = EAborted e' i h end.
Proof.
  unfold import_blocks. generalize (mkBatch ∅ [] [] (c_height c) (cb_hash H (c_last c)) (cb_header (c_last c))). generalize 0%nat.
  revert c. induction hds as [|[hd ch] hds IH]; intros c i b; cbn -[batch_finish import_block].
  - unfold batch_finish. destruct (b_connected b); [cbn; by intros [= <- <-]|].
    destruct (List.filter _ _); [done|]. cbn. by intros [= <- <-].
  - destruct (import_block H c hd now ch) as [[c1 [[]|e]]|]; cbn -[batch_add]; [apply IH|apply IH| |done].
    destruct e; first [apply IH|intros [= <- <-]; eauto].
Qed.

Lemma process_evolves e from hd hds c s s' c' x a : process_headers H cf e from hd hds c s = Val (s', c', x) ->
  evolves (se_now e) a (infl s a) x (infl s' a).
Proof.
  unfold process_headers. destruct (contains _ _); [intros [= <- <- <-]; by left|].
  destruct (sync_import _ _ _ _ _) as [[[c1 x1] r]|] eqn:Im; [|done]. cbn -[request do_sync broadcast_tip locator_hashes].
  pose proof (import_no_asks _ _ _ _ _ _ _ Im) as NA.
  destruct r as [[h0 k h rv cn|]|er].
  - destruct (_ <? _).
    + destruct (do_sync _ _ _ _ _) as [[[s2 x2] b]|] eqn:D; [|done]. cbn -[broadcast_tip]. intros [= <- <- <-].
      apply do_sync_evolves with (a := a) in D. cbn in D. rewrite raise_infl in D.
      rewrite app_assoc. eapply evolves_trans; [|exact D]. left. split; [|done]. apply no_asks_app; [done|apply broadcast_no_asks].
    + destruct (request _ _ _ _ _ _) as [s2 x2] eqn:R. intros [= <- <- <-].
      apply request_evolves with (a := a) in R. cbn in R. rewrite raise_infl in R.
      eapply evolves_trans; [|exact R]. by left.
  - destruct (locator_hashes H c1 (c_height c1)) as [l|]; [cbn -[request]|done].
    destruct (request _ _ _ _ _ _) as [s2 x2] eqn:R. intros [= <- <- <-].
    apply request_evolves with (a := a) in R. eapply evolves_trans; [|exact R]. by left.
  - destruct er; intros [= <- <- <-]; left; rewrite ?asks_app, ?NA; done.
Qed.

Lemma inv_evolves e a' inv c s s' x a : received_inv H cf e a' inv c s = Val (s', x) ->
  evolves (se_now e) a (infl s a) x (infl s' a).
Proof.
  unfold received_inv. destruct (is_syncing s); [intros [= <- <-]; by left|].
  destruct (_ <? _); [intros [= <- <-]; by left|].
  destruct (sy_peers s !! a') as [p|]; [|intros [= <- <-]; by left].
  destruct (last _); [|intros [= <- <-]; by left].
  destruct (locator_hashes H c (c_height c)) as [l|]; [cbn -[request]|done].
  intros [= R]. apply request_evolves with (a := a) in R. exact R.
Qed.

(** The timer. *)
Lemma timed_out_spec e s a : fair_env e ->
  a ∈ timed_out cf e s <-> exists r, infl s a = Some r /\ T <= se_now e - gr_sent r.
Proof.
  intros F. unfold timed_out. rewrite elem_of_list_In, filter_In, <- elem_of_list_In, (F 0%nat), elem_of_list_fmap. split.
  - intros [_ E]. destruct (infl s a) as [r|]; [|done]. exists r. split; [done|lia].
  - intros (r & E & L). rewrite E. split; [|lia]. exists (a, r). split; [done|]. by apply elem_of_map_to_list.
Qed.
Lemma timed_out_nodup e s : fair_env e -> NoDup (timed_out cf e s).
Proof.
  intros F. apply NoDup_ListNoDup, List.NoDup_filter, NoDup_ListNoDup. rewrite (F 0%nat). apply NoDup_fst_map_to_list.
Qed.

Definition drop_one (e : senv) (i : nat) (i0 : gmap N greq) (a : N) (s : sync) : sync * list sout * bool :=
  match i0 !! a with
  | None => (s, [], false)
  | Some r =>
      match gr_timeout r with
      | TIgnore => (s, [], false)
      | TRetry O | TDisconnect => (s, [SoDisconnect a], true)
      | TRetry (S n) =>
          match head (se_order e (5 + i) (List.filter (fun a' => negb (a' =? a) && is_candidate s (gr_locators r).1 a') (addrs s))) with
          | Some a' => let '(s, x) := request cf e a' (gr_locators r) (TRetry n) s in (s, x, false)
          | None => (s, [], false)
          end
      end
  end.
Lemma time_out_cons e i i0 a ps s : time_out cf e i i0 (a :: ps) s =
  let '(s1, x, b) := drop_one e i i0 a (with_inflight s (delete a (sy_inflight s))) in
  let '(s2, x', b') := time_out cf e (S i) i0 ps s1 in (s2, x ++ x', b || b').
Proof. reflexivity. Qed.

Lemma drop_one_evolves e i i0 a' s s' x b a : drop_one e i i0 a' s = (s', x, b) ->
  evolves (se_now e) a (infl s a) x (infl s' a).
Proof.
  unfold drop_one. destruct (i0 !! a') as [r|]; [|intros [= <- <- <-]; by left].
  destruct (gr_timeout r) as [| |[|n]]; [intros [= <- <- <-]; by left..|].
  destruct (head _); [|intros [= <- <- <-]; by left].
  destruct (request _ _ _ _ _ _) as [s1 x1] eqn:R. intros [= <- <- <-]. by eapply request_evolves.
Qed.

Lemma time_out_evolves e i i0 ps s s' x b a : time_out cf e i i0 ps s = (s', x, b) -> NoDup ps ->
  (forall p, p ∈ ps -> is_Some (infl s p)) ->
  evolves (se_now e) a (if bool_decide (a ∈ ps) then None else infl s a) x (infl s' a).
Proof.
  revert i s s' x b. induction ps as [|p ps IH]; intros i s s' x b.
  { cbn. intros [= <- <- <-] _ _. rewrite bool_decide_false by apply not_elem_of_nil. by left. }
  rewrite time_out_cons. set (s0 := with_inflight s _).
  destruct (drop_one e i i0 p s0) as [[s1 x1] b1] eqn:D. destruct (time_out cf e (S i) i0 ps s1) as [[s2 x2] b2] eqn:O.
  intros [= <- <- <-] [Np ND]%NoDup_cons A.
  assert (forall q, q <> p -> infl s0 q = infl s q) as Q. { intros q Nq. unfold s0. cbn. by rewrite lookup_delete_ne. }
  assert (forall q, q ∈ ps -> is_Some (infl s1 q)) as A1.
  { intros q Hq. destruct (A q) as [r Er]; [by right|]. assert (q <> p) as Nq by congruence.
    pose proof (drop_one_evolves _ _ _ _ _ _ _ _ q D) as E. rewrite (Q q Nq), Er in E. apply evolves_some in E as [_ ->]. by eexists. }
  specialize (IH _ _ _ _ _ O ND A1). pose proof (drop_one_evolves _ _ _ _ _ _ _ _ a D) as E.
  destruct (decide (a = p)) as [->|Na].
  - rewrite bool_decide_true by by left. rewrite bool_decide_false in IH by done.
    unfold s0 in E. cbn in E. rewrite lookup_delete in E. by eapply evolves_trans.
  - rewrite (Q a Na) in E. destruct (decide (a ∈ ps)) as [Ha|Ha].
    + rewrite bool_decide_true by by right. rewrite bool_decide_true in IH by done.
      destruct (A a) as [r Er]; [by right|]. rewrite Er in E. apply evolves_some in E as [E _].
      eapply evolves_trans; [|exact IH]. by left.
    + rewrite bool_decide_false by by rewrite elem_of_cons; intros [?|?]. rewrite bool_decide_false in IH by done. by eapply evolves_trans.
Qed.

Definition cut (oe : sync_op * senv) (a : N) (v : option greq) : option greq :=
  match oe.1 with
  | SDisconnect a' | SHeaders a' _ => if a' =? a then None else v
  | STimer => match v with Some r => if T <=? se_now oe.2 - gr_sent r then None else v | None => None end
  | _ => v
  end.
Lemma cut_ended oe a v : ended T a oe (gr_sent <$> v) = gr_sent <$> cut oe a v.
Proof. unfold ended, cut. destruct oe as [[] e]; cbn; try done; try (by destruct (_ =? _)). destruct v; cbn; [|done]. by destruct (_ <=? _). Qed.

Lemma step_evolves oe s c s' c' x a : fair_env oe.2 -> sync_step H cf oe (s, c) = Val (s', c', x) ->
  evolves (se_now oe.2) a (cut oe a (infl s a)) x (infl s' a).
Proof.
  destruct oe as [o e]. cbn [fst snd]. intros F. unfold sync_step, cut. destruct o; cbn [fst snd].
  - destruct (idle _ _ _ _ _) as [[s1 x1]|] eqn:D; [cbn|done]. intros [= <- <- <-]. by eapply idle_evolves.
  - destruct (sync_negotiated _ _ _ _ _ _ _ _ _ _) as [[s1 x1]|] eqn:D; [cbn|done]. intros [= <- <- <-]. by eapply negotiated_evolves.
  - intros [= <- <- <-]. left. split; [done|]. unfold unregister. cbn.
    destruct (N.eqb_spec addr a) as [->|Ne]; [by rewrite lookup_delete|by rewrite lookup_delete_ne].
  - unfold received_headers. intros D.
    assert (forall s1, sy_inflight s1 = delete from (sy_inflight s) -> infl s1 a = if from =? a then None else infl s a) as Q.
    { intros s1 ->. destruct (N.eqb_spec from a) as [->|Ne]; [by rewrite lookup_delete|by rewrite lookup_delete_ne]. }
    destruct hds as [|hd hds]; [injection D as <- <- <-; left; split; [done|]; by apply Q|].
    destruct (_ <? _); [injection D as <- <- <-; left; split; [done|]; by apply Q|].
    destruct (_ && _); [injection D as <- <- <-; left; split; [done|]; by apply Q|].
    destruct (_ !! _) as [p|]; [|injection D as <- <- <-; left; split; [done|]; by apply Q].
    apply process_evolves with (a := a) in D. rewrite Q in D by done. exact D.
  - destruct (received_getheaders _ _ _ _ _) as [x1|] eqn:D; [cbn|done]. intros [= <- <- <-]. left. split; [|done].
    unfold received_getheaders in D. destruct (_ || _); [by injection D as <-|].
    destruct (locate_headers _ _ _ _) as [hds|]; [|done]. cbn in D. injection D as <-. by destruct hds.
  - destruct (received_inv _ _ _ _ _ _ _) as [[s1 x1]|] eqn:D; [cbn|done]. intros [= <- <- <-]. by eapply inv_evolves.
  - unfold sync_timer. destruct (time_out _ _ _ _ _ _) as [[s1 x1] b] eqn:D.
    apply time_out_evolves with (a := a) in D; [|by apply timed_out_nodup|].
    2:{ intros p (r & E & _)%timed_out_spec; [by eexists|done]. }
    assert ((if bool_decide (a ∈ timed_out cf e s) then None else infl s a) =
      match infl s a with Some r => if T <=? se_now e - gr_sent r then None else infl s a | None => None end) as Q.
    { destruct (infl s a) as [r|] eqn:E.
      - destruct (N.leb_spec T (se_now e - gr_sent r)) as [L|L].
        + rewrite bool_decide_true; [done|]. apply timed_out_spec; [done|]. eauto.
        + rewrite bool_decide_false; [done|]. intros (r' & E' & L')%timed_out_spec; [|done]. rewrite E in E'. injection E' as <-. lia.
      - by destruct (bool_decide _). }
    rewrite Q in D. destruct b.
    + destruct (do_sync _ _ _ _ _) as [[[s2 x2] b2]|] eqn:E; [cbn|done]. intros [= <- <- <-].
      eapply evolves_trans; [exact D|by eapply do_sync_evolves].
    + destruct (idle _ _ _ _ _) as [[s2 x2]|] eqn:E; [cbn|done]. intros [= <- <- <-].
      eapply evolves_trans; [exact D|by eapply idle_evolves].
  - destruct (sync_import _ _ _ _ _) as [[[c1 x1] r]|] eqn:E; [cbn|done]. intros [= <- <- <-]. left. split; [|done].
    by eapply import_no_asks.
Qed.

Lemma run_outstanding os s c s' c' xs a : fair_envs os -> sync_run H cf os (s, c) = Val (s', c', xs) ->
  outstanding T a os xs (gr_sent <$> infl s a) = gr_sent <$> infl s' a.
Proof.
  revert s c xs. induction os as [|oe os IH]; intros s c xs F; cbn [sync_run].
  { by intros [= <- <- <-]. }
  inversion_clear F as [|?? Fo Fs]. destruct (sync_step H cf oe (s, c)) as [[[s1 c1] x]|] eqn:E; [cbn|done].
  destruct (sync_run H cf os (s1, c1)) as [[[s2 c2] xs2]|] eqn:R; [cbn|done]. intros [= <- <- <-]. cbn.
  rewrite <- (IH _ _ _ Fs R). f_equal. unfold outstanding_step.
  destruct (step_evolves oe s c s1 c1 x a Fo E) as [[A B]|(l & t & A & B & D)]; rewrite A.
  - rewrite cut_ended. by rewrite B.
  - by rewrite D.
Qed.

Lemma single_request os s c xs oe s' c' x a c0 : fair_envs os -> fair_env oe.2 ->
  sync_run H cf os (sync_init, c0) = Val (s, c, xs) -> sync_step H cf oe (s, c) = Val (s', c', x) ->
  (length (asks a x) + length (option_list (ended T a oe (outstanding T a os xs None))) <= 1)%nat.
Proof.
  intros F Fo R E. pose proof (run_outstanding _ _ _ _ _ _ a F R) as V. change (gr_sent <$> infl sync_init a) with (@None N) in V.
  rewrite V, cut_ended.
  destruct (step_evolves oe s c s' c' x a Fo E) as [[A B]|(l & t & A & B & D)]; rewrite A; [|rewrite B; cbn; lia].
  destruct (cut _ _ _); cbn; lia.
Qed.
End Proofs.
