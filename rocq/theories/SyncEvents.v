(** Which headers are imported, what is reported about them, and what is
    answered to peers. *)
From Coq Require Import Sorting.Sorted.
From stdpp Require Import sorting.
From Verif Require Import Base PowModel BlockModel BlockSpec BlockProofs BlockOps BlockImport BlockRun BlockMain BlockFacts BlockOrigin BlockQueries
  SyncModel SyncSpec SyncProofs SyncMain SyncFacts.
Open Scope N_scope.

Section Events.
Context (H : header -> N) (cf : sconf).

Lemma chain_events_app x y : chain_events (x ++ y) = chain_events x ++ chain_events y.
Proof. apply List.filter_app. Qed.
Definition quiet (x : list sout) : Prop := chain_events x = [].
Lemma quiet_app x y : quiet x -> quiet y -> quiet (x ++ y).
Proof. intros A B. unfold quiet. by rewrite chain_events_app, A, B. Qed.
Lemma quiet_forall x : (forall o, o ∈ x -> chain_event o = false) -> quiet x.
Proof.
  induction x as [|o x IH]; intros F; [done|]. unfold quiet. cbn. rewrite (F o) by (by left). apply IH. intros o' Ho. apply F. by right.
Qed.
Lemma request_quiet e a l t s s' x : request cf e a l t s = (s', x) -> quiet x.
Proof. intros R. apply quiet_forall. intros o I. by destruct (request_outputs cf _ _ _ _ _ _ _ _ R I) as [ -> | [ -> | -> ] ]. Qed.
Lemma broadcast_quiet order k c s : quiet (broadcast_tip order k c s).
Proof. apply quiet_forall. intros o I. by destruct (broadcast_blame _ _ _ _ _ I) as (? & ? & ->). Qed.
Lemma do_sync_quiet e c s s' x b : do_sync H cf e c s = Val (s', x, b) -> quiet x.
Proof.
  unfold do_sync. destruct (addrs s) as [|? ?]; [intros [= <- <- <-]; done|].
  destruct (is_synced _ _ _ _ _); [by intros [= <- <- <-]|].
  destruct (locator_hashes H c (c_height c)) as [lh|]; [cbn|done].
  destruct (syncing _ _); [by intros [= <- <- <-]|].
  destruct (preferred_peer _ _ _ _); [|by intros [= <- <- <-]].
  destruct (_ <? _); [|by intros [= <- <- <-]].
  destruct (request _ _ _ _ _ _) as [s1 x1] eqn:R. intros [= <- <- <-]. by eapply request_quiet.
Qed.
Lemma request_all_quiet e l ps : forall s s' x, request_all cf e l ps s = (s', x) -> quiet x.
Proof.
  induction ps as [|p ps IH]; intros s0 s2 x2; cbn; [by intros [= <- <-]|].
  destruct (request _ _ _ _ _ _) as [s3 x3] eqn:R. destruct (request_all _ _ _ _ _) as [s4 x4] eqn:R2.
  intros [= <- <-]. apply quiet_app; [by eapply request_quiet|by eapply IH].
Qed.
Lemma sample_quiet e c s s' x : sample_peers H cf e c s = Val (s', x) -> quiet x.
Proof.
  unfold sample_peers. destruct (_ <? _); [by intros [= <- <-]|]. destruct (stale_tip _ _ _ _ _); [|by intros [= <- <-]].
  destruct (locator_hashes H c (c_height c)) as [lh|]; [cbn|done]. intros [= R]. by eapply request_all_quiet.
Qed.
Lemma idle_quiet e c s s' x : idle H cf e c s = Val (s', x) -> quiet x.
Proof.
  unfold idle. destruct (_ <=? _); [|by intros [= <- <-]].
  destruct (do_sync _ _ _ _ _) as [[[s1 x1] b]|] eqn:D; [cbn|done]. apply do_sync_quiet in D. destruct b; cbn.
  - intros [= <- <-]. by apply quiet_app.
  - destruct (sample_peers _ _ _ _ _) as [[s2 x2]|] eqn:S2; [cbn|done]. intros [= <- <-]. apply sample_quiet in S2.
    apply quiet_app; [done|]. by apply quiet_app.
Qed.
Lemma time_out_quiet e i0 ps : forall i s s' x b, time_out cf e i i0 ps s = (s', x, b) -> quiet x.
Proof.
  induction ps as [|a ps IH]; intros i s s' x b; [by intros [= <- <- <-]|].
  rewrite time_out_cons. destruct (drop_one cf e i i0 a (with_inflight s (delete a (sy_inflight s)))) as [[s1 x1] b1] eqn:D. unfold drop_one in D.
  destruct (time_out cf e (S i) i0 ps s1) as [[s2 x2] b2] eqn:R. intros [= <- <- <-]. apply quiet_app; [|by eapply IH].
  destruct (i0 !! a) as [r|]; [|by injection D as <- <- <-]. destruct (gr_timeout r) as [| |[|n]]; [by injection D as <- <- <-..|].
  destruct (head _); [|by injection D as <- <- <-]. destruct (request _ _ _ _ _ _) as [s3 x3] eqn:Rq. injection D as <- <- <-. by eapply request_quiet.
Qed.

Lemma events_quiet_map (rv cn : list (N * header)) b k h :
  chain_events (((fun p => SoDisconnected p.1 p.2) <$> rv) ++ ((fun p => SoConnected p.1 p.2) <$> cn) ++ [SoImported b k h rv cn]) =
  map (fun p => SoDisconnected p.1 p.2) rv ++ map (fun p => SoConnected p.1 p.2) cn ++ [SoImported b k h rv cn].
Proof.
  rewrite !chain_events_app. f_equal; [|f_equal].
  - induction rv as [|z l IH]; [done|]. cbn. f_equal. exact IH.
  - induction cn as [|z l IH]; [done|]. cbn. f_equal. exact IH.
Qed.
Lemma import_events e hds c s c' x r : sync_import H e hds c s = Val (c', x, r) ->
  import_blocks H c hds (se_block_time e) = Val (c', r) /\ chain_events x = events_of r.
Proof.
  unfold sync_import. destruct (import_blocks H c hds (se_block_time e)) as [[c1 r1]|]; [cbn [mbind_M]|done].
  intros X. injection X as <- <- <-. split; [done|]. destruct r1 as [[hd k h rv cn|]|]; [|done..].
  set (y := _ ++ _). assert (y = (((fun p => SoDisconnected p.1 p.2) <$> rv) ++ ((fun p => SoConnected p.1 p.2) <$> cn) ++
    [SoImported (negb (bool_decide (rv = []))) k h rv cn]) ++ broadcast_tip (se_order e 3) k c1 s) as -> by (unfold y; by rewrite <- !app_assoc).
  rewrite chain_events_app, (broadcast_quiet (se_order e 3) k c1 s), app_nil_r, events_quiet_map. cbn [events_of]. do 4 f_equal. by destruct rv.
Qed.

Lemma process_events e from hd hds c s s' c' x : process_headers H cf e from hd hds c s = Val (s', c', x) ->
  (contains c (H (ne_last hd hds).1) = true /\ c' = c /\ x = []) \/
  (contains c (H (ne_last hd hds).1) = false /\ exists r, import_blocks H c (hd :: hds) (se_block_time e) = Val (c', r) /\ chain_events x = events_of r).
Proof.
  unfold process_headers. destruct (contains _ _) eqn:C; [intros [= <- <- <-]; by left|]. intros X0. right. split; [done|]. revert X0.
  destruct (sync_import H e (hd :: hds) c s) as [[[c1 x1] r]|] eqn:Im; [cbn [mbind_M] in *|done].
  destruct (import_events _ _ _ _ _ _ _ Im) as [Ib Ev].
  assert (Q : forall y s2, quiet y -> Val (s2, c1, x1 ++ y) = Val (s', c', x) ->
     exists r, import_blocks H c (hd :: hds) (se_block_time e) = Val (c', r) /\ chain_events x = events_of r).
  { intros y s2 Qy X. injection X as _ <- <-. exists r. split; [done|]. by rewrite chain_events_app, Qy, app_nil_r. }
  assert (Q0 : forall s2, Val (s2, c1, x1) = Val (s', c', x) ->
     exists r, import_blocks H c (hd :: hds) (se_block_time e) = Val (c', r) /\ chain_events x = events_of r).
  { intros s2 X. injection X as _ <- <-. by exists r. }
  destruct r as [[h0 k h rv cn|]|er].
  - destruct (_ <? _).
    + destruct (do_sync _ _ _ _ _) as [[[s2 x2] b]|] eqn:D; [cbn [mbind_M]|done]. intros X. refine (Q _ _ _ X). apply quiet_app; [apply broadcast_quiet|by eapply do_sync_quiet].
    + destruct (request _ _ _ _ _ _) as [s2 x2] eqn:R. intros X. refine (Q _ _ _ X). by eapply request_quiet.
  - destruct (locator_hashes H c1 (c_height c1)) as [lh|]; [cbn [mbind_M]|done]. destruct (request _ _ _ _ _ _) as [s2 x2] eqn:R. intros X. refine (Q _ _ _ X). by eapply request_quiet.
  - destruct er; intros X; first [exact (Q0 _ X)|refine (Q _ _ _ X); reflexivity].
Qed.

(** Everything but headers leaves the chain alone. *)
Lemma other_events oe s c s' c' x : op_imports oe = [] -> sync_step H cf oe (s, c) = Val (s', c', x) -> c' = c /\ chain_events x = [].
Proof.
  destruct oe as [o e]. unfold sync_step. destruct o; cbn [op_imports fst snd]; intros O; try done.
  - destruct (idle _ _ _ _ _) as [[s1 x1]|] eqn:D; [cbn|done]. intros [= <- <- <-]. split; [done|]. by eapply idle_quiet.
  - unfold sync_negotiated. destruct (_ && _); [by intros [= <- <- <-]|].
    destruct (do_sync _ _ _ _ _) as [[[s2 x2] b]|] eqn:D; [cbn|done]. intros [= <- <- <-]. split; [done|].
    apply quiet_app; [by destruct (_ <? _)|by eapply do_sync_quiet].
  - by intros [= <- <- <-].
  - unfold received_getheaders. destruct (_ || _); [by intros [= <- <- <-]|]. destruct (locate_headers _ _ _ _) as [hds|]; [cbn|done].
    intros [= <- <- <-]. split; [done|]. by destruct hds.
  - unfold received_inv. destruct (is_syncing s); [by intros [= <- <- <-]|]. destruct (_ <? _); [by intros [= <- <- <-]|].
    destruct (sy_peers s !! from); [|by intros [= <- <- <-]]. destruct (last _); [|by intros [= <- <- <-]].
    destruct (locator_hashes H c (c_height c)) as [lh|]; [cbn [mbind_M]|done]. destruct (request _ _ _ _ _ _) as [s2 x2] eqn:R.
    cbn [mbind_M]. intros X. injection X as <- <- <-. split; [done|]. by eapply request_quiet.
  - unfold sync_timer. destruct (time_out _ _ _ _ _ _) as [[s1 x1] b] eqn:D. apply time_out_quiet in D. destruct b.
    + destruct (do_sync _ _ _ _ _) as [[[s2 x2] b2]|] eqn:E; [cbn|done]. intros [= <- <- <-]. split; [done|]. apply quiet_app; [done|by eapply do_sync_quiet].
    + destruct (idle _ _ _ _ _) as [[s2 x2]|] eqn:E; [cbn|done]. intros [= <- <- <-]. split; [done|]. apply quiet_app; [done|by eapply idle_quiet].
Qed.

Lemma last_ne {A} (x : A) l : last (x :: l) = Some (ne_last x l).
Proof. revert x. induction l as [|y l IH]; intros x; [done|]. rewrite ne_last_cons. apply IH. Qed.

Lemma headers_events os c0 s c xs a hds e s' c' x : fair_envs os ->
  sync_run H cf os (sync_init, c0) = Val (s, c, xs) -> sync_step H cf (SHeaders a hds, e) (s, c) = Val (s', c', x) ->
  (forall k, contains c k = true <-> k ∈ map H (active c)) ->
  (taken H (sc_timeout cf) os xs c a hds -> exists r, import_blocks H c hds (se_block_time e) = Val (c', r) /\ chain_events x = events_of r) /\
  (~ taken H (sc_timeout cf) os xs c a hds -> c' = c /\ chain_events x = []).
Proof.
  intros F R E K. pose proof (run_outstanding H cf _ _ _ _ _ _ a F R) as V. change (gr_sent <$> sy_inflight sync_init !! a) with (@None N) in V.
  assert (J : joined a os false = bool_decide (is_Some (sy_peers s !! a))).
  { rewrite <- (run_joined H cf os sync_init c0 s c xs a R). f_equal. }
  unfold sync_step, received_headers in E. unfold taken. rewrite V, J. destruct hds as [|hd hds].
  { injection E as <- <- <-. split; [|done]. intros (_ & _ & _ & hd & Z & _). done. }
  destruct (N.ltb_spec MAX_MESSAGE_HEADERS (lenN (hd :: hds))) as [L|L]; unfold MAX_MESSAGE_HEADERS in L.
  { injection E as <- <- <-. split; [|done]. intros (_ & L' & _). lia. }
  unfold MAX_UNSOLICITED_HEADERS in E. destruct ((24 <? lenN (hd :: hds)) && _) eqn:Un.
  { injection E as <- <- <-. split; [|done]. intros (_ & _ & Q & _). apply andb_true_iff in Un as [U1 U2]. apply bool_decide_eq_true in U2. rewrite U2 in Q.
    apply N.ltb_lt in U1. destruct Q as [Q|Q]; [done|lia]. }
  cbn [with_inflight sy_peers] in E. destruct (sy_peers s !! a) as [p|] eqn:Ep.
  2:{ injection E as <- <- <-. split; [|done]. intros (Z & _). by rewrite bool_decide_false in Z by (intros [? ?]; done). }
  apply process_events in E as [(C & -> & ->)|(C & r & Ib & Ev)].
  - split; [|done]. intros (_ & _ & _ & hd' & Z & N1). rewrite last_ne in Z. injection Z as <-. apply K in C. done.
  - split; [intros _; by exists r|]. intros N1. exfalso. apply N1. split; [by apply bool_decide_eq_true; eexists|]. split; [lia|]. split.
    + destruct (sy_inflight s !! a) as [q|]; [by left|]. right. rewrite bool_decide_true, andb_true_r in Un by done. apply N.ltb_ge in Un. lia.
    + exists (ne_last hd hds). split; [apply last_ne|]. intros Z. apply K in Z. congruence.
Qed.
End Events.

(** ** Replaying the events *)
Definition after_h (p q : N * header) : Prop := q.1 < p.1.
Definition before_h (p q : N * header) : Prop := p.1 < q.1.
Global Instance after_antisymm : AntiSymm (=) after_h.
Proof. intros a b. unfold after_h. lia. Qed.
Global Instance before_antisymm : AntiSymm (=) before_h.
Proof. intros a b. unfold before_h. lia. Qed.
Lemma sorted_nodup (R : N * header -> N * header -> Prop) l : (forall a, ~ R a a) -> StronglySorted R l -> NoDup l.
Proof.
  intros Irr. induction 1 as [|a l S IH F]; [constructor|]. constructor; [|done]. intros Ha. rewrite Forall_forall in F. by apply (Irr a), F.
Qed.
Lemma sorted_eq (R : N * header -> N * header -> Prop) `{!AntiSymm (=) R} l l' : (forall a, ~ R a a) -> StronglySorted R l -> StronglySorted R l' ->
  (forall x, x ∈ l <-> x ∈ l') -> l = l'.
Proof.
  intros Irr S S' E. apply (StronglySorted_unique R); [done|done|]. apply NoDup_Permutation; [by eapply sorted_nodup|by eapply sorted_nodup|done].
Qed.

(** Headers numbered from a height on. *)
Fixpoint numbered (n : N) (l : list header) : list (N * header) :=
  match l with [] => [] | x :: l' => (n, x) :: numbered (n + 1) l' end.
Lemma numbered_elem n l h x : (h, x) ∈ numbered n l <-> n <= h /\ l !! N.to_nat (h - n) = Some x.
Proof.
  revert n. induction l as [|y l IH]; intros n; cbn [numbered].
  - rewrite elem_of_nil, lookup_nil. naive_solver.
  - rewrite elem_of_cons, IH. destruct (decide (h = n)) as [->|NE].
    + rewrite N.sub_diag. cbn. split; [intros [[= ->]|[L _]]; [split; [lia|done]|lia]|]. intros [_ [= ->]]. by left.
    + split.
      * intros [[= -> ->]|[L E]]; [done|]. split; [lia|]. replace (N.to_nat (h - n)) with (S (N.to_nat (h - (n + 1)))) by lia. done.
      * intros [L E]. right. split; [lia|]. replace (N.to_nat (h - n)) with (S (N.to_nat (h - (n + 1)))) in E by lia. done.
Qed.
Lemma numbered_sorted n l : StronglySorted before_h (numbered n l).
Proof.
  revert n. induction l as [|y l IH]; intros n; cbn; [constructor|]. constructor; [apply IH|]. apply Forall_forall. intros [h x] E.
  apply numbered_elem in E as [L _]. unfold before_h. cbn. lia.
Qed.
Lemma sorted_reverse l : StronglySorted before_h l -> StronglySorted after_h (reverse l).
Proof.
  induction 1 as [|a l S IH F]; [constructor|]. rewrite reverse_cons. clear S. revert IH. 
  assert (Fr : Forall (before_h a) (reverse l)) by (by rewrite Forall_reverse). revert Fr. generalize (reverse l). clear. intros l Fr S.
  induction S as [|b l S IH F]; cbn; [repeat constructor|]. apply Forall_cons in Fr as [B Fr]. constructor; [by apply IH|].
  apply Forall_app. split; [done|]. constructor; [|constructor]. exact B.
Qed.
Lemma numbered_snoc n l x : numbered n (l ++ [x]) = numbered n l ++ [(n + lenN l, x)].
Proof.
  revert n. induction l as [|y l IH]; intros n; cbn [numbered app]; [by rewrite N.add_0_r|]. rewrite IH. replace (n + lenN (y :: l)) with (n + 1 + lenN l) by (unfold lenN; cbn [length]; lia). done.
Qed.
Lemma replay_connect l : forall p x, replay p (map (fun q => SoConnected q.1 q.2) (numbered (lenN p) l) ++ x) = replay (p ++ l) x.
Proof.
  induction l as [|y l IH]; intros p x; cbn; [by rewrite app_nil_r|]. rewrite N.eqb_refl.
  replace (lenN p + 1) with (lenN (p ++ [y])) by (unfold lenN; rewrite app_length; cbn; lia). rewrite IH. by rewrite <- app_assoc.
Qed.
Lemma replay_disconnect l : forall p x, replay (p ++ l) (map (fun q => SoDisconnected q.1 q.2) (reverse (numbered (lenN p) l)) ++ x) = replay p x.
Proof.
  induction l as [|y l IH] using rev_ind; intros p x; [by rewrite app_nil_r|]. rewrite numbered_snoc, reverse_snoc, app_assoc. cbn [map app replay].
  rewrite reverse_snoc, bool_decide_true by done. cbn [andb fst snd].
  replace (lenN (reverse (p ++ l)) =? lenN p + lenN l) with true; [rewrite reverse_involutive; apply IH|].
  symmetry. apply N.eqb_eq. unfold lenN. rewrite reverse_length, app_length. lia.
Qed.
(** Exact lists of the blocks that left and joined the chain. *)
Lemma replay_exact (p r s : list header) rv cn y : NoDup (p ++ r) -> NoDup (p ++ s) -> (forall x, x ∈ r -> x ∉ s) ->
  report_exact (p ++ r) (p ++ s) rv cn -> 
  replay (p ++ r) (map (fun q => SoDisconnected q.1 q.2) rv ++ map (fun q => SoConnected q.1 q.2) cn ++ y) = replay (p ++ s) y.
Proof.
  intros N1 N2 D (Sr & Sc & Hr & Hc).
  assert (G : forall a b, NoDup (p ++ a) -> (forall x, x ∈ a -> x ∉ b) -> forall h x, ((p ++ a) !! N.to_nat h = Some x /\ x ∉ p ++ b) <-> (h, x) ∈ numbered (lenN p) a).
  { intros a b Na Dab h x. rewrite numbered_elem. unfold lenN. split.
    - intros [E Nx]. apply lookup_app_Some in E as [E|[L E]].
      + exfalso. apply Nx, elem_of_app. left. by eapply elem_of_list_lookup_2.
      + split; [lia|]. rewrite <- E. f_equal. lia.
    - intros [L E]. split.
      + rewrite lookup_app_r by lia. rewrite <- E. f_equal. lia.
      + rewrite elem_of_app. assert (x ∈ a) as Ha by (by eapply elem_of_list_lookup_2). intros [Q|Q]; [|by eapply Dab].
        apply NoDup_app in Na as (_ & Na & _). by eapply Na. }
  assert (rv = reverse (numbered (lenN p) r)) as ->.
  { apply (sorted_eq after_h); [intros a; unfold after_h; lia|exact Sr|apply sorted_reverse, numbered_sorted|].
    intros [h x]. rewrite elem_of_reverse, Hr. by apply G. }
  assert (cn = numbered (lenN p) s) as ->.
  { apply (sorted_eq before_h); [intros a; unfold before_h; lia|exact Sc|apply numbered_sorted|].
    intros [h x]. rewrite Hc. apply G; [done|]. intros z Hz Hz'. by eapply D. }
  rewrite replay_disconnect. apply replay_connect.
Qed.

Section Replay.
Context (H : header -> N) (ng : network -> N) (st : store) (ps : params) (cps : list (N * N)) (Hps : params_ok ps).
Notation g := (s_genesis st).
Lemma single_replay hist c hd ch now c' r : transition H ng st ps cps hist c (OImport [(hd, ch)] now) c' r -> io_ok_choice ch ->
  replay (active c) (events_of r) = Some (active c').
Proof.
  intros T Io. destruct r as [[tip k h rv cn|]|e].
  2: { cbn. f_equal. symmetry. exact (batch_report_facts H ng st ps cps Hps _ _ _ _ _ _ T). }
  2: { cbn. f_equal. symmetry. apply (failed_import H ng st ps cps Hps _ _ _ _ _ _ _ T). unfold io_ok. cbn. by constructor. }
  destruct (one_import H ng st ps cps Hps _ _ _ _ _ _ _ T) as (rank & tl & tl' & r0 & I & I' & Ep & Ep' & E & O & M).
  destruct r0 as [[tip0 k0 ht0 rv0 cn0|]|e0]; [|done|by destruct e0]. destruct M as (rv' & cn' & Er & Ex). injection Er as -> -> -> -> ->.
  destruct (import_tip_changed H rank g _ _ _ _ _ _ _ _ _ _ _ _ I O) as (cd & Hbr & Etl & Hne & Hfit & _). unfold fits in Hfit.
  rewrite (inv_active I), (inv_active I').
  set (n := N.to_nat (cd_fork_height cd)) in *.
  assert (Hun : is_known c (H hd) = false).
  { inversion O; subst; match goal with X : entered _ _ _ _ _ _ |- _ => apply X end. }
  assert (Hnew : forall x, x ∈ g :: tl -> x ∉ cd_headers cd).
  { intros x Hin Hx. assert (contains c (H x) = true) as Hcon by (apply (inv_contains I); by exists x).
    destruct Hbr as (_ & _ & _ & _ & Hf). rewrite Forall_forall in Hf. specialize (Hf x Hx). cbn [with_orphan c_orphans] in Hf.
    destruct (decide (H hd = H x)) as [Eh|Eh].
    - unfold is_known in Hun. rewrite Eh, Hcon in Hun. done.
    - rewrite lookup_insert_ne in Hf by done. apply (i_disj I) in Hf. unfold contains in Hcon. rewrite Hf in Hcon.
      apply bool_decide_eq_true in Hcon as [? ?]. done. }
  assert (ND : forall c tl, INV H rank g c tl -> NoDup (g :: tl)).
  { intros c2 tl2 I2. pose proof (inv_nodup I2) as ND. change (map H) with (fmap H : list header -> list N) in ND. by eapply NoDup_fmap_1. }
  assert (E1 : g :: tl = (g :: take n tl) ++ drop n tl) by (cbn; by rewrite take_drop).
  assert (E2 : g :: tl' = (g :: take n tl) ++ cd_headers cd) by (rewrite Etl; done).
  pose proof (ND _ _ I) as N1. pose proof (ND _ _ I') as N2. rewrite E1 in N1. rewrite E2 in N2. rewrite E1, E2 in Ex.
  cbn [events_of]. rewrite E1, E2. erewrite replay_exact; [| | | |exact Ex]; [done|done|done|].
  intros x Hx. apply Hnew. rewrite E1. apply elem_of_app. by right.
Qed.
End Replay.

Lemma replay_events x : forall l, replay l x = replay l (chain_events x).
Proof.
  induction x as [|o x IH]; intros l; [done|]. destruct o; cbn; try (by apply IH).
  - destruct (reverse l); [done|]. by destruct (_ && _).
  - by destruct (_ =? _).
Qed.
Lemma replay_app x y : forall l, replay l (x ++ y) = replay l x ≫= fun l' => replay l' y.
Proof.
  induction x as [|o x IH]; intros l; [done|]. destruct o; cbn; try (by apply IH).
  - destruct (reverse l); [done|]. by destruct (_ && _).
  - by destruct (_ =? _).
Qed.

Section Runs.
Context (H : header -> N) (ng : network -> N) (cf : sconf) (st : store) (ps : params) (cps : list (N * N)) (c0 : cache).
Context (Hps : params_ok ps) (E0 : from_store H ng st ps cps = Val (Ok c0)) (L0 : linked_from H (H (s_genesis st)) (s_tail st)).

Lemma step_events oe s c s' c' x : sync_step H cf oe (s, c) = Val (s', c', x) ->
  (c' = c /\ chain_events x = []) \/
  exists hds r, op_imports oe = [OImport hds (se_block_time oe.2)] /\ import_blocks H c hds (se_block_time oe.2) = Val (c', r) /\ chain_events x = events_of r.
Proof.
  intros E. destruct oe as [o e]. destruct o; try (left; refine (other_events H cf _ _ _ _ _ _ _ E); reflexivity); cbn [fst snd].
  - unfold sync_step, received_headers in E. destruct hds as [|hd hds]; [injection E as <- <- <-; by left|].
    destruct (_ <? _); [injection E as <- <- <-; by left|]. destruct (_ && _); [injection E as <- <- <-; by left|].
    destruct (sy_peers _ !! from); [|injection E as <- <- <-; by left].
    apply process_events in E as [(_ & -> & ->)|(_ & r & Ib & Ev)]; [by left|right]. by exists (hd :: hds), r.
  - unfold sync_step in E. destruct (sync_import _ _ _ _ _) as [[[c1 x1] r]|] eqn:Im; [cbn in E|done]. injection E as <- <- <-. right.
    exists hds, r. split; [done|]. by eapply import_events.
Qed.

Lemma run_contains os s c xs : sync_run H cf os (sync_init, c0) = Val (s, c, xs) ->
  acyclic H (s_tail st ++ presented (imports os)) -> fair (imports os) ->
  exists hist outs, hist `sublist_of` imports os /\ reachable H ng st ps cps hist c outs /\ forall k, contains c k = true <-> k ∈ map H (active c).
Proof.
  intros R A F. destruct (run_imports H cf _ _ _ _ _ _ R) as (hist & outs & Sh & Rh). exists hist, outs. split; [done|].
  pose proof (hist_reachable H ng st ps cps c0 E0 L0 _ _ _ _ Sh A F Rh) as Re. split; [done|].
  destruct (reach_inv H ng st ps cps Hps _ _ _ Re) as (rank & tl & I). intros k. rewrite (inv_contains I), (inv_active I).
  change (map H) with (fmap H : list header -> list N). rewrite elem_of_list_fmap. naive_solver.
Qed.

Lemma headers_taken os s c xs a hds e s' c' x : fair_envs os ->
  sync_run H cf os (sync_init, c0) = Val (s, c, xs) -> sync_step H cf (SHeaders a hds, e) (s, c) = Val (s', c', x) ->
  acyclic H (s_tail st ++ presented (imports os)) -> fair (imports os) ->
  (taken H (sc_timeout cf) os xs c a hds -> exists r, import_blocks H c hds (se_block_time e) = Val (c', r) /\ chain_events x = events_of r) /\
  (~ taken H (sc_timeout cf) os xs c a hds -> c' = c /\ chain_events x = []).
Proof. intros F R E A Fi. destruct (run_contains _ _ _ _ R A Fi) as (_ & _ & _ & _ & K). by eapply headers_events. Qed.

Lemma run_replay os : forall s c xs, sync_run H cf os (sync_init, c0) = Val (s, c, xs) ->
  acyclic H (s_tail st ++ presented (imports os)) -> fair (imports os) -> io_ok (imports os) ->
  Forall (fun o => (length (op_inputs o) <= 1)%nat) (imports os) ->
  replay (active c0) (concat xs) = Some (active c).
Proof.
  induction os as [|oe os IH] using rev_ind; intros s c xs R A F Io One; [cbn in R; by injection R as <- <- <-|].
  rewrite sync_run_snoc in R. destruct (sync_run H cf os (sync_init, c0)) as [[[s1 c1] xs1]|] eqn:R1; [cbn [mbind_M] in R|done].
  destruct (sync_step H cf oe (s1, c1)) as [[[s2 c2] x]|] eqn:E; [cbn [mbind_M] in R|done]. injection R as <- <- <-.
  assert (imports os `sublist_of` imports (os ++ [oe])) as Sub by (rewrite imports_app; by apply sublist_inserts_r).
  rewrite imports_app in Io, One. unfold io_ok, inputs in Io. rewrite map_app, concat_app in Io. apply Forall_app in Io as [Io1 Io2]. apply Forall_app in One as [One1 One2].
  rewrite concat_app, replay_app, (IH _ _ _ eq_refl); [|by eapply acyclic_sub|by eapply fair_sub|done|done].
  cbn [mbind option_bind]. cbn [concat]. rewrite app_nil_r, replay_events.
  destruct (step_events _ _ _ _ _ _ E) as [[-> ->]|(hds & r & Eo & Ib & ->)]; [done|].
  assert (imports [oe] = [OImport hds (se_block_time oe.2)]) as E1 by (unfold imports; cbn; by rewrite Eo). rewrite E1 in One2, Io2.
  apply Forall_cons in One2 as [L _]. cbn in L, Io2. rewrite app_nil_r in Io2.
  destruct (run_imports H cf _ _ _ _ _ _ R1) as (hist & outs & Sh & Rh).
  assert (hist ++ [OImport hds (se_block_time oe.2)] `sublist_of` imports (os ++ [oe])) as Sub2.
  { rewrite imports_app, E1. by apply sublist_app. }
  destruct hds as [|[hd ch] [|? ?]]; [| |cbn in L; lia].
  { unfold import_blocks in Ib. cbn in Ib. by injection Ib as <- <-. }
  eapply (single_replay H ng st ps cps Hps hist c1 hd ch); [|by apply Forall_cons in Io2 as [Io2 _]].
  constructor.
  - exists outs. eapply hist_reachable; [done|exact L0|exact Sh|by eapply acyclic_sub|by eapply fair_sub|done].
  - by eapply acyclic_sub.
  - eapply fair_sub; [|exact F]. etrans; [|exact Sub2]. by apply sublist_inserts_l.
  - exact Ib.
Qed.
End Runs.
