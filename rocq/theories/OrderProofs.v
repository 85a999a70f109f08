(** The order in which filters arrive does not matter to the scan. *)
From Verif Require Import Base UtilModel UtilSpec UtilProofs CbfModel CbfSpec CbfProofs CbfStep CbfMain CbfScan CbfFacts CbfWait CbfAsked OrderSpec.
Open Scope N_scope.

(** ** The part of the state that matters *)
Notation queue := (gmap N (bfilter * N * bool)).
Record core := Core { q_cur : N; q_req : gset N; q_recv : queue; q_pend : gset N }.
Definition core_of (s : cbf) : core :=
  Core (r_current (c_rescan s)) (r_requested (c_rescan s)) (r_received (c_rescan s)) (c_pending s).
Definition accepted (P : params) (t : tree) (s : cbf) (ftype hash : N) (f : bfilter) : option (N * (bfilter * N)) :=
  if negb (ftype =? 0) then None else
  match tr_get t hash with
  | None => None
  | Some h =>
      match f_get P s h, f_prev P s h with
      | Some (_, header), Some prev => if negb (p_header P (p_hash P f) prev =? header) then None else Some (h, (f, hash))
      | _, _ => None
      end
  end.
Definition drain (P : params) (r : rescan) (cur : N) (recv : queue) : N * queue * list (N * N) * list cout :=
  match process_loop P (size recv) r cur recv with Val q => q | Panic _ => (cur, recv, [], []) end.
Definition deliver (P : params) (r : rescan) (a : option (N * (bfilter * N))) (c : core) : core * list cout * list cout :=
  match a with
  | Some (h, (f, hash)) =>
      if decide (h ∈ q_req c) then
        let '(cur, recv, ms, es) := drain P r (q_cur c) (<[h := (f, hash, false)]> (q_recv c)) in
        let '(p, o) := want_blocks ms (q_pend c) in
        (Core cur (q_req c ∖ {[h]}) recv p, es, o)
      else (c, [], [])
  | None => (c, [], [])
  end.
Fixpoint delivers (P : params) (r : rescan) (l : list (option (N * (bfilter * N)))) (c : core) : core * list cout * list cout :=
  match l with
  | [] => (c, [], [])
  | a :: l' => let '(c1, es, o) := deliver P r a c in let '(c2, es', o') := delivers P r l' c1 in (c2, es ++ es', o ++ o')
  end.
Definition apart_core (c : core) : Prop := forall h, h ∈ q_req c -> q_recv c !! h = None.

(** ** Processing *)
Lemma loop_fuel P r : forall n m cur recv q, process_loop P n r cur recv = Val q -> (n <= m)%nat -> process_loop P m r cur recv = Val q.
Proof.
  induction n as [|n IH]; intros m cur recv q; (destruct m as [|m]; [|]); cbn [process_loop]; destruct (recv !! cur) as [[[f hash] c]|]; try done; try lia.
  intros E L. destruct (process_loop P n r (cur + 1) (delete cur recv)) as [q1|] eqn:E1; [|done]. cbn [mbind_M] in E.
  rewrite (IH m _ _ _ E1) by lia. exact E.
Qed.
Lemma loop_same P r r' : r_watch r' = r_watch r -> r_txs r' = r_txs r -> forall n cur recv, process_loop P n r' cur recv = process_loop P n r cur recv.
Proof.
  intros W T. induction n as [|n IH]; intros cur recv; cbn [process_loop]; [done|]. destruct (recv !! cur) as [[[f hash] c]|]; [|done].
  rewrite IH. unfold match_filter. by rewrite W, T.
Qed.
Lemma drain_same P r r' cur recv : r_watch r' = r_watch r -> r_txs r' = r_txs r -> drain P r' cur recv = drain P r cur recv.
Proof. intros W T. unfold drain. by rewrite (loop_same P r r'). Qed.
Lemma drain_loop P r cur recv n : (size recv <= n)%nat -> process_loop P n r cur recv = Val (drain P r cur recv).
Proof.
  intros L. unfold drain. destruct (process_loop_spec P r (size recv) cur recv) as (k & ms & es & recv' & E & _); [done|].
  rewrite E. by apply (loop_fuel _ _ (size recv)).
Qed.
Lemma drain_unique P r cur recv n q : process_loop P n r cur recv = Val q -> drain P r cur recv = q.
Proof.
  intros E. pose proof (drain_loop P r cur recv (Nat.max n (size recv)) ltac:(lia)) as D. rewrite (loop_fuel _ _ _ _ _ _ _ E) in D by lia. by injection D.
Qed.

Lemma loop_insert P r h v : forall n cur recv cur1 recv1 ms1 es1, process_loop P n r cur recv = Val (cur1, recv1, ms1, es1) -> recv !! h = None ->
  forall m cur2 recv2 ms2 es2, process_loop P m r cur1 (<[h := v]> recv1) = Val (cur2, recv2, ms2, es2) ->
  process_loop P (n + m) r cur (<[h := v]> recv) = Val (cur2, recv2, ms1 ++ ms2, es1 ++ es2).
Proof.
  induction n as [|n IH]; intros cur recv cur1 recv1 ms1 es1; cbn [process_loop Nat.add]; destruct (recv !! cur) as [[[f hash] c]|] eqn:Ec.
  - done.
  - intros [= <- <- <- <-] _ m cur2 recv2 ms2 es2 E. exact E.
  - destruct (process_loop P n r (cur + 1) (delete cur recv)) as [[[[c1 q1] ms] es]|] eqn:E1; [|done]. cbn [mbind_M]. intros [= <- <- <- <-] Nh m cur2 recv2 ms2 es2 E.
    assert (h <> cur) by (intros ->; congruence). rewrite lookup_insert_ne by done. rewrite Ec.
    rewrite delete_insert_ne by done. rewrite (IH _ _ _ _ _ _ E1 ltac:(by rewrite lookup_delete_ne) _ _ _ _ _ E). cbn [mbind_M].
    by destruct (default false _).
  - intros [= <- <- <- <-] _ m cur2 recv2 ms2 es2 E. apply (loop_fuel _ _ m (Datatypes.S (n + m))) in E; [|lia]. exact E.
Qed.
(** Filters that were processed do not come back. *)
Lemma drain_rest P r cur recv h : recv !! h = None -> (drain P r cur recv).1.1.2 !! h = None.
Proof.
  intros E. unfold drain. destruct (process_loop_spec P r (size recv) cur recv) as (k & ms & es & recv' & -> & _ & R & _); [done|]. cbn.
  rewrite R. by destruct (decide _).
Qed.
Lemma drain_insert P r cur recv h v cur1 recv1 ms1 es1 cur2 recv2 ms2 es2 : recv !! h = None ->
  drain P r cur recv = (cur1, recv1, ms1, es1) -> drain P r cur1 (<[h := v]> recv1) = (cur2, recv2, ms2, es2) ->
  drain P r cur (<[h := v]> recv) = (cur2, recv2, ms1 ++ ms2, es1 ++ es2).
Proof.
  intros N1 E1 E2. pose proof (drain_loop P r cur recv _ (le_n _)) as L1. rewrite E1 in L1.
  pose proof (drain_loop P r cur1 (<[h := v]> recv1) _ (le_n _)) as L2. rewrite E2 in L2.
  exact (drain_unique _ _ _ _ _ _ (loop_insert _ _ _ _ _ _ _ _ _ _ _ L1 N1 _ _ _ _ _ L2)).
Qed.
Lemma want_app ms1 : forall ms2 p, want_blocks (ms1 ++ ms2) p =
  let '(p1, o1) := want_blocks ms1 p in let '(p2, o2) := want_blocks ms2 p1 in (p2, o1 ++ o2).
Proof.
  induction ms1 as [|[h hash] ms1 IH]; intros ms2 p; cbn [want_blocks app]; [by destruct (want_blocks ms2 p)|].
  destruct (decide (h ∈ p)); [by rewrite IH|]. rewrite IH. destruct (want_blocks ms1 _) as [p1 o1]. by destruct (want_blocks ms2 p1).
Qed.

Lemma deliver_apart P r a c : apart_core c -> apart_core (deliver P r a c).1.1.
Proof.
  unfold deliver. intros A. destruct a as [[h [f hash]]|]; [|done]. destruct (decide (h ∈ q_req c)) as [I|]; [|done].
  pose proof (drain_rest P r (q_cur c) (<[h := (f, hash, false)]> (q_recv c))) as D.
  destruct (drain _ _ _ _) as [[[cur recv] ms] es]. destruct (want_blocks _ _) as [p o]. cbn in *. intros h' I'. apply D.
  rewrite lookup_insert_ne by set_solver. apply A. set_solver.
Qed.
(** Two filters, one after the other, make the same difference as both at
    once. *)
Lemma deliver_both P r c h f hash h' f' hash' : apart_core c -> h ∈ q_req c -> h' ∈ q_req c -> h <> h' ->
  let '(c1, es, o) := deliver P r (Some (h, (f, hash))) c in
  let '(c2, es', o') := deliver P r (Some (h', (f', hash'))) c1 in
  let '(cur, recv, ms, ess) := drain P r (q_cur c) (<[h' := (f', hash', false)]> (<[h := (f, hash, false)]> (q_recv c))) in
  let '(p, os) := want_blocks ms (q_pend c) in
  c2 = Core cur (q_req c ∖ {[h]} ∖ {[h']}) recv p /\ es ++ es' = ess /\ o ++ o' = os.
Proof.
  intros A I I' N. unfold deliver at 1. rewrite decide_True by done.
  destruct (drain P r (q_cur c) (<[h := (f, hash, false)]> (q_recv c))) as [[[cur1 recv1] ms1] es1] eqn:D1.
  destruct (want_blocks ms1 (q_pend c)) as [p1 o1] eqn:W1. unfold deliver. cbn [q_req q_cur q_recv q_pend]. rewrite decide_True by set_solver.
  destruct (drain P r cur1 (<[h' := (f', hash', false)]> recv1)) as [[[cur2 recv2] ms2] es2] eqn:D2.
  destruct (want_blocks ms2 p1) as [p2 o2] eqn:W2.
  erewrite drain_insert; [|rewrite lookup_insert_ne by done; by apply A|exact D1|exact D2].
  rewrite want_app, W1, W2. done.
Qed.

Definition agree (a b : option (N * (bfilter * N))) : Prop :=
  forall h v w, a = Some (h, v) -> b = Some (h, w) -> v = w.
Lemma deliver_skip P r h f hash c : h ∉ q_req c -> deliver P r (Some (h, (f, hash))) c = (c, [], []).
Proof. intros N. unfold deliver. by rewrite decide_False. Qed.
Lemma deliver_req P r a c h : h ∉ q_req c -> h ∉ q_req (deliver P r a c).1.1.
Proof.
  unfold deliver. intros N. destruct a as [[h' [f hash]]|]; [|done]. destruct (decide _); [|done].
  destruct (drain _ _ _ _) as [[[cur recv] ms] es]. destruct (want_blocks _ _) as [p o]. cbn. set_solver.
Qed.
Lemma delivers_swap P r a b c : apart_core c -> agree a b -> delivers P r [a; b] c = delivers P r [b; a] c.
Proof.
  intros A G. cbn [delivers]. assert (Nn : forall d, deliver P r None d = (d, [], [])) by done.
  destruct a as [[h [f hash]]|], b as [[h' [f' hash']]|].
  - destruct (decide (h ∈ q_req c)) as [I|I].
    2: { pose proof (deliver_req P r (Some (h', (f', hash'))) c h I) as Q. rewrite (deliver_skip _ _ _ _ _ _ I).
         destruct (deliver P r (Some (h', (f', hash'))) c) as [[c1 es] o]. cbn [fst] in Q. rewrite (deliver_skip _ _ _ _ _ _ Q).
         by rewrite !app_nil_r. }
    destruct (decide (h' ∈ q_req c)) as [I'|I'].
    2: { pose proof (deliver_req P r (Some (h, (f, hash))) c h' I') as Q. rewrite (deliver_skip _ _ _ _ _ _ I').
         destruct (deliver P r (Some (h, (f, hash))) c) as [[c1 es] o]. cbn [fst] in Q. rewrite (deliver_skip _ _ _ _ _ _ Q).
         by rewrite !app_nil_r. }
    destruct (decide (h = h')) as [<-|N].
    { pose proof (G h _ _ eq_refl eq_refl) as [= <- <-]. done. }
    pose proof (deliver_both P r c h f hash h' f' hash' A I I' N) as X.
    pose proof (deliver_both P r c h' f' hash' h f hash A I' I (not_eq_sym N)) as Y.
    rewrite insert_commute in Y by done.
    destruct (deliver P r (Some (h, (f, hash))) c) as [[c1 es1] o1]. destruct (deliver P r (Some (h', (f', hash'))) c1) as [[c2 es2] o2].
    destruct (deliver P r (Some (h', (f', hash'))) c) as [[d1 xs1] y1]. destruct (deliver P r (Some (h, (f, hash))) d1) as [[d2 xs2] y2].
    destruct (drain _ _ _ _) as [[[cur recv] ms] ess]. destruct (want_blocks ms (q_pend c)) as [p os].
    destruct X as (-> & X1 & X2), Y as (-> & Y1 & Y2). rewrite !app_nil_r, X1, X2, Y1, Y2.
    f_equal. f_equal. f_equal. set_solver.
  - rewrite Nn. destruct (deliver P r (Some (h, (f, hash))) c) as [[c1 es] o]. rewrite Nn. by rewrite !app_nil_r.
  - rewrite Nn. destruct (deliver P r (Some (h', (f', hash'))) c) as [[c1 es] o]. rewrite Nn. by rewrite !app_nil_r.
  - done.
Qed.
Lemma delivers_app P r l1 : forall l2 c, delivers P r (l1 ++ l2) c =
  let '(c1, es, o) := delivers P r l1 c in let '(c2, es', o') := delivers P r l2 c1 in (c2, es ++ es', o ++ o').
Proof.
  induction l1 as [|a l1 IH]; intros l2 c; cbn [delivers app]; [by destruct (delivers P r l2 c) as [[? ?] ?]|].
  destruct (deliver P r a c) as [[c1 es] o]. rewrite IH. destruct (delivers P r l1 c1) as [[c2 es'] o'].
  destruct (delivers P r l2 c2) as [[c3 es''] o'']. by rewrite !app_assoc.
Qed.
Lemma delivers_perm P r l l' : l ≡ₚ l' -> (forall a b, a ∈ l -> b ∈ l -> agree a b) -> forall c, apart_core c -> delivers P r l c = delivers P r l' c.
Proof.
  induction 1 as [|a l l' Pm IH|a b l|l l1 l2 P1 IH1 P2 IH2]; intros G c A.
  - done.
  - cbn [delivers]. pose proof (deliver_apart P r a c A) as A1. destruct (deliver P r a c) as [[c1 es] o]. cbn [fst] in A1.
    rewrite (IH ltac:(intros ????; apply G; by right) c1 A1). done.
  - change (a :: b :: l) with ([a; b] ++ l). change (b :: a :: l) with ([b; a] ++ l). rewrite !delivers_app.
    rewrite (delivers_swap P r a b c A); [done|]. apply G; set_solver.
  - rewrite IH1 by done. apply IH2; [|done]. intros x y Hx Hy. rewrite <- P1 in Hx, Hy. by apply G.
Qed.

(** ** One message *)
Lemma accepted_spec P t s ftype hash f h v : accepted P t s ftype hash f = Some (h, v) ->
  v = (f, hash) /\ tr_get t hash = Some h /\ authentic P s h f.
Proof.
  unfold accepted. destruct (negb (ftype =? 0)); [done|]. destruct (tr_get t hash) as [k|] eqn:T; [|done].
  destruct (f_get P s k) as [[fh header]|] eqn:Eg; [|done]. destruct (f_prev P s k) as [prev|] eqn:Ep; [|done].
  destruct (N.eqb_spec (p_header P (p_hash P f) prev) header) as [Ea|]; cbn [negb]; [|done]. intros [= -> <-]. split; [done|]. split; [done|].
  exact (authentic_intro _ _ _ _ _ _ _ Eg Ep Ea).
Qed.
Lemma accepted_same P t s s' : c_filters s' = c_filters s -> accepted P t s' = accepted P t s.
Proof.
  intros E. assert (X : f_entries P s' = f_entries P s) by (unfold f_entries; by rewrite E).
  unfold accepted, f_prev, f_get. by rewrite X.
Qed.
Lemma scanned_app x y : scanned (x ++ y) = scanned x ++ scanned y.
Proof. apply List.filter_app. Qed.
Lemma fetched_app x y : fetched (x ++ y) = fetched x ++ fetched y.
Proof. apply List.filter_app. Qed.
Lemma all_fetched o : Forall (fun x => exists h, x = CoGetBlock h) o -> scanned o = [] /\ fetched o = o.
Proof. induction 1 as [|x o [h ->] F [IH1 IH2]]; [done|]. unfold scanned, fetched in *. cbn [List.filter]. by rewrite IH1, IH2. Qed.
Lemma all_scanned {A} (g : nat -> A -> cout) l : (forall i a, exists b h v m c, g i a = CoFilterProcessed b h v m c) -> scanned (imap g l) = imap g l /\ fetched (imap g l) = [].
Proof.
  revert g. induction l as [|a l IH]; intros g G; [done|]. cbn [imap]. destruct (G 0%nat a) as (b & h & v & m & c & E). rewrite E.
  destruct (IH (g ∘ Datatypes.S)) as [E1 E2]; [intros; apply G|]. unfold scanned, fetched in *. cbn [List.filter]. by rewrite E1, E2.
Qed.
Lemma drain_scanned P r cur recv : scanned (drain P r cur recv).2 = (drain P r cur recv).2 /\ fetched (drain P r cur recv).2 = [].
Proof.
  unfold drain. destruct (process_loop_spec P r (size recv) cur recv) as (k & ms & es & recv' & -> & _ & _ & (l & _ & _ & -> & _)); [done|]. cbn [snd].
  apply all_scanned. intros i [[f hash] c]. by eexists _, _, _, _, _.
Qed.

Lemma cfilter_core P cap now t from ftype hash f s : cbf_ok P cap s ->
  exists s' x, received_cfilter P now t from ftype hash f s = Val (s', x) /\ c_filters s' = c_filters s /\
    r_watch (c_rescan s') = r_watch (c_rescan s) /\ r_txs (c_rescan s') = r_txs (c_rescan s) /\
    deliver P (c_rescan s) (accepted P t s ftype hash f) (core_of s) = (core_of s', scanned x, fetched x).
Proof.
  intros [Ic _ _]. unfold received_cfilter, accepted.
  destruct (N.eqb_spec ftype 0) as [->|]; cbn [negb]; [|eexists _, _; split; [done|]; done].
  destruct (tr_get t hash) as [height|] eqn:Et; [|eexists _, _; split; [done|]; done].
  destruct (f_get P s height) as [[fh header]|] eqn:Eg; [|eexists _, _; split; [done|]; done].
  destruct (f_prev P s height) as [prev|] eqn:Ep.
  2: { exfalso. destruct (f_prev_some P s height) as [y Ey]; [by eexists|]. congruence. }
  destruct (N.eqb_spec (p_header P (p_hash P f) prev) header) as [Ea|]; cbn [negb]; [|eexists _, _; split; [done|]; done].
  unfold r_receive, deliver. change (q_req (core_of s)) with (r_requested (c_rescan s)).
  destruct (decide (height ∈ r_requested (c_rescan s))) as [D|D].
  - destruct (push_total cap (r_cache (c_rescan s)) height f Ic) as (c & b & Ec & _). rewrite Ec. cbn [mbind_M].
    change (Rescan _ _ _ _ c _ _ _ _) with (after_receive height f hash c (c_rescan s)). unfold r_process.
    rewrite (drain_loop P _ _ _ _ (le_n _)). cbn [mbind_M].
    rewrite (drain_same P (c_rescan s) (after_receive height f hash c (c_rescan s))) by done.
    change (r_received (after_receive height f hash c (c_rescan s))) with (<[height := (f, hash, false)]> (r_received (c_rescan s))).
    change (r_current (after_receive height f hash c (c_rescan s))) with (r_current (c_rescan s)).
    change (q_recv (core_of s)) with (r_received (c_rescan s)). change (q_cur (core_of s)) with (r_current (c_rescan s)).
    pose proof (drain_scanned P (c_rescan s) (r_current (c_rescan s)) (<[height := (f, hash, false)]> (r_received (c_rescan s)))) as [Z1 Z2].
    destruct (drain P (c_rescan s) _ _) as [[[cur recv] ms] es]. cbn [mbind_M snd] in *.
    set (s2 := if _ <? _ then set_processed _ _ else _).
    assert (S2 : c_pending s2 = c_pending s /\ c_filters s2 = c_filters s /\ r_current (c_rescan s2) = cur /\
       r_requested (c_rescan s2) = r_requested (c_rescan s) ∖ {[height]} /\ r_received (c_rescan s2) = recv /\
       r_watch (c_rescan s2) = r_watch (c_rescan s) /\ r_txs (c_rescan s2) = r_txs (c_rescan s)) by (unfold s2; by destruct (_ <? _)).
    destruct S2 as (S1 & S2 & S3 & S4 & S5 & S6 & S7). rewrite S1. change (q_pend (core_of s)) with (c_pending s).
    pose proof (want_quiet ms (c_pending s)) as Q. destruct (want_blocks ms (c_pending s)) as [p o]. cbn [snd] in Q.
    eexists _, _. split; [reflexivity|]. split; [exact S2|]. split; [exact S6|]. split; [exact S7|]. unfold core_of. cbn [c_rescan set_pending c_pending].
    rewrite S3, S4, S5. destruct (all_fetched o Q) as [F1 F2].
    change (CoFilterReceived from hash height f :: ?l) with ([CoFilterReceived from hash height f] ++ l).
    assert (T : forall e : Datatypes.bool, let y := if e then [CoRescanStopped cur] else [] in scanned y = [] /\ fetched y = []) by (by intros []).
    assert (T2 : scanned (if decide (p = ∅) then [CoScanned cur] else []) = [] /\ fetched (if decide (p = ∅) then [CoScanned cur] else []) = []) by (by destruct (decide _)).
    assert (T3 : forall e : Datatypes.bool, scanned (if e then es ++ [CoRescanStopped cur] else es) = es /\ fetched (if e then es ++ [CoRescanStopped cur] else es) = []).
    { intros []; [|done]. rewrite scanned_app, fetched_app, Z1, Z2. cbn. by rewrite app_nil_r. }
    rewrite !scanned_app, !fetched_app. destruct (T3 (bool_decide (r_end (after_receive height f hash c (c_rescan s)) = Some cur))) as [-> ->].
    rewrite F1, F2. destruct T2 as [-> ->]. cbn. by rewrite !app_nil_r.
  - cbn [mbind_M]. cbn [want_blocks]. eexists _, _. split; [done|]. split; [done|]. split; [done|]. split; [done|]. cbn [app]. by destruct (decide _).
Qed.

Definition message (i : input) : option (N * N * N * bfilter) :=
  match i_op i with CCFilter from ft hash f => Some (from, ft, hash, f) | _ => None end.
Definition offer (P : params) (t : tree) (s : cbf) (o : cbf_op) : option (N * (bfilter * N)) :=
  match o with CCFilter from ft hash f => accepted P t s ft hash f | _ => None end.

Lemma run_core P cap t ms : forall s, cbf_ok P cap s -> Forall filter_message ms -> Forall (fun i => i_tree i = t) ms ->
  exists s' xs, cbf_run P ms s = Val (s', xs) /\ c_filters s' = c_filters s /\
    r_watch (c_rescan s') = r_watch (c_rescan s) /\ r_txs (c_rescan s') = r_txs (c_rescan s) /\
    delivers P (c_rescan s) ((fun i => offer P t s (i_op i)) <$> ms) (core_of s) = (core_of s', scanned (concat xs), fetched (concat xs)).
Proof.
  induction ms as [|i ms IH]; intros s Ok F T; [by exists s, []|].
  apply Forall_cons in F as [F1 F]. apply Forall_cons in T as [T1 T]. cbn [cbf_run]. unfold step_on. unfold filter_message in F1.
  destruct (i_op i) as [| | | | | | | | | |from ft hash f| | | | |] eqn:Op; try done. rewrite T1. cbn [cbf_step].
  destruct (cfilter_core P cap (i_now i) t from ft hash f s Ok) as (s1 & x & E & C1 & C2 & C3 & D).
  assert (Ok1 : cbf_ok P cap s1). { eapply (step_ok P cap i s s1 x Ok). unfold step_on. rewrite Op, T1. exact E. }
  rewrite E. cbn [mbind_M]. destruct (IH s1 Ok1 F T) as (s2 & xs & E2 & B1 & B2 & B3 & D2). rewrite E2. cbn [mbind_M].
  exists s2, (x :: xs). split; [done|]. split; [congruence|]. split; [congruence|]. split; [congruence|].
  cbn [fmap list_fmap delivers]. rewrite Op. cbn [offer]. rewrite D.
  assert (Y : forall l c, delivers P (c_rescan s) l c = delivers P (c_rescan s1) l c).
  { assert (Z : forall a c, deliver P (c_rescan s) a c = deliver P (c_rescan s1) a c).
    { intros a c. unfold deliver. destruct a as [[h [g hs]]|]; [|done]. by rewrite (drain_same P (c_rescan s) (c_rescan s1)). }
    induction l as [|a l IHl]; intros c; cbn [delivers]; [done|]. rewrite Z. destruct (deliver _ _ a c) as [[c1 ?] ?]. by rewrite IHl. }
  rewrite Y. replace ((fun i => offer P t s (i_op i)) <$> ms) with ((fun i => offer P t s1 (i_op i)) <$> ms).
  2: { apply list_fmap_ext. intros _ y _. unfold offer. destruct (i_op y); try done. by rewrite (accepted_same P t s s1). }
  change (list_fmap _ _ _ ms) with ((fun i => offer P t s1 (i_op i)) <$> ms). rewrite D2. cbn [concat]. by rewrite scanned_app, fetched_app.
Qed.

Lemma filters_order P cap t s ms ms' : cbf_ok P cap s -> apart_core (core_of s) -> Forall filter_message ms ->
  Forall (fun i => i_tree i = t) ms -> Forall (fun i => i_tree i = t) ms' -> (i_op <$> ms) ≡ₚ (i_op <$> ms') -> one_filter P s ms ->
  exists s1 x1 s2 x2, cbf_run P ms s = Val (s1, x1) /\ cbf_run P ms' s = Val (s2, x2) /\
    scanned (concat x1) = scanned (concat x2) /\ fetched (concat x1) = fetched (concat x2) /\ same_scan s1 s2.
Proof.
  intros Ok A F T T' Pm One.
  assert (F' : Forall filter_message ms').
  { apply Forall_forall. intros i Hi. assert (X : i_op i ∈ i_op <$> ms) by (rewrite Pm; by apply elem_of_list_fmap_1).
    apply elem_of_list_fmap in X as (j & Ej & Hj). rewrite Forall_forall in F. specialize (F j Hj). unfold filter_message in *. by rewrite Ej. }
  destruct (run_core P cap t ms s Ok F T) as (s1 & x1 & E1 & A1 & A2 & A3 & D1).
  destruct (run_core P cap t ms' s Ok F' T') as (s2 & x2 & E2 & B1 & B2 & B3 & D2).
  exists s1, x1, s2, x2. split; [done|]. split; [done|].
  assert (D : delivers P (c_rescan s) ((fun i => offer P t s (i_op i)) <$> ms) (core_of s) = delivers P (c_rescan s) ((fun i => offer P t s (i_op i)) <$> ms') (core_of s)).
  { apply delivers_perm; [| |done].
    - change (fun i => offer P t s (i_op i)) with (offer P t s ∘ i_op). rewrite !list_fmap_compose. by rewrite Pm.
    - intros a b Ha Hb h v w -> ->. apply elem_of_list_fmap in Ha as (i & Ei & Hi). apply elem_of_list_fmap in Hb as (j & Ej & Hj).
      unfold offer in Ei, Ej. destruct (i_op i) as [| | | | | | | | | |from ft hash f| | | | |] eqn:Oi; try done.
      destruct (i_op j) as [| | | | | | | | | |from' ft' hash' g| | | | |] eqn:Oj; try done.
      symmetry in Ei, Ej. apply accepted_spec in Ei as (-> & G1 & Au1). apply accepted_spec in Ej as (-> & G2 & Au2).
      assert (hash = hash') as <-. { apply tr_get_at in G1, G2. congruence. }
      rewrite Forall_forall in T. pose proof (T i Hi) as Ti. rewrite <- Ti in G1. by rewrite (One i j from from' ft ft' hash h f g Hi Hj Oi Oj G1 Au1 Au2). }
  rewrite D1, D2 in D. assert (X1 : core_of s1 = core_of s2) by congruence. split; [congruence|]. split; [congruence|].
  unfold core_of in X1. injection X1 as X1 X2 X3 X4. split; try done; [|congruence]. split; congruence.
Qed.

(** ** A filter that is asked for is not at hand *)
Definition apart_scan (r : rescan) : Prop := forall h, h ∈ r_requested r -> r_received r !! h = None /\ fc_get (r_cache r) h = None.
Definition apart (s : cbf) : Prop := apart_scan (c_rescan s).
Lemma apart_none r : r_requested r = ∅ -> apart_scan r.
Proof. intros E h. rewrite E. set_solver. Qed.
Lemma cfilters_apart o a b t s s' x e : f_height s <= tr_height t -> apart s -> get_cfilters o a b t s = Val (s', x, e) -> apart s' /\ c_filters s' = c_filters s.
Proof.
  intros L A E. unfold get_cfilters in E. destruct (decide (c_peers s = ∅)) as [|NE]; [by injection E as <- <- <-|].
  destruct (N.ltb_spec b a); [by injection E as <- <- <-|]. unfold assertM in E. destruct (N.leb_spec b (f_height s)); [|done].
  destruct (requests_spec a b t (c_rescan s)) as (r' & rs & Er & _ & _ & C & Rq & Rv & _ & _ & _ & _ & Ca & _). rewrite Er in E. cbn [mbind_M] in E.
  destruct (ask_ranges _ _ _ _ _) as [os er]. injection E as <- <- <-. split; [|done]. intros h I. cbn [c_rescan set_rescan] in *. rewrite Rv, Ca.
  apply Rq in I as [I|I].
  - destruct (A h I) as [A1 A2]. unfold with_cached. rewrite A1, A2. destruct (decide _); by destruct (tr_at t h).
  - apply C in I as (I1 & I2 & _). split; [done|]. unfold with_cached in I2. rewrite decide_True in I2 by done.
    destruct (fc_get _ h); [|done]. assert (is_Some (tr_at t h)) as [v V] by (apply tr_at_some; lia). by rewrite V in I2.
Qed.
Lemma processes_apart P r r' ms es : processes P r r' ms es -> apart_scan r -> apart_scan r'.
Proof.
  intros Pr A h. destruct (ps_same _ _ _ _ _ Pr) as (_ & _ & Ca & _ & _ & Rq). rewrite Rq, Ca. intros I. destruct (A h I) as [A1 A2].
  split; [|done]. rewrite (ps_received _ _ _ _ _ Pr). by destruct (decide _).
Qed.

Section Apart.
Context (P : params) (i : input).
Notation k := (i_k i).
Notation now := (i_now i).
Notation t := (i_tree i).

Lemma sync_apart n s s' x : apart s -> sync P k n now t s = Val (s', x) -> apart s'.
Proof.
  unfold sync, assertM. intros A. destruct (N.leb_spec (f_height s) (tr_height t)) as [L|]; [|done]. destruct (match tr_checkpoint t with Some _ => _ | None => _ end); [by intros [= <- <-]|].
  destruct (if f_height s <? tr_height t then _ else _) as [[s1 o]|] eqn:E; [|done]. cbn [mbind_M].
  assert (E1 : c_rescan s1 = c_rescan s /\ f_height s1 = f_height s).
  { destruct (f_height s <? tr_height t); [|by injection E as <- <-]. unfold send_getcfheaders in E.
    destruct (_ <? _); [by injection E as <- <-|]. destruct (tr_at _ _) as [hash|]; [|done].
    unfold get_cfheaders in E. destruct (c_inflight s !! hash); [by injection E as <- <-|].
    destruct (sample_peer _ _) as [[]|]; by injection E as <- <-. }
  destruct E1 as (E1 & E2). assert (A1 : apart s1) by (unfold apart; by rewrite E1).
  destruct (r_active (c_rescan s1)); [|by intros [= <- <-]].
  destruct (get_cfilters _ _ _ _ _) as [[[s2 o'] e]|] eqn:G; [|done]. cbn [mbind_M]. intros [= <- <-].
  eapply (proj1 (cfilters_apart _ _ _ _ _ _ _ _ ltac:(by rewrite E2) A1 G)).
Qed.
Lemma idle_apart s s' x : apart s -> idle P k now t s = Val (s', x) -> apart s'.
Proof.
  unfold idle. intros A. destruct (_ <=? _); [|by intros [= <- <-]]. destruct (sync _ _ _ _ _ _) as [[s1 o]|] eqn:E; [|done]. cbn [mbind_M].
  intros [= <- <-]. by apply sync_apart in E.
Qed.

Lemma step_apart cap s s' x : cbf_ok P cap s -> apart s -> f_height s' <= tr_height t -> step_on P i s = Val (s', x) -> apart s'.
Proof.
  intros Ok A Lh E. pose proof (ok_cache _ _ _ Ok) as Fc.
  unfold step_on, cbf_step in E. destruct (i_op i) as [|addr ob fl pe|addr|block hh|hh|rv|tx|tx ou|from ft st pv hs|from ft a st|from ft ha f| |scr|tx ou|fr to w|a b] eqn:Op.
  - by apply idle_apart in E.
  - unfold cbf_negotiated in E. destruct (_ && _); [|by injection E as <- <-]. by apply sync_apart in E.
  - by injection E as <- <-.
  - destruct (decide _); by injection E as <- <-.
  - by injection E as <- <-.
  - match type of E with mbind_M ?m _ = _ => destruct m as [[s1 o1]|] eqn:E1; [|done] end. cbn [mbind_M] in E.
    destruct (sync _ _ _ _ _ _) as [[s2 o2]|] eqn:E2; [|done]. cbn [mbind_M] in E. injection E as <- <-. apply sync_apart in E2; [done|].
    destruct (last rv) as [h'|]; [|by injection E1 as <- <-].
    destruct (rollback_spec cap k (h' - 1) s Fc) as [[_ Er]|(_ & c & Ec & Er)]; rewrite Er in E1; cbn [mbind_M] in E1; injection E1 as <- <-; [done|].
    destruct (rollback_ok lenN cap (r_cache (c_rescan s)) (h' - 1) Fc) as (c' & Ec' & _ & G & _). rewrite Ec in Ec'. injection Ec' as <-.
    assert (X : apart_scan (Rescan (r_active (c_rescan s)) (r_current (c_rescan s)) (r_start (c_rescan s)) (r_end (c_rescan s)) c (r_watch (c_rescan s)) (r_txs (c_rescan s)) (r_requested (c_rescan s)) (r_received (c_rescan s)))).
    { intros h I. cbn in *. destruct (A h I) as [A1 A2]. split; [done|]. rewrite G. by destruct (_ <? _). }
    unfold rolled_back, apart. destruct (k_rollback_ok k); exact X.
  - by injection E as <- <-.
  - by injection E as <- <-.
  - unfold received_cfheaders in E. destruct (c_inflight s !! st); [|by injection E as <- <-].
    destruct (negb _); [by injection E as <- <-|]. destruct (tr_get _ _); [|by injection E as <- <-].
    destruct (_ <=? _); [by injection E as <- <-|]. destruct (negb _); [by injection E as <- <-|].
    destruct (_ <? _); [by injection E as <- <-|]. destruct (_ =? 0); [by injection E as <- <-|].
    destruct (negb _); [by injection E as <- <-|].
    unfold f_import in E. destruct (k_put k); [by injection E as <- <-|].
    match type of E with mbind_M (headers_imported _ _ _ _ ?q) _ = _ => set (s1 := q) in E end. cbv beta in E.
    destruct (headers_imported k _ _ _ s1) as [[[s2 o2] e]|] eqn:E1; [|done]. cbn [mbind_M] in E.
    destruct e; [done|]. unfold assertM in E. destruct (_ <=? _); [|done].
    assert (Y : f_height s2 = f_height s1).
    { match type of E1 with headers_imported k ?a ?b t s1 = _ => destruct (headers_imported_spec k a b t s1) as [(s4 & o4 & e4 & E4 & _ & _ & E5 & _)|[E4 _]]; rewrite E4 in E1; [|done] end.
      injection E1 as -> -> ->. exact E5. }
    assert (H2 : f_height s1 = f_height s').
    { destruct (_ =? _); [by injection E as <- <-|]. destruct (sync _ _ _ _ _ _) as [[s3 o3]|] eqn:E3; [|done]. cbn [mbind_M] in E. injection E as <- <-.
      destruct (sync_spec P k 2 now t s2) as [[_ E']|(_ & s5 & o5 & E' & Q & _)]; rewrite E' in E3; [done|]. injection E3 as <- <-. unfold f_height in *.
      by rewrite (q_filters _ _ _ _ Q). }
    assert (A2 : apart s2).
    { unfold headers_imported in E1. destruct (r_active _); [|by injection E1 as <- <-]. destruct (_ <? _); [by injection E1 as <- <-|].
      eapply cfilters_apart in E1; [apply E1|by rewrite H2|exact A]. }
    destruct (_ =? _); [by injection E as <- <-|].
    destruct (sync _ _ _ _ _ _) as [[s3 o3]|] eqn:E3; [|done]. cbn [mbind_M] in E. injection E as <- <-. by apply sync_apart in E3.
  - unfold received_getcfheaders in E. destruct (negb _); [by injection E as <- <-|]. destruct (tr_get _ _); [|by injection E as <- <-].
    destruct (f_range _ _ _ _); [by injection E as <- <-|]. destruct (f_prev _ _ _); [by injection E as <- <-|done].
  - unfold received_cfilter in E. destruct (negb _); [by injection E as <- <-|]. destruct (tr_get _ _) as [height|]; [|by injection E as <- <-].
    destruct (f_get _ _ _) as [[]|]; [|by injection E as <- <-]. destruct (f_prev _ _ _); [|done].
    destruct (negb _); [by injection E as <- <-|].
    destruct (r_receive _ _ _ _) as [[r rq]|] eqn:Rr; [|done]; cbn [mbind_M] in E.
    assert (Ar : apart_scan r).
    { unfold r_receive in Rr. destruct (decide _) as [I|]; [|by injection Rr as <- <-].
      destruct (push_total cap (r_cache (c_rescan s)) height f Fc) as (c & bb & Ec & _ & G). rewrite Ec in Rr. cbn [mbind_M] in Rr. injection Rr as <- <-.
      intros h Ih. cbn [r_requested r_received r_cache] in *. destruct (A h ltac:(set_solver)) as [A1 A2]. rewrite lookup_insert_ne by set_solver. split; [done|].
      destruct (fc_get c h) as [g|] eqn:Eg; [|done]. apply G in Eg as [[-> _]|Eg]; [set_solver|]. pose proof (eq_trans (eq_sym A2) Eg). done. }
    destruct rq; cbn [mbind_M] in E.
    + destruct (process_spec P r) as (r' & ms & es & Ep & Pr). rewrite Ep in E. cbn [mbind_M] in E. apply processes_apart in Pr; [|done].
      set (s1 := if _ <? _ then _ else _) in E. assert (X : c_rescan s1 = r') by (unfold s1; by destruct (_ <? _)).
      destruct (want_blocks ms (c_pending s1)) as [p o]. injection E as <- <-. unfold apart. cbn [c_rescan set_pending]. by rewrite X.
    + cbn [want_blocks] in E. by injection E as <- <-.
  - unfold cbf_timer in E. destruct (idle _ _ _ _ _) as [[s1 o1]|] eqn:E1; [|done]. cbn [mbind_M] in E. apply idle_apart in E1; [|done].
    pose proof (expire_spec P k now t (k_order k 3 (fst <$> map_to_list (c_inflight s1))) 0 s1) as [Qx X].
    destruct (expire _ _ _ _ _ _) as [s2 o2]. cbn [fst snd] in X, Qx.
    destruct (_ && _); [|injection E as <- <-; unfold apart; by rewrite X].
    destruct (get_cfilters _ _ _ _ _) as [[[s3 o3] e]|] eqn:G; [|done]. cbn [mbind_M] in E. injection E as <- <-.
    assert (L3 : f_height s2 <= tr_height t).
    { match type of G with get_cfilters ?o ?a ?b t ?s0 = _ => destruct (get_cfilters_spec o a b t s0) as [[E' _]|(r & o' & e' & E' & _)]; rewrite E' in G; [done|] end.
      injection G as <- <- <-. exact Lh. }
    eapply cfilters_apart in G; [apply G|exact L3|]. by apply apart_none.
  - by injection E as <- <-.
  - by injection E as <- <-.
  - unfold cbf_rescan in E. set (s0 := set_rescan (r_restart _ _ _ _) s) in E.
    assert (A0 : apart s0) by (by apply apart_none).
    destruct (decide _); [by injection E as <- <-|]. destruct (_ <? _); [by injection E as <- <-|].
    destruct (get_cfilters _ _ _ _ _) as [[[s3 o3] e]|] eqn:G; [|done]. cbn [mbind_M] in E.
    destruct (process_spec P (c_rescan s3)) as (r & ms & es & Ep & Pr). rewrite Ep in E. cbn [mbind_M] in E.
    assert (E' : s' = set_rescan r s3) by (destruct e as [[]|]; [done| |]; by injection E as <- <-). subst s'.
    apply processes_apart in Pr; [exact Pr|]. eapply cfilters_apart in G; [apply G| |exact A0].
    match type of G with get_cfilters ?o ?a ?b t ?s0 = _ => destruct (get_cfilters_spec o a b t s0) as [[E' _]|(r' & o' & e' & E' & _)]; rewrite E' in G; [done|] end.
    injection G as <- <- <-. exact Lh.
  - destruct (get_cfilters _ _ _ _ _) as [[[s3 o3] e]|] eqn:G; [|done]. cbn [mbind_M] in E. injection E as <- <-.
    eapply cfilters_apart in G; [apply G| |exact A].
    match type of G with get_cfilters ?o ?a ?b t ?s0 = _ => destruct (get_cfilters_spec o a b t s0) as [[E' _]|(r' & o' & e' & E' & _)]; rewrite E' in G; [done|] end.
    injection G as <- <- <-. exact Lh.
Qed.
End Apart.

Lemma run_apart P cap ins : forall old s s' xs, cbf_ok P cap s -> c_store s = c_filters s -> f_height s <= tr_height old -> apart s ->
  faithful old ins -> Forall io_ok ins -> cbf_run P ins s = Val (s', xs) -> apart s' /\ cbf_ok P cap s'.
Proof.
  induction ins as [|i ins IH]; intros old s s' xs Ok St L A Fa Io; cbn [cbf_run]; [by intros [= <- <-]|].
  destruct (step_on P i s) as [[s1 x]|] eqn:E; [|done]. cbn [mbind_M].
  destruct (cbf_run P ins s1) as [[s2 xs']|] eqn:E2; [|done]. intros [= <- <-].
  apply Forall_cons in Io as [I1 I2]. destruct Fa as [Fa Fa'].
  assert (R1 : cbf_run P [i] s = Val (s1, [x])) by (cbn [cbf_run]; rewrite E; done).
  destruct (run_heights P cap [i] old s s1 [x] Ok St L ltac:(by split) ltac:(by constructor) R1) as (L1 & St1 & Ok1).
  change (final_tree old [i]) with (i_tree i) in L1.
  exact (IH (i_tree i) s1 s2 xs' Ok1 St1 L1 (step_apart P i cap s s1 x Ok A L1 E) Fa' I2 E2).
Qed.

Lemma faithful_split old ins : forall ms, faithful old (ins ++ ms) -> faithful old ins /\ faithful (final_tree old ins) ms.
Proof.
  revert old. induction ins as [|i ins IH]; intros old ms; cbn [app faithful final_tree]; [done|].
  intros [F1 F2]. apply IH in F2 as [F2 F3]. done.
Qed.
Lemma faithful_still t ms : faithful t ms -> Forall filter_message ms -> Forall (fun i => i_tree i = t) ms.
Proof.
  revert t. induction ms as [|i ms IH]; intros t F M; [constructor|]. destruct F as [F1 F2]. apply Forall_cons in M as [M1 M].
  assert (T : i_tree i = t) by (unfold filter_message in M1; by destruct (i_op i)). constructor; [done|]. rewrite T in F2. by apply IH.
Qed.
Lemma message_perm ms ms' : (i_op <$> ms) ≡ₚ (i_op <$> ms') -> Forall filter_message ms -> Forall filter_message ms'.
Proof.
  intros Pm F. apply Forall_forall. intros i Hi. assert (X : i_op i ∈ i_op <$> ms) by (rewrite Pm; by apply elem_of_list_fmap_1).
  apply elem_of_list_fmap in X as (j & Ej & Hj). rewrite Forall_forall in F. specialize (F j Hj). unfold filter_message in *. by rewrite Ej.
Qed.
Lemma reach_order P cap st ins s outs old ms ms' : chained P ((p_genesis P, p_header P (p_genesis P) 0) :: st) -> lenN st <= tr_height old ->
  cbf_reach P cap st ins s outs -> faithful old (ins ++ ms) -> faithful old (ins ++ ms') -> Forall io_ok ins ->
  Forall filter_message ms -> (i_op <$> ms) ≡ₚ (i_op <$> ms') -> one_filter P s ms ->
  exists s1 x1 s2 x2, cbf_run P ms s = Val (s1, x1) /\ cbf_run P ms' s = Val (s2, x2) /\
    scanned (concat x1) = scanned (concat x2) /\ fetched (concat x1) = fetched (concat x2) /\ same_scan s1 s2.
Proof.
  intros C L R [F1 F2]%faithful_split [_ F3]%faithful_split Io M Pm One.
  destruct (run_apart P cap ins old (cbf0 cap st) s outs (cbf0_ok P cap st C) eq_refl L ltac:(by apply apart_none) F1 Io R) as [A Ok].
  apply (filters_order P cap (final_tree old ins)); try done.
  - intros h I. by apply A.
  - by apply faithful_still.
  - apply faithful_still; [done|]. by eapply message_perm.
Qed.
