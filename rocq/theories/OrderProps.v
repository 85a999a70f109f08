(** Properties the authors list for the client as a whole: C118-C122. *)
From Verif Require Import Base RunEx UtilModel UtilSpec CbfModel CbfSpec CbfStep CbfMain CbfProps OrderSpec OrderProofs OrderMore.
From Verif Require InvModel InvSpec InvProps OrderBlocks OrderNode.
Open Scope N_scope.

(** ** C118 *)

(** Whatever the order in which filters arrive, and at whatever times, the
    same filters are reported as processed in the same order, the same blocks
    are fetched in the same order, and the scan ends up in the same place. *)
Theorem C118_filters P cap st ins s outs old ms ms' : chained P ((p_genesis P, p_header P (p_genesis P) 0) :: st) -> lenN st <= tr_height old ->
  cbf_reach P cap st ins s outs -> faithful old (ins ++ ms) -> faithful old (ins ++ ms') -> Forall io_ok ins ->
  Forall filter_message ms -> (i_op <$> ms) ≡ₚ (i_op <$> ms') -> one_filter P s ms ->
  exists s1 x1 s2 x2, cbf_run P ms s = Val (s1, x1) /\ cbf_run P ms' s = Val (s2, x2) /\
    scanned (concat x1) = scanned (concat x2) /\ fetched (concat x1) = fetched (concat x2) /\ same_scan s1 s2.
Proof. exact (reach_order P cap st ins s outs old ms ms'). Qed.
Print Assumptions C118_filters.

Definition up_scan (stop : bound) : list input := ex_up t3 103 [11; 12; 13] ++ [ex_i t3 (CRescan (Included 1) stop [52])].
Definition ex_f (from hash : N) (f : bfilter) : input := ex_i t3 (CCFilter from 0 hash f).
(** The filters arrive backwards, one twice and one that does not fit. *)
Definition forwards : list input := [ex_f 1 101 [11]; ex_f 2 102 [12; 52]; ex_f 1 102 [12; 52]; ex_f 3 103 [99]; ex_f 1 103 [13; 52]].
Definition backwards : list input :=
  Input ex_k 100700 t3 (CCFilter 1 0 103 [13; 52]) :: [ex_f 1 102 [12; 52]; ex_f 3 103 [99]; ex_f 2 102 [12; 52]; ex_f 1 101 [11]].
Example C118_case : exists s outs s1 x1 s2 x2, cbf_reach ex_P 1000 [] (up_scan Unbounded) s outs /\
  faithful t3 (up_scan Unbounded ++ forwards) /\ faithful t3 (up_scan Unbounded ++ backwards) /\ Forall io_ok (up_scan Unbounded) /\
  Forall filter_message forwards /\ (i_op <$> forwards) ≡ₚ (i_op <$> backwards) /\ one_filter ex_P s forwards /\
  cbf_run ex_P forwards s = Val (s1, x1) /\ cbf_run ex_P backwards s = Val (s2, x2) /\
  map (fun x => processed_heights x) x1 = [[1]; [2]; []; []; [3]] /\ map (fun x => processed_heights x) x2 = [[]; []; []; []; [1; 2; 3]] /\
  fetched (concat x1) = [CoGetBlock 102; CoGetBlock 103] /\ fetched (concat x2) = [CoGetBlock 102; CoGetBlock 103].
Proof.
  destruct (run_ex (cbf_run ex_P (up_scan Unbounded) (cbf0 1000 [])) (fun s _ => f_entries ex_P s = [(7, 8); (11, 8012); (12, 8012013); (13, 8012013014)] /\
    (match cbf_run ex_P forwards s with Val (_, x1) => map (fun x => processed_heights x) x1 = [[1]; [2]; []; []; [3]] /\ fetched (concat x1) = [CoGetBlock 102; CoGetBlock 103] | Panic _ => False end) /\
    (match cbf_run ex_P backwards s with Val (_, x2) => map (fun x => processed_heights x) x2 = [[]; []; []; []; [1; 2; 3]] /\ fetched (concat x2) = [CoGetBlock 102; CoGetBlock 103] | Panic _ => False end)))
    as (s & outs & R & Fe & X1 & X2); [vm_compute; repeat split|].
  apply run_ex in X1 as (s1 & x1 & E1 & X1 & Y1). apply run_ex in X2 as (s2 & x2 & E2 & X2 & Y2).
  exists s, outs, s1, x1, s2, x2. split; [exact R|]. split; [by repeat split|]. split; [by repeat split|]. split; [by repeat constructor|]. split; [by repeat constructor|].
  split.
  { cbn. set (a := CCFilter 1 0 101 [11]). set (b := CCFilter 2 0 102 [12; 52]). set (c := CCFilter 1 0 102 [12; 52]). set (d := CCFilter 3 0 103 [99]). set (e := CCFilter 1 0 103 [13; 52]). solve_Permutation. }
  split; [|done].
  assert (Na : forall h, ~ authentic ex_P s h [99]).
  { intros h (hash & header & H1 & H2). rewrite Fe in H1, H2. destruct H2 as [[-> H2]|(q & L & H2 & H3)]; [cbn in H1; injection H1 as <- <-; by vm_compute in H2|].
    destruct (N.to_nat h) as [|[|[|[|n]]]] eqn:En; cbn in H1; try done; try lia.
    all: injection H1 as <- <-; replace (N.to_nat (h - 1)) with (Nat.pred (N.to_nat h)) in H2 by lia; rewrite En in H2; cbn in H2; injection H2 as <-; by vm_compute in H3. }
  intros i j from from' ft ft' hash h f g Hi Hj Ei Ej _ Af Ag. unfold forwards in Hi, Hj.
  repeat (apply elem_of_cons in Hi as [->|Hi]); [..|by apply elem_of_nil in Hi]; cbn in Ei; injection Ei as <- <- <- <-;
    (repeat (apply elem_of_cons in Hj as [->|Hj]); [..|by apply elem_of_nil in Hj]; cbn in Ej; try done; injection Ej as <- <- <-; try done; by (exfalso; eapply Na)).
Qed.

(** Whether the scan is reported to have stopped depends on the order: the
    end is only noticed if the scan comes to rest just before it. *)
Theorem C118_stop_refuted : exists ins s outs ms ms' s1 x1 s2 x2, cbf_reach ex_P 1000 [] ins s outs /\ faithful t3 (ins ++ ms) /\ Forall io_ok (ins ++ ms) /\
  Forall filter_message ms /\ ms ≡ₚ ms' /\ cbf_run ex_P ms s = Val (s1, x1) /\ cbf_run ex_P ms' s = Val (s2, x2) /\
  stops (concat x1) /\ r_active (c_rescan s1) = false /\ ~ stops (concat x2) /\ r_active (c_rescan s2) = true.
Proof.
  set (ins := up_scan (Included 2)). set (ms := [ex_f 1 101 [11]; ex_f 1 102 [12]]). set (ms' := [ex_f 1 102 [12]; ex_f 1 101 [11]]).
  destruct (run_ex (cbf_run ex_P ins (cbf0 1000 [])) (fun s _ =>
    (match cbf_run ex_P ms s with Val (s1, x1) => concat x1 !! 2%nat = Some (CoRescanStopped 2) /\ r_active (c_rescan s1) = false | Panic _ => False end) /\
    (match cbf_run ex_P ms' s with Val (s2, x2) => Forall (fun o => match o with CoRescanStopped _ => False | _ => True end) (concat x2) /\ r_active (c_rescan s2) = true | Panic _ => False end)))
    as (s & outs & R & X1 & X2); [vm_compute; repeat split; repeat constructor|].
  apply run_ex in X1 as (s1 & x1 & E1 & X1 & Y1). apply run_ex in X2 as (s2 & x2 & E2 & X2 & Y2).
  exists ins, s, outs, ms, ms', s1, x1, s2, x2. split; [exact R|]. split; [by repeat split|]. split; [by repeat constructor|]. split; [by repeat constructor|].
  split; [apply Permutation_swap|]. split; [exact E1|]. split; [exact E2|]. split; [exists 2; by eapply elem_of_list_lookup_2|]. split; [done|]. split; [|done].
  intros [h I]. rewrite Forall_forall in X2. by apply (X2 _ I).
Qed.
Print Assumptions C118_stop_refuted.

(** ** C119 *)

(** Whatever the order in which blocks arrive, everything that is put out is
    the same, in the same order, and so is the state. *)
Theorem C119_blocks height_of bs bs' s : bs ≡ₚ bs' -> on_chain height_of bs ->
  outcome (InvModel.inv_run (arrivals height_of bs) s) = outcome (InvModel.inv_run (arrivals height_of bs') s).
Proof. intros E C. exact (OrderBlocks.blocks_order height_of bs bs' E C s). Qed.
Print Assumptions C119_blocks.

Definition ex_blocks : list InvModel.block := [InvProps.ex_b 101 [InvProps.ex_t1]; InvProps.ex_b 100 []; InvProps.ex_b 101 [InvProps.ex_t1]; InvProps.ex_b 102 []].
Definition ex_heights (h : N) : option N := if (100 <=? h) && (h <=? 102) then Some (h - 95) else None.
Definition asked_blocks : list InvModel.inv_op := [InvModel.IAnnounce InvProps.ex_t1; InvModel.IGetBlock 100; InvModel.IGetBlock 101; InvModel.IGetBlock 102].
Example C119_case : exists s outs s' x, InvSpec.inv_reach asked_blocks s outs /\ on_chain ex_heights ex_blocks /\
  outcome (InvModel.inv_run (arrivals ex_heights ex_blocks) s) = Val (s', x) /\
  x = [InvModel.IoBlock (InvProps.ex_b 100 []) 5 None; InvModel.IoStatus 1 (InvModel.StConfirmed 101 6); InvModel.IoBlock (InvProps.ex_b 101 [InvProps.ex_t1]) 6 None;
       InvModel.IoBlock (InvProps.ex_b 102 []) 7 None].
Proof.
  destruct (run_ex (InvModel.inv_run asked_blocks InvModel.inv0) (fun s _ => match outcome (InvModel.inv_run (arrivals ex_heights ex_blocks) s) with Val (_, x) =>
     x = [InvModel.IoBlock (InvProps.ex_b 100 []) 5 None; InvModel.IoStatus 1 (InvModel.StConfirmed 101 6); InvModel.IoBlock (InvProps.ex_b 101 [InvProps.ex_t1]) 6 None;
       InvModel.IoBlock (InvProps.ex_b 102 []) 7 None] | _ => False end)) as (s & outs & R & X); [vm_compute; reflexivity|].
  apply run_ex in X as (s' & x & E & X). exists s, outs, s', x. split; [exact R|]. split; [|split; [exact E|exact X]].
  split; [|split].
  - intros b Hb. unfold ex_blocks in Hb. repeat (apply elem_of_cons in Hb as [->|Hb]); [..|by apply elem_of_nil in Hb]; by eexists.
  - intros a b h. unfold ex_heights. destruct (N.leb_spec 100 a), (N.leb_spec a 102), (N.leb_spec 100 b), (N.leb_spec b 102); cbn [andb]; try done. intros [= <-] [= E']. lia.
  - intros b b' Hb Hb'. unfold ex_blocks in Hb, Hb'. repeat (apply elem_of_cons in Hb as [->|Hb]); [..|by apply elem_of_nil in Hb];
      (repeat (apply elem_of_cons in Hb' as [->|Hb']); [..|by apply elem_of_nil in Hb']); done.
Qed.

(** If one of the blocks has left the chain the order matters: arriving last
    it holds back the others. *)
Theorem C119_left_refuted : exists os s outs height_of bs bs' s1 s2 x, InvSpec.inv_reach os s outs /\ bs ≡ₚ bs' /\
  (forall a b h, height_of a = Some h -> height_of b = Some h -> a = b) /\
  outcome (InvModel.inv_run (arrivals height_of bs) s) = Val (s1, []) /\
  outcome (InvModel.inv_run (arrivals height_of bs') s) = Val (s2, x) /\ InvModel.IoBlock (InvProps.ex_b 100 []) 5 None ∈ x.
Proof.
  set (os := [InvModel.IGetBlock 100; InvModel.IGetBlock 101]). set (ho := fun h : N => if h =? 100 then Some 5 else None).
  set (bs := [InvProps.ex_b 100 []; InvProps.ex_b 101 []]). set (bs' := [InvProps.ex_b 101 []; InvProps.ex_b 100 []]).
  destruct (run_ex (InvModel.inv_run os InvModel.inv0) (fun s _ => (match outcome (InvModel.inv_run (arrivals ho bs) s) with Val (_, x) => x = [] | _ => False end) /\
     (match outcome (InvModel.inv_run (arrivals ho bs') s) with Val (_, x) => x = [InvModel.IoBlock (InvProps.ex_b 100 []) 5 None] | _ => False end)))
    as (s & outs & R & X1 & X2); [vm_compute; split; reflexivity|].
  apply run_ex in X1 as (s1 & x1 & E1 & ->). apply run_ex in X2 as (s2 & x2 & E2 & ->).
  exists os, s, outs, ho, bs, bs', s1, s2. eexists. split; [exact R|]. split; [apply Permutation_swap|]. split; [|split; [exact E1|split; [exact E2|by left]]].
  intros a b h. unfold ho. destruct (N.eqb_spec a 100), (N.eqb_spec b 100); congruence.
Qed.
Print Assumptions C119_left_refuted.

(** ** C120 *)

(** Watching scripts that are watched already changes nothing. *)
Theorem C120_watch P cap st ins s outs i w : cbf_reach P cap st ins s outs -> i_op i = CWatch w -> (forall a, a ∈ w -> a ∈ watched_scripts ins) ->
  step_on P i s = Val (s, []).
Proof. exact (OrderNode.watched_again P cap st ins s outs i w). Qed.
Print Assumptions C120_watch.

(** Nor does watching a transaction that is watched already. *)
Theorem C120_submitted P cap st ins s outs i t os : cbf_reach P cap st ins s outs -> i_op i = CWatchTx t os -> watched_txs ins !! t = Some os ->
  step_on P i s = Val (s, []).
Proof. exact (OrderNode.submitted_again P cap st ins s outs i t os). Qed.
Print Assumptions C120_submitted.

Definition watch_ins : list input := up_scan Unbounded ++ [ex_i t3 (CWatch [61; 62]); ex_i t3 (CWatchTx 5 [71]); ex_i t3 (CCFilter 1 0 101 [11])].
Example C120_case : exists s outs, cbf_reach ex_P 1000 [] watch_ins s outs /\ watched_scripts watch_ins = [61; 62; 52] /\
  watched_txs watch_ins !! 5 = Some [71] /\ c_rescan s <> c_rescan (cbf0 1000 []).
Proof.
  destruct (run_ex (cbf_run ex_P watch_ins (cbf0 1000 [])) (fun s _ => r_active (c_rescan s) = true)) as (s & outs & R & X); [vm_compute; reflexivity|].
  exists s, outs. split; [exact R|]. split; [reflexivity|]. split; [reflexivity|]. intros E. by rewrite E in X.
Qed.

(** ** C121 *)

(** A rescan that starts above the filter headers asks for nothing and scans
    nothing; headers, peers, requested headers and awaited blocks stay. *)
Theorem C121_quiet P i s s' x from to watch : i_op i = CRescan from to watch -> f_height s < starts_at (i_tree i) from -> step_on P i s = Val (s', x) ->
  (exists stop, x = [CoRescanStarted (starts_at (i_tree i) from) stop]) /\ c_filters s' = c_filters s /\ c_store s' = c_store s /\
  c_peers s' = c_peers s /\ c_inflight s' = c_inflight s /\ c_pending s' = c_pending s.
Proof.
  intros Op F E. destruct (future P i s s' x from to watch Op F E) as (stop & -> & -> & _). split; [by exists stop|]. done.
Qed.
Print Assumptions C121_quiet.

(** While a scan without end has caught up, a rescan for the same scripts from
    the next height on cannot be told from no rescan, until blocks are
    reverted. *)
Theorem C121_caught_up P i s s' x watch ms : i_op i = CRescan (Included (f_height s + 1)) Unbounded watch -> step_on P i s = Val (s', x) ->
  r_active (c_rescan s) = true -> r_current (c_rescan s) = f_height s + 1 -> r_end (c_rescan s) = None -> r_requested (c_rescan s) = ∅ ->
  list_to_set watch = r_watch (c_rescan s) -> Forall keeps_begin ms ->
  x = [CoRescanStarted (f_height s + 1) None] /\
  match cbf_run P ms s, cbf_run P ms s' with Val (_, y), Val (_, y') => y = y' | Panic p, Panic p' => p = p' | _, _ => False end.
Proof. exact (caught_up P i s s' x watch ms). Qed.
Print Assumptions C121_caught_up.

Definition all_three : list input := [ex_f 1 101 [11]; ex_f 1 102 [12]; ex_f 1 103 [13]].
Definition next_height : input := ex_i t3 (CRescan (Included 4) Unbounded [52]).
Definition t5 : tree := ex_t [101; 102; 103; 104].
Definition one_more : list input := [ex_i t5 (CImported []); ex_i t5 (CCFHeaders 1 0 104 8012013014 [14]); ex_i t5 (CCFilter 1 0 104 [14; 52])].
Example C121_case : exists s outs s' x y1 s1, cbf_reach ex_P 1000 [] (up_scan Unbounded ++ all_three) s outs /\
  f_height s = 3 /\ r_active (c_rescan s) = true /\ r_current (c_rescan s) = 4 /\ r_end (c_rescan s) = None /\ r_requested (c_rescan s) = ∅ /\
  list_to_set [52] = r_watch (c_rescan s) /\ Forall keeps_begin one_more /\ step_on ex_P next_height s = Val (s', x) /\
  cbf_run ex_P one_more s = Val (s1, y1) /\ CoFilterProcessed 104 4 true true false ∈ concat y1.
Proof.
  assert (X : match cbf_run ex_P (up_scan Unbounded ++ all_three) (cbf0 1000 []) with
     | Val (s, _) => f_height s = 3 /\ r_active (c_rescan s) = true /\ r_current (c_rescan s) = 4 /\
     r_end (c_rescan s) = None /\ elements (r_requested (c_rescan s)) = [] /\ elements (r_watch (c_rescan s)) = [52] /\
     match step_on ex_P next_height s with Val _ => True | Panic _ => False end /\
     match cbf_run ex_P one_more s with Val (_, y) => scanned (concat y) = [CoFilterProcessed 104 4 true true false] | Panic _ => False end
     | Panic _ => False end) by (vm_compute; repeat split).
  apply run_ex in X as (s & outs & R & X1 & X2 & X3 & X4 & X5 & X6 & X7 & X8).
  destruct (step_on ex_P next_height s) as [[s' x]|] eqn:E; [|exfalso; exact X7]. apply run_ex in X8 as (s1 & y1 & E1 & X8).
  exists s, outs, s', x, y1, s1. split; [exact R|]. split; [exact X1|]. split; [exact X2|]. split; [exact X3|]. split; [exact X4|]. split; [apply leibniz_equiv, elements_empty_inv, X5|].
  split; [rewrite <- X6; apply list_to_set_elements_L|]. split; [repeat constructor|]. split; [exact E|]. split; [exact E1|].
  assert (I : CoFilterProcessed 104 4 true true false ∈ scanned (concat y1)) by (rewrite X8; by left).
  unfold scanned in I. apply elem_of_list_In, filter_In in I as [I _]. by apply elem_of_list_In.
Qed.

(** Otherwise it is not: filters that are still awaited are not scanned
    after it. *)
Theorem C121_future_refuted : exists ins s outs s' x ms s1 x1 s2 x2, cbf_reach ex_P 1000 [] ins s outs /\ faithful t3 (ins ++ next_height :: ms) /\ Forall io_ok ins /\
  f_height s = 3 /\ r_watch (c_rescan s) = {[52]} /\ step_on ex_P next_height s = Val (s', x) /\
  cbf_run ex_P ms s = Val (s1, x1) /\ cbf_run ex_P ms s' = Val (s2, x2) /\
  fetched (concat x1) = [CoGetBlock 102] /\ scanned (concat x2) = [] /\ fetched (concat x2) = [] /\
  CoRescanStarted 4 None ∈ x.
Proof.
  set (ins := up_scan Unbounded). set (ms := [ex_f 1 101 [11]; ex_f 1 102 [12; 52]]).
  destruct (run_ex (cbf_run ex_P ins (cbf0 1000 [])) (fun s _ => f_height s = 3 /\ elements (r_watch (c_rescan s)) = [52] /\
     (match cbf_run ex_P ms s with Val (_, x1) => fetched (concat x1) = [CoGetBlock 102] | _ => False end) /\
     (match step_on ex_P next_height s with Val (s', x) => x = [CoRescanStarted 4 None] /\
        match cbf_run ex_P ms s' with Val (_, x2) => scanned (concat x2) = [] /\ fetched (concat x2) = [] | _ => False end | _ => False end)))
    as (s & outs & R & X1 & X2 & X3 & X4); [vm_compute; repeat split|].
  apply run_ex in X3 as (s1 & x1 & E1 & X3). apply run_ex in X4 as (s' & x & E & -> & X4). apply run_ex in X4 as (s2 & x2 & E2 & X5 & X6).
  exists ins, s, outs, s', [CoRescanStarted 4 None], ms, s1, x1, s2, x2. split; [exact R|]. split; [by repeat split|]. split; [by repeat constructor|]. split; [done|].
  split; [rewrite <- (list_to_set_elements_L (r_watch (c_rescan s))), X2; cbn; set_solver|]. split; [exact E|]. split; [exact E1|]. split; [exact E2|]. split; [exact X3|]. split; [exact X5|]. split; [exact X6|]. by left.
Qed.
Print Assumptions C121_future_refuted.

(** And after a re-org: the block that replaces the last one is scanned
    without the rescan, and not after it. *)
Theorem C121_reorg_refuted : exists ins s outs s' x ms s1 x1 s2 x2, cbf_reach ex_P 1000 [] ins s outs /\ faithful t3 (ins ++ next_height :: ms) /\ Forall io_ok (ins ++ ms) /\
  r_active (c_rescan s) = true /\ r_current (c_rescan s) = f_height s + 1 /\ step_on ex_P next_height s = Val (s', x) /\
  cbf_run ex_P ms s = Val (s1, x1) /\ cbf_run ex_P ms s' = Val (s2, x2) /\
  fetched (concat x1) = [CoGetBlock 203] /\ scanned (concat x2) = [] /\ fetched (concat x2) = [].
Proof.
  set (ins := up_scan Unbounded ++ all_three). set (t := ex_t [101; 102; 203; 204]).
  set (ms := [ex_i t (CImported [3]); ex_i t (CCFHeaders 1 0 204 8012013 [23; 24]); ex_i t (CCFilter 1 0 203 [23; 52])]).
  destruct (run_ex (cbf_run ex_P ins (cbf0 1000 [])) (fun s _ => r_active (c_rescan s) = true /\ r_current (c_rescan s) = f_height s + 1 /\
     (match cbf_run ex_P ms s with Val (_, x1) => fetched (concat x1) = [CoGetBlock 203] | _ => False end) /\
     (match step_on ex_P next_height s with Val (s', x) => True /\
        match cbf_run ex_P ms s' with Val (_, x2) => scanned (concat x2) = [] /\ fetched (concat x2) = [] | _ => False end | _ => False end)))
    as (s & outs & R & X1 & X2 & X3 & X4); [vm_compute; repeat split|].
  apply run_ex in X3 as (s1 & x1 & E1 & X3). apply run_ex in X4 as (s' & x & E & _ & X4). apply run_ex in X4 as (s2 & x2 & E2 & X5 & X6).
  exists ins, s, outs, s', x, ms, s1, x1, s2, x2. split; [exact R|]. split; [repeat split; exists 2%nat, [203; 204]; repeat split; cbn; lia|].
  split; [by repeat constructor|]. split; [exact X1|]. split; [exact X2|]. split; [exact E|]. split; [exact E1|]. split; [exact E2|]. split; [exact X3|]. split; [exact X5|exact X6].
Qed.
Print Assumptions C121_reorg_refuted.

(** ** C122 *)

(** However the filter hashes are divided into accepted messages, the filter
    header chain ends up the same, in memory and on disk. *)
Theorem C122_granularity P cap st ins s outs ms ms' s1 x1 s2 x2 : chained P ((p_genesis P, p_header P (p_genesis P) 0) :: st) -> cbf_reach P cap st ins s outs ->
  Forall io_ok ms -> Forall io_ok ms' -> all_accepted P ms s -> all_accepted P ms' s -> concat (carried <$> ms) = concat (carried <$> ms') ->
  cbf_run P ms s = Val (s1, x1) -> cbf_run P ms' s = Val (s2, x2) -> c_filters s1 = c_filters s2 /\ c_store s1 = c_store s2.
Proof. exact (granularity P cap st ins s outs ms ms' s1 x1 s2 x2). Qed.
Print Assumptions C122_granularity.

(** The node asked up to the first block, and up to the third when that
    became known. *)
Definition two_asked : list input := [ex_i (ex_t [101]) (CNegotiated 1 true true false); ex_i t3 (CImported [])].
Definition at_once : list input := [ex_i t3 (CCFHeaders 1 0 103 ex_g [11; 12; 13])].
Definition in_parts : list input := [ex_i t3 (CCFHeaders 1 0 101 ex_g [11]); ex_i t3 (CCFHeaders 1 0 103 8012 [12; 13])].
Example C122_case : exists s outs s1 x1 s2 x2, cbf_reach ex_P 1000 [] two_asked s outs /\ all_accepted ex_P at_once s /\ all_accepted ex_P in_parts s /\
  cbf_run ex_P at_once s = Val (s1, x1) /\ cbf_run ex_P in_parts s = Val (s2, x2) /\ concat (carried <$> at_once) = concat (carried <$> in_parts) /\
  f_height s = 0 /\ f_height s1 = 3.
Proof.
  destruct (run_ex (cbf_run ex_P two_asked (cbf0 1000 [])) (fun s _ => f_height s = 0 /\
    match step_on ex_P (ex_i t3 (CCFHeaders 1 0 103 ex_g [11; 12; 13])) s with Val (s', _) => f_height s' = 3 | _ => False end /\
    match step_on ex_P (ex_i t3 (CCFHeaders 1 0 101 ex_g [11])) s with Val (s', _) => f_height s' = 1 /\
      match step_on ex_P (ex_i t3 (CCFHeaders 1 0 103 8012 [12; 13])) s' with Val (s'', _) => f_height s'' = 3 | _ => False end | _ => False end))
    as (s & outs & R & X0 & X1 & X2); [vm_compute; repeat split|].
  apply run_ex in X1 as (s1 & x1 & E1 & X1). apply run_ex in X2 as (s2 & x2 & E2 & X2 & X3). apply run_ex in X3 as (s3 & x3 & E3 & X3).
  exists s, outs, s1, [x1], s3, [x2; x3]. split; [exact R|].
  split. { split; [by eexists _, _, _, _, _|]. intros s' x E. rewrite E1 in E. injection E as <- <-. rewrite X0, X1. done. }
  split. { split; [by eexists _, _, _, _, _|]. intros s' x E. rewrite E2 in E. injection E as <- <-. rewrite X0, X2. split; [done|]. split; [by eexists _, _, _, _, _|].
           intros s' x E. rewrite E3 in E. injection E as <- <-. rewrite X2, X3. done. }
  unfold at_once, in_parts. cbn [cbf_run]. rewrite E1, E2. cbn [mbind_M]. rewrite E3. done.
Qed.
