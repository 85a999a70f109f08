(** Properties of the compact filter manager: C27-C34, C62-C66, C93-C95. *)
From Coq Require Import Sorting.Sorted.
From Verif Require Import Base RunEx UtilModel UtilSpec CbfModel CbfSpec CbfStep CbfMain CbfScan CbfFacts CbfWatch CbfDrop CbfWait CbfAsked CbfSeen.
Open Scope N_scope.

(** ** A concrete setting: a filter is the list of its scripts and its hash
    is its first script; a header is a number made of filter hash and
    previous header. *)
Definition ex_P : params :=
  Params (fun f => match f with x :: _ => x | [] => 0 end) (fun h prev => 1 + h + 1000 * prev)
    (fun f _ w => Some (existsb (fun x => bool_decide (x ∈ w)) f)) (fun f _ w => Some (bool_decide (w ⊆ list_to_set f))) 7 30000.
Definition ex_k : choices := Choices 0 (fun _ => 0%nat) (fun _ l => l) None true.
Definition ex_t (l : list N) : tree := Tree 100 l None.
Definition ex_i (t : tree) (o : cbf_op) : input := Input ex_k 100000 t o.
Definition t3 : tree := ex_t [101; 102; 103].
(** The headers of the filters 11, 12, 13 on top of genesis. *)
Definition ex_g : N := 8.
Definition ex_up (t : tree) (stop : N) (hs : list N) : list input :=
  [ex_i t (CNegotiated 1 true true false); ex_i t (CCFHeaders 1 0 stop ex_g hs)].

(** ** C27 *)
Theorem C27_chain P cap st ins s outs : chained P ((p_genesis P, p_header P (p_genesis P) 0) :: st) ->
  cbf_reach P cap st ins s outs -> chained P (f_entries P s) /\ f_verify P s = true.
Proof. intros C R. pose proof (ok_chain _ _ _ (reach_ok P cap st ins s outs C R)) as X. split; [exact X|exact (chained_verifies P s X)]. Qed.
Print Assumptions C27_chain.

(** With working storage the same holds of what is on disk. *)
Theorem C27_store P cap st ins s outs old : chained P ((p_genesis P, p_header P (p_genesis P) 0) :: st) ->
  cbf_reach P cap st ins s outs -> faithful old ins -> Forall io_ok ins -> lenN st <= tr_height old -> c_store s = c_filters s.
Proof. intros C R F I L. exact (proj1 (proj2 (run_heights P cap ins old _ s outs (cbf0_ok P cap st C) eq_refl L F I R))). Qed.
Print Assumptions C27_store.

Example C27_case : exists s outs, cbf_reach ex_P 1000 [] (ex_up t3 103 [11; 12; 13] ++ [ex_i (ex_t [101; 102; 203; 204]) (CImported [3])]) s outs /\
  c_filters s = [(11, 8012); (12, 8012013)] /\ c_store s = c_filters s.
Proof. apply run_ex. vm_compute. split; reflexivity. Qed.

(** After a write that failed, a later import leaves a store that no longer
    verifies, although the chain in memory does. *)
Theorem C27_store_refuted_after_failed_write : exists ins s outs,
  cbf_reach ex_P 1000 [] ins s outs /\ faithful (ex_t [101; 102]) ins /\
  f_verify ex_P s = true /\ f_verify ex_P (f_load (c_store s) s) = false.
Proof.
  set (ins := [ex_i (ex_t [101; 102]) (CNegotiated 1 true true false);
    Input (Choices 0 (fun _ => 0%nat) (fun _ l => l) (Some 1%nat) true) 100000 (ex_t [101; 102]) (CCFHeaders 1 0 102 ex_g [11; 12]);
    ex_i t3 (CImported []); ex_i t3 (CCFHeaders 1 0 103 8012013 [13])]).
  destruct (run_ex (cbf_run ex_P ins (cbf0 1000 [])) (fun s _ => f_verify ex_P s = true /\ f_verify ex_P (f_load (c_store s) s) = false)) as (s & outs & R & X);
    [vm_compute; split; reflexivity|].
  exists ins, s, outs. split; [exact R|]. split; [|exact X]. repeat split. exists 2%nat, [103]. repeat split. cbn. lia.
Qed.
Print Assumptions C27_store_refuted_after_failed_write.

(** ** C28 *)
Theorem C28_height P cap st ins s outs old : chained P ((p_genesis P, p_header P (p_genesis P) 0) :: st) -> lenN st <= tr_height old ->
  cbf_reach P cap st ins s outs -> faithful old ins -> Forall io_ok ins -> f_height s <= tr_height (final_tree old ins).
Proof. intros C L R F I. exact (proj1 (run_heights P cap ins old _ s outs (cbf0_ok P cap st C) eq_refl L F I R)). Qed.
Print Assumptions C28_height.

Example C28_case : exists s outs, cbf_reach ex_P 1000 [] (ex_up t3 103 [11; 12; 13] ++ [ex_i (ex_t [101; 202]) (CImported [3; 2])]) s outs /\
  f_height s = 1 /\ faithful t3 (ex_up t3 103 [11; 12; 13] ++ [ex_i (ex_t [101; 202]) (CImported [3; 2])]).
Proof.
  destruct (run_ex (cbf_run ex_P (ex_up t3 103 [11; 12; 13] ++ [ex_i (ex_t [101; 202]) (CImported [3; 2])]) (cbf0 1000 [])) (fun s _ => f_height s = 1))
    as (s & outs & R & X); [vm_compute; reflexivity|].
  exists s, outs. split; [exact R|]. split; [exact X|]. repeat split. exists 1%nat, [202]. repeat split. cbn. lia.
Qed.

(** A change of the chain that is not reported crashes the client; an
    aborted batch of headers is one, see C12. *)
Theorem C28_unreported_refuted : exists ins s outs t, cbf_reach ex_P 1000 [] ins s outs /\ faithful t3 ins /\ Forall io_ok ins /\
  tr_height t < f_height s /\ step_on ex_P (Input ex_k 200000 t CTimer) s = Panic (PAssert 571).
Proof.
  set (ins := ex_up t3 103 [11; 12; 13]).
  destruct (run_ex (cbf_run ex_P ins (cbf0 1000 [])) (fun s _ => (tr_height (ex_t [101]) <? f_height s) = true /\
    step_on ex_P (Input ex_k 200000 (ex_t [101]) CTimer) s = Panic (PAssert 571))) as (s & outs & R & X1 & X2); [vm_compute; split; reflexivity|].
  exists ins, s, outs, (ex_t [101]). split; [exact R|]. split; [repeat split|]. split; [repeat constructor|]. split; [by apply N.ltb_lt|exact X2].
Qed.
Print Assumptions C28_unreported_refuted.

(** So does a store error during the rollback. *)
Theorem C28_store_error_refuted : exists ins s outs t reverted k, cbf_reach ex_P 1000 [] ins s outs /\ faithful t3 ins /\ Forall io_ok ins /\
  reorganises t3 t reverted /\ k_rollback_ok k = false /\ step_on ex_P (Input k 200000 t (CImported reverted)) s = Panic (PAssert 571).
Proof.
  set (ins := ex_up t3 103 [11; 12; 13]). set (k := Choices 0 (fun _ => 0%nat) (fun _ l => l) None false).
  destruct (run_ex (cbf_run ex_P ins (cbf0 1000 [])) (fun s _ => step_on ex_P (Input k 200000 (ex_t [101; 202]) (CImported [3; 2])) s = Panic (PAssert 571)))
    as (s & outs & R & X); [vm_compute; reflexivity|].
  exists ins, s, outs, (ex_t [101; 202]), [3; 2], k. split; [exact R|]. split; [repeat split|]. split; [repeat constructor|].
  split; [split; [done|]; exists 1%nat, [202]; repeat split; cbn; lia|]. split; [done|exact X].
Qed.
Print Assumptions C28_store_error_refuted.

(** And a restart after a crash between the switch of the block headers and
    the rollback of the filter headers: the stored heights are not compared. *)
Theorem C28_restart_refuted : exists st t, chained ex_P ((p_genesis ex_P, p_header ex_P (p_genesis ex_P) 0) :: st) /\
  tr_height t < lenN st /\ step_on ex_P (ex_i t CInitialize) (cbf0 1000 st) = Panic (PAssert 571).
Proof.
  exists [(11, 8012); (12, 8012013); (13, 8012013014)], (ex_t [101; 202]). split; [|split; [done|vm_compute; reflexivity]].
  split; [done|]. intros [|[|[|[|i]]]] e e' [= <-] [= <-]; vm_compute; reflexivity.
Qed.
Print Assumptions C28_restart_refuted.

(** ** C29 *)
Theorem C29_conditions P cap st ins s outs i s' x : chained P ((p_genesis P, p_header P (p_genesis P) 0) :: st) -> cbf_reach P cap st ins s outs ->
  step_on P i s = Val (s', x) ->
  (exists n, c_filters s' = take n (c_filters s)) \/
  (exists from stop_hash prev hashes stop,
    i_op i = CCFHeaders from 0 stop_hash prev hashes /\ is_Some (c_inflight s !! stop_hash) /\
    tr_get (i_tree i) stop_hash = Some stop /\ prev = (f_tip P s).2 /\ 1 <= lenN hashes <= 2000 /\ f_height s + lenN hashes = stop /\
    exists es, c_filters s' = c_filters s ++ es /\ es.*1 = hashes).
Proof.
  intros C R E. pose proof (reach_ok P cap st ins s outs C R) as Ok. destruct (step_shrinks P cap i s s' x Ok E) as [L|L]; [right|by left].
  destruct (step_grows P cap i s s' x Ok E L) as (from & sh & prev & hs & stop & H1 & H2 & H3 & H4 & H5 & H6 & H7 & H8 & _).
  exists from, sh, prev, hs, stop. do 5 (split; [done|]). split; [lia|]. exists (chain_headers P prev hs). split; [done|]. apply chain_headers_fst.
Qed.
Print Assumptions C29_conditions.

(** What comes of an answer with filter headers. *)
Theorem C29_reply P cap st ins s outs i s' x from ft stop prev hs : cbf_reach P cap st ins s outs -> step_on P i s = Val (s', x) ->
  i_op i = CCFHeaders from ft stop prev hs ->
  let t := i_tree i in let fh := f_height s in let tip := (f_tip P s).2 in
  (w_asked (watches ins outs watch0) !! stop = None /\ c_filters s' = c_filters s /\ x = []) \/
  (is_Some (w_asked (watches ins outs watch0) !! stop) /\
   ((malformed t fh tip ft stop prev hs /\ c_filters s' = c_filters s /\ x = [CoMisbehaved from]) \/
    (old_news t fh ft stop /\ c_filters s' = c_filters s /\ x = []) \/
    (elsewhere t fh tip ft stop prev /\ c_filters s' = c_filters s /\ x = [CoTimer 1000]) \/
    (well_formed t fh tip ft stop prev hs /\ (forall a, CoMisbehaved a ∉ x) /\ exists es, c_filters s' = c_filters s ++ es /\ es.*1 = hs))).
Proof. exact (headers_replied P cap st ins s outs i s' x from ft stop prev hs). Qed.
Print Assumptions C29_reply.

(** Unasked, one header short, not connected; then the right answer. *)
Example C29_reply_case : exists s outs, cbf_reach ex_P 1000 [] [ex_i t3 (CCFHeaders 1 0 103 ex_g [11; 12; 13]); ex_i t3 (CNegotiated 1 true true false);
    ex_i t3 (CCFHeaders 1 0 103 ex_g [11; 12]); ex_i t3 (CNegotiated 2 true true false); ex_i t3 (CCFHeaders 1 0 103 9 [11; 12; 13]);
    ex_i t3 (CNegotiated 3 true true false); ex_i t3 (CCFHeaders 1 0 103 ex_g [11; 12; 13])] s outs /\
  nth 0 outs [] = [] /\ nth 2 outs [] = [CoMisbehaved 1] /\ nth 4 outs [] = [CoTimer 1000] /\ nth 6 outs [] = [CoHeadersSynced 3].
Proof. apply run_ex. vm_compute. repeat split. Qed.

(** A stop hash is satisfied at most as often as it was asked for. *)
Theorem C29_once P cap st ins s outs stop_hash : chained P ((p_genesis P, p_header P (p_genesis P) 0) :: st) -> cbf_reach P cap st ins s outs ->
  (imports P stop_hash ins (cbf0 cap st) <= count (asks_headers stop_hash) (concat outs))%nat.
Proof. intros C R. pose proof (run_imports P cap ins _ s outs stop_hash (cbf0_ok P cap st C) R) as X. exact (Nat.le_trans _ _ _ (Nat.le_add_r _ _) X). Qed.
Print Assumptions C29_once.

Example C29_case : exists s outs, cbf_reach ex_P 1000 [] (ex_up t3 103 [11; 12; 13] ++ [ex_i t3 (CCFHeaders 1 0 103 ex_g [11; 12; 13])]) s outs /\
  imports ex_P 103 (ex_up t3 103 [11; 12; 13] ++ [ex_i t3 (CCFHeaders 1 0 103 ex_g [11; 12; 13])]) (cbf0 1000 []) = 1%nat /\
  f_height s = 3 /\ map (count (asks_headers 103)) outs = [1; 0; 0]%nat.
Proof.
  destruct (run_ex (cbf_run ex_P (ex_up t3 103 [11; 12; 13] ++ [ex_i t3 (CCFHeaders 1 0 103 ex_g [11; 12; 13])]) (cbf0 1000 []))
    (fun s outs => f_height s = 3 /\ map (count (asks_headers 103)) outs = [1; 0; 0]%nat)) as (s & outs & R & X); [vm_compute; split; reflexivity|].
  exists s, outs. split; [exact R|]. split; [vm_compute; reflexivity|exact X].
Qed.

(** The answer need not come from the peer that was asked, nor from a peer
    known to serve filters. *)
Theorem C29_asked_peer_refuted : exists ins s outs s' x, cbf_reach ex_P 1000 [] ins s outs /\
  (forall p a h, CoGetCFHeaders p a h ∈ concat outs -> p = 1) /\ c_peers s !! 66 = None /\
  step_on ex_P (ex_i t3 (CCFHeaders 66 0 103 ex_g [41; 42; 43])) s = Val (s', x) /\ f_height s' = 3.
Proof.
  set (ins := [ex_i t3 (CNegotiated 1 true true false)]).
  destruct (run_ex (cbf_run ex_P ins (cbf0 1000 [])) (fun s outs => concat outs = [CoGetCFHeaders 1 1 103] /\ c_peers s !! 66 = None /\
    match step_on ex_P (ex_i t3 (CCFHeaders 66 0 103 ex_g [41; 42; 43])) s with Val (s', _) => f_height s' = 3 | _ => False end))
    as (s & outs & R & X1 & X2 & X3); [vm_compute; repeat split|].
  apply run_ex in X3 as (s' & x & E & X4). exists ins, s, outs, s', x. split; [exact R|]. split; [|done].
  intros p a h. rewrite X1. intros I%elem_of_list_singleton. by injection I as ->.
Qed.
Print Assumptions C29_asked_peer_refuted.

(** ** C30 *)
Theorem C30_received P cap st ins s outs i s' x from hash h f : chained P ((p_genesis P, p_header P (p_genesis P) 0) :: st) ->
  cbf_reach P cap st ins s outs -> step_on P i s = Val (s', x) ->
  CoFilterReceived from hash h f ∈ x <-> i_op i = CCFilter from 0 hash f /\ tr_get (i_tree i) hash = Some h /\ authentic P s h f.
Proof.
  intros C R E. pose proof (reach_ok P cap st ins s outs C R) as Ok. split; [exact (step_received P cap i s s' x from hash h f Ok E)|].
  intros (Op & T & A). exact (proj1 (cfilter_judged P cap i s s' x from 0 hash f Ok E Op) h eq_refl T A).
Qed.
Print Assumptions C30_received.

(** The sender is blamed exactly for a basic filter of a known block whose
    filter header is known and does not commit to it. *)
Theorem C30_blamed P cap st ins s outs i s' x from ft hash f a : chained P ((p_genesis P, p_header P (p_genesis P) 0) :: st) ->
  cbf_reach P cap st ins s outs -> step_on P i s = Val (s', x) -> i_op i = CCFilter from ft hash f ->
  CoMisbehaved a ∈ x <-> a = from /\ ft = 0 /\ exists h, tr_get (i_tree i) hash = Some h /\ h <= f_height s /\ ~ authentic P s h f.
Proof. intros C R E Op. exact (proj2 (cfilter_judged P cap i s s' x from ft hash f (reach_ok P cap st ins s outs C R) E Op) a). Qed.
Print Assumptions C30_blamed.

Theorem C30_processed P cap st ins s outs block h v m c : chained P ((p_genesis P, p_header P (p_genesis P) 0) :: st) ->
  cbf_reach P cap st ins s outs -> CoFilterProcessed block h v m c ∈ concat outs -> exists f, vouched P h block f ins (cbf0 cap st).
Proof. exact (processed_vouched P cap st ins s outs block h v m c). Qed.
Print Assumptions C30_processed.

Definition scan_ins : list input :=
  ex_up t3 103 [11; 12; 13] ++ [ex_i t3 (CRescan (Included 1) Unbounded [52]); ex_i t3 (CCFilter 1 0 102 [12; 52]); ex_i t3 (CCFilter 1 0 103 [14]);
    ex_i t3 (CCFilter 1 0 101 [11])].
Example C30_case : exists s outs, cbf_reach ex_P 1000 [] scan_ins s outs /\
  nth 3 outs [] = [CoFilterReceived 1 102 2 [12; 52]; CoScanned 1] /\
  nth 4 outs [] = [CoMisbehaved 1] /\
  nth 5 outs [] = [CoFilterReceived 1 101 1 [11]; CoFilterProcessed 101 1 true false false; CoFilterProcessed 102 2 true true false; CoGetBlock 102].
Proof. apply run_ex. vm_compute. repeat split. Qed.

(** ** C31 *)

(** For an observer who follows the events and the reported re-orgs,
    every processed height is the expected one. *)
Theorem C31_follows P cap st ins : chained P ((p_genesis P, p_header P (p_genesis P) 0) :: st) -> Forall keeps_genesis ins ->
  scan_follows P ins (cbf0 cap st) (Scan 0 0 false).
Proof. intros C K. exact (run_scan P cap ins _ (cbf0_ok P cap st C) K). Qed.
Print Assumptions C31_follows.

(** Without re-org: consecutive heights beginning at the start. *)
Theorem C31_consecutive P cap st ins0 s outs i s1 x ins s' xs from to watch : chained P ((p_genesis P, p_header P (p_genesis P) 0) :: st) ->
  cbf_reach P cap st ins0 s outs -> i_op i = CRescan from to watch -> step_on P i s = Val (s1, x) ->
  cbf_run P ins s1 = Val (s', xs) -> Forall scan_goes_on ins ->
  exists start stop y n, x = CoRescanStarted start stop :: y /\ processed_heights (y ++ concat xs) = heights_from start n.
Proof.
  intros C R Eo E R' G. destruct (rescan_consecutive P cap i ins s s1 x s' xs from to watch (reach_ok P cap st ins0 s outs C R) Eo E R' G)
    as (start & stop & y & n & H1 & H2 & _). by exists start, stop, y, n.
Qed.
Print Assumptions C31_consecutive.

Definition t4 : tree := ex_t [101; 202; 203; 204].
Definition reorg_ins : list input :=
  scan_ins ++ [ex_i t4 (CImported [3; 2]); ex_i t4 (CCFHeaders 1 0 204 8012 [21; 22; 23]); Input ex_k 200000 t4 CTimer;
    ex_i t4 (CCFilter 1 0 202 [21]); ex_i t4 (CCFilter 1 0 203 [22])].
Example C31_case : exists s outs, cbf_reach ex_P 1000 [] reorg_ins s outs /\
  processed_heights (concat outs) = [1; 2; 2; 3] /\ sc_next (scan_of s) = 4 /\ Forall keeps_genesis reorg_ins.
Proof.
  destruct (run_ex (cbf_run ex_P reorg_ins (cbf0 1000 [])) (fun s outs => processed_heights (concat outs) = [1; 2; 2; 3] /\ sc_next (scan_of s) = 4))
    as (s & outs & R & X1 & X2); [vm_compute; split; reflexivity|].
  exists s, outs. split; [exact R|]. split; [exact X1|]. split; [exact X2|]. repeat constructor. by intros [=].
Qed.

(** The queue is not cleared by a re-org.  A scan can run over stale
    filters past the end of the filter header chain; a re-org then does not
    send it back, and the new block at that height is not scanned. *)
Definition stale_ins : list input :=
  ex_up t3 103 [11; 12; 13] ++ [ex_i t3 (CRescan (Included 2) Unbounded [52]); ex_i t3 (CCFilter 1 0 103 [13]);
    ex_i (ex_t [101; 102; 203]) (CImported [3]); ex_i (ex_t [101; 102; 203]) (CCFilter 1 0 102 [12])].
Theorem C31_resume_refuted : exists ins s outs t, cbf_reach ex_P 1000 [] ins s outs /\ faithful t3 ins /\ Forall io_ok ins /\
  t = final_tree t3 ins /\ r_active (c_rescan s) = true /\ tr_at t 3 = Some 303 /\ 3 < r_current (c_rescan s) /\
  (forall block v m c, CoFilterProcessed block 3 v m c ∈ concat outs -> block = 103).
Proof.
  set (t := ex_t [101; 102; 303]). set (ins := stale_ins ++ [ex_i t (CImported [3])]).
  destruct (run_ex (cbf_run ex_P ins (cbf0 1000 [])) (fun s outs => r_active (c_rescan s) = true /\ (3 <? r_current (c_rescan s)) = true /\
    Forall (fun o => match o with CoFilterProcessed b h _ _ _ => h = 3 -> b = 103 | _ => True end) (concat outs)))
    as (s & outs & R & X1 & X2 & X3); [vm_compute; split; [done|]; split; [done|]; repeat constructor; intros; try done|].
  exists ins, s, outs, t. split; [exact R|]. split.
  { repeat split. - exists 2%nat, [203]. repeat split. cbn. lia. - exists 2%nat, [303]. repeat split. cbn. lia. }
  split; [repeat constructor|]. split; [done|]. split; [done|]. split; [done|]. split; [by apply N.ltb_lt|].
  intros block v m c I. rewrite Forall_forall in X3. by apply (X3 _ I).
Qed.
Print Assumptions C31_resume_refuted.

(** ** C32 *)

(** When a scan is reported stopped at [h], all heights below [h] have been
    processed.  Missing: the end height itself, and that the scan stops. *)
Theorem C32_stopped_partial P cap st ins0 s outs i s1 x ins s' xs from to watch x1 h x2 : chained P ((p_genesis P, p_header P (p_genesis P) 0) :: st) ->
  cbf_reach P cap st ins0 s outs -> i_op i = CRescan from to watch -> step_on P i s = Val (s1, x) ->
  cbf_run P ins s1 = Val (s', xs) -> Forall scan_goes_on ins -> x ++ concat xs = x1 ++ CoRescanStopped h :: x2 ->
  exists start stop y m, x = CoRescanStarted start stop :: y /\ processed_heights x1 = heights_from start m /\ h = start + N.of_nat m.
Proof.
  intros C R Eo E R' G Ex. destruct (rescan_consecutive P cap i ins s s1 x s' xs from to watch (reach_ok P cap st ins0 s outs C R) Eo E R' G)
    as (start & stop & y & n & H1 & _ & H2 & _). rewrite H1 in Ex. destruct x1 as [|o x1]; [done|]. injection Ex as <- Ex.
  destruct (H2 _ _ _ Ex) as (m & M1 & M2). by exists start, stop, y, m.
Qed.
Print Assumptions C32_stopped_partial.

(** The scan of 1..=3 is reported stopped before height 3 is processed.  If
    the filter header for height 3 is not there yet, it never will be. *)
Theorem C32_end_missed_refuted : exists ins s outs, cbf_reach ex_P 1000 [] ins s outs /\ faithful (ex_t [101; 102]) ins /\ Forall io_ok ins /\
  ins !! 2%nat = Some (ex_i (ex_t [101; 102]) (CRescan (Included 1) (Included 3) [52])) /\
  CoRescanStopped 3 ∈ concat outs /\ f_height s = 3 /\ c_peers s <> ∅ /\
  processed_heights (concat outs) = [1; 2] /\ r_active (c_rescan s) = false /\ r_requested (c_rescan s) = ∅.
Proof.
  set (t2 := ex_t [101; 102]).
  set (ins := ex_up t2 102 [11; 12] ++ [ex_i t2 (CRescan (Included 1) (Included 3) [52]); ex_i t2 (CCFilter 1 0 101 [11]); ex_i t2 (CCFilter 1 0 102 [12]);
    ex_i t3 (CImported []); ex_i t3 (CCFHeaders 1 0 103 8012013 [13]); Input ex_k 900000 t3 CTimer]).
  destruct (run_ex (cbf_run ex_P ins (cbf0 1000 [])) (fun s outs => nth 4 outs [] = [CoFilterReceived 1 102 2 [12]; CoFilterProcessed 102 2 true false false; CoRescanStopped 3; CoScanned 3] /\ f_height s = 3 /\ c_peers s !! 1 = Some false /\
    processed_heights (concat outs) = [1; 2] /\ r_active (c_rescan s) = false /\ elements (r_requested (c_rescan s)) = [])) as (s & outs & R & X1 & X2 & X3 & X4 & X5 & X6);
    [vm_compute; repeat split|].
  exists ins, s, outs. split; [exact R|]. split; [repeat split; exists 2%nat, [103]; repeat split; cbn; lia|]. split; [repeat constructor|]. split; [done|].
  split. { apply elem_of_list_In, in_concat. exists (nth 4 outs []). split; [|rewrite X1; cbn; tauto].
    apply nth_In. destruct (Nat.le_gt_cases (length outs) 4) as [L|L]; [|done]. rewrite nth_overflow in X1 by done. done. }
  split; [done|]. split; [intros Em; by rewrite Em in X3|]. split; [done|]. split; [done|]. apply leibniz_equiv, elements_empty_inv, X6.
Qed.
Print Assumptions C32_end_missed_refuted.

(** If the last filters arrive together, the scan runs past its end and is
    not reported stopped. *)
Theorem C32_never_stops_refuted : exists ins s outs, cbf_reach ex_P 1000 [] ins s outs /\ faithful t3 ins /\ Forall io_ok ins /\
  ins !! 2%nat = Some (ex_i t3 (CRescan (Included 1) (Included 3) [52])) /\
  processed_heights (concat outs) = [1; 2; 3] /\ r_active (c_rescan s) = true /\ Forall (fun o => match o with CoRescanStopped _ => False | _ => True end) (concat outs).
Proof.
  set (ins := ex_up t3 103 [11; 12; 13] ++ [ex_i t3 (CRescan (Included 1) (Included 3) [52]); ex_i t3 (CCFilter 1 0 103 [13]); ex_i t3 (CCFilter 1 0 102 [12]);
    ex_i t3 (CCFilter 1 0 101 [11])]).
  destruct (run_ex (cbf_run ex_P ins (cbf0 1000 [])) (fun s outs => processed_heights (concat outs) = [1; 2; 3] /\ r_active (c_rescan s) = true /\
    Forall (fun o => match o with CoRescanStopped _ => False | _ => True end) (concat outs))) as (s & outs & R & X1 & X2 & X3);
    [vm_compute; split; [done|]; split; [done|]; repeat constructor|].
  exists ins, s, outs. split; [exact R|]. split; [repeat split|]. split; [repeat constructor|]. split; [done|]. split; [exact X1|]. split; [exact X2|exact X3].
Qed.
Print Assumptions C32_never_stops_refuted.

(** ** C33 *)
Theorem C33_requests P k now t s a b : a <= b -> b <= f_height s -> b <= tr_height t -> c_peers s <> ∅ ->
  k_order k 0 (fst <$> map_to_list (c_peers s)) <> [] ->
  exists s' o rs, cbf_step P k now t (CRequestFilters a b) s = Val (s', o ++ [CoReply true]) /\
    Forall2 (fun x r => exists p hash, x = CoGetCFilters p r.1 hash /\ tr_at t r.2 = Some hash) o rs /\
    ascending rs /\ Forall (fun r => r.1 <= r.2 /\ r.2 - r.1 < 1000) rs /\
    (forall h, covered rs h <-> a <= h <= b /\ ~ at_hand t (c_rescan s) h /\ h ∉ r_requested (c_rescan s)) /\
    (forall h, h ∈ r_requested (c_rescan s') <-> h ∈ r_requested (c_rescan s) \/ covered rs h).
Proof. exact (request_spec P k now t s a b). Qed.
Print Assumptions C33_requests.

(** Height 2 is at hand, 4 has been asked for. *)
Example C33_case : exists s outs s' x,
  cbf_reach ex_P 1000 [] [ex_i (ex_t [101; 102; 103; 104; 105]) (CNegotiated 1 true true false);
    ex_i (ex_t [101; 102; 103; 104; 105]) (CCFHeaders 1 0 105 ex_g [11; 12; 13; 14; 15]);
    ex_i (ex_t [101; 102; 103; 104; 105]) (CRequestFilters 2 2); ex_i (ex_t [101; 102; 103; 104; 105]) (CCFilter 1 0 102 [12]);
    ex_i (ex_t [101; 102; 103; 104; 105]) (CRequestFilters 4 4)] s outs /\
  step_on ex_P (ex_i (ex_t [101; 102; 103; 104; 105]) (CRequestFilters 1 5)) s = Val (s', x) /\
  x = [CoGetCFilters 1 1 101; CoGetCFilters 1 3 103; CoGetCFilters 1 5 105; CoReply true].
Proof.
  match goal with |- exists s outs s' x, cbf_reach _ _ _ ?l s outs /\ _ => set (ins := l) end.
  destruct (run_ex (cbf_run ex_P ins (cbf0 1000 [])) (fun s _ => match step_on ex_P (ex_i (ex_t [101; 102; 103; 104; 105]) (CRequestFilters 1 5)) s with
    | Val (_, x) => x = [CoGetCFilters 1 1 101; CoGetCFilters 1 3 103; CoGetCFilters 1 5 105; CoReply true] | _ => False end)) as (s & outs & R & X); [vm_compute; reflexivity|].
  apply run_ex in X as (s' & x & E & X). exists s, outs, s', x. split; [exact R|]. split; [exact E|exact X].
Qed.

(** A rescan asks for the filters of its range that have not come, and for
    none outside it. *)
Theorem C33_rescan P cap st ins s outs old i s' x from to watch : chained P ((p_genesis P, p_header P (p_genesis P) 0) :: st) -> lenN st <= tr_height old ->
  cbf_reach P cap st ins s outs -> faithful old (ins ++ [i]) -> Forall io_ok (ins ++ [i]) -> step_on P i s = Val (s', x) ->
  i_op i = CRescan from to watch -> complete i ->
  exists start stop y, x = CoRescanStarted start stop :: y /\
    (forall h, watch <> [] -> w_peers (watches ins outs watch0) <> ∅ -> start <= h -> h <= f_height s -> (forall e, stop = Some e -> h <= e) -> never_received h outs ->
      (1 <= count (asks_filter (i_tree i) h) x)%nat) /\
    (forall p a hash, CoGetCFilters p a hash ∈ x -> p ∈ w_peers (watches ins outs watch0) /\
      exists b, tr_at (i_tree i) b = Some hash /\ start <= a <= b /\ b <= f_height s /\ (forall e, stop = Some e -> b <= e) /\ b - a < 1000).
Proof. exact (rescan_asks P cap st ins s outs old i s' x from to watch). Qed.
Print Assumptions C33_rescan.

(** The requests go to the peers in turn. *)
Theorem C33_spread P cap st ins s outs i s' x a b j j' p p' st1 st2 h1 h2 : cbf_reach P cap st ins s outs -> step_on P i s = Val (s', x) ->
  i_op i = CRequestFilters a b -> complete i -> x !! j = Some (CoGetCFilters p st1 h1) -> x !! j' = Some (CoGetCFilters p' st2 h2) ->
  let n := size (w_peers (watches ins outs watch0)) in p ∈ w_peers (watches ins outs watch0) /\ (p = p' <-> (j mod n = j' mod n)%nat).
Proof. exact (requests_spread P cap st ins s outs i s' x a b j j' p p' st1 st2 h1 h2). Qed.
Print Assumptions C33_spread.

(** Three ranges and two peers: the first and the third go to the same.  Then
    a rescan asks again for what has not come. *)
Example C33_spread_case : exists s outs, cbf_reach ex_P 1000 [] [ex_i (ex_t [101; 102; 103; 104; 105]) (CNegotiated 1 true true false);
    ex_i (ex_t [101; 102; 103; 104; 105]) (CNegotiated 2 true true false);
    ex_i (ex_t [101; 102; 103; 104; 105]) (CCFHeaders 1 0 105 ex_g [11; 12; 13; 14; 15]);
    ex_i (ex_t [101; 102; 103; 104; 105]) (CRequestFilters 2 2); ex_i (ex_t [101; 102; 103; 104; 105]) (CCFilter 1 0 102 [12]);
    ex_i (ex_t [101; 102; 103; 104; 105]) (CRequestFilters 4 4); ex_i (ex_t [101; 102; 103; 104; 105]) (CRequestFilters 1 5);
    ex_i (ex_t [101; 102; 103; 104; 105]) (CRescan (Included 1) (Included 4) [52])] s outs /\
  nth 6 outs [] = [CoGetCFilters 1 1 101; CoGetCFilters 2 3 103; CoGetCFilters 1 5 105; CoReply true] /\
  nth 7 outs [] = [CoRescanStarted 1 (Some 4); CoGetCFilters 1 1 101; CoGetCFilters 2 3 104].
Proof. apply run_ex. vm_compute. repeat split. Qed.

(** ** C34 *)

(** Where the chain does not change, the processed filter is that of the
    active block.  Missing: heights that were reorganised. *)
Theorem C34_unchanged_partial P cap st ins s outs h b : chained P ((p_genesis P, p_header P (p_genesis P) 0) :: st) -> cbf_reach P cap st ins s outs ->
  (forall i, i ∈ ins -> tr_at (i_tree i) h = Some b) -> forall block v m c, CoFilterProcessed block h v m c ∈ concat outs -> block = b.
Proof. exact (processed_on_chain P cap st ins s outs h b). Qed.
Print Assumptions C34_unchanged_partial.

Theorem C34_stale_refuted : exists ins s outs x, cbf_reach ex_P 1000 [] ins s outs /\ faithful t3 ins /\ Forall io_ok ins /\
  ins !! 4%nat = Some (ex_i (ex_t [101; 102; 203]) (CImported [3])) /\
  outs !! 5%nat = Some x /\ CoFilterProcessed 103 3 true false false ∈ x /\ tr_at (final_tree t3 ins) 3 = Some 203.
Proof.
  destruct (run_ex (cbf_run ex_P stale_ins (cbf0 1000 [])) (fun s outs => outs !! 5%nat = Some [CoFilterReceived 1 102 2 [12];
    CoFilterProcessed 102 2 true false false; CoFilterProcessed 103 3 true false false; CoScanned 4])) as (s & outs & R & X); [vm_compute; reflexivity|].
  exists stale_ins, s, outs. eexists. split; [exact R|]. split; [repeat split; exists 2%nat, [203]; repeat split; cbn; lia|].
  split; [repeat constructor|]. split; [done|]. split; [exact X|]. split; [|done]. right. right. left.
Qed.
Print Assumptions C34_stale_refuted.

(** ** C62 *)

(** The only panics of a history with faithful reports and working storage. *)
Theorem C62_only_panics P cap st ins s outs old i p : chained P ((p_genesis P, p_header P (p_genesis P) 0) :: st) -> lenN st <= tr_height old ->
  cbf_reach P cap st ins s outs -> faithful old (ins ++ [i]) -> Forall io_ok (ins ++ [i]) -> step_on P i s = Panic p ->
  (p = PAssert 449 /\ exists a b, i_op i = CRequestFilters a b /\ f_height s < b) \/
  (p = PAssert 707 /\ (exists from stop_hash prev hashes, i_op i = CCFHeaders from 0 stop_hash prev hashes /\ is_Some (c_inflight s !! stop_hash)) /\
   r_active (c_rescan s) = true /\ c_peers s = ∅).
Proof. exact (only_panics P cap st ins s outs old i p). Qed.
Print Assumptions C62_only_panics.

(** A scan is running and the last filter peer has gone: the outstanding
    headers, sent by anyone, crash the client. *)
Theorem C62_no_panic_refuted : exists ins s outs i, cbf_reach ex_P 1000 [] ins s outs /\ faithful t3 (ins ++ [i]) /\ Forall io_ok (ins ++ [i]) /\
  i_op i = CCFHeaders 66 0 103 ex_g [11; 12; 13] /\ step_on ex_P i s = Panic (PAssert 707).
Proof.
  set (ins := [ex_i t3 (CNegotiated 1 true true false); ex_i t3 (CRescan (Included 1) Unbounded [52]); ex_i t3 (CDisconnected 1)]).
  set (i := ex_i t3 (CCFHeaders 66 0 103 ex_g [11; 12; 13])).
  destruct (run_ex (cbf_run ex_P ins (cbf0 1000 [])) (fun s _ => step_on ex_P i s = Panic (PAssert 707))) as (s & outs & R & X); [vm_compute; reflexivity|].
  exists ins, s, outs, i. split; [exact R|]. split; [repeat split|]. split; [repeat constructor|]. done.
Qed.
Print Assumptions C62_no_panic_refuted.

(** A range requested by the user beyond the filter headers. *)
Theorem C62_user_request_refuted : exists ins s outs i, cbf_reach ex_P 1000 [] ins s outs /\ faithful t3 (ins ++ [i]) /\ Forall io_ok (ins ++ [i]) /\
  i_op i = CRequestFilters 1 4 /\ step_on ex_P i s = Panic (PAssert 449).
Proof.
  set (ins := [ex_i t3 (CNegotiated 1 true true false)]). set (i := ex_i t3 (CRequestFilters 1 4)).
  destruct (run_ex (cbf_run ex_P ins (cbf0 1000 [])) (fun s _ => step_on ex_P i s = Panic (PAssert 449))) as (s & outs & R & X); [vm_compute; reflexivity|].
  exists ins, s, outs, i. split; [exact R|]. split; [repeat split|]. split; [repeat constructor|]. done.
Qed.
Print Assumptions C62_user_request_refuted.

(** ** C63 *)
Theorem C63_reply P k now t s from start stop stop_hash : tr_get t stop_hash = Some stop -> start <= stop -> stop <= f_height s -> stop < two64 - 1 ->
  exists prev hashes, cbf_step P k now t (CGetCFHeaders from 0 start stop_hash) s = Val (s, [CoCFHeaders from stop_hash prev hashes]) /\
    lenN hashes = stop - start + 1 /\
    (forall h, start <= h <= stop -> exists e, f_entries P s !! N.to_nat h = Some e /\ hashes !! N.to_nat (h - start) = Some e.1) /\
    (start = 0 /\ prev = 0 \/ 0 < start /\ exists e, f_entries P s !! N.to_nat (start - 1) = Some e /\ prev = e.2).
Proof. exact (serve_spec P k now t s from start stop stop_hash). Qed.
Print Assumptions C63_reply.

Example C63_case : exists s outs, cbf_reach ex_P 1000 [] (ex_up t3 103 [11; 12; 13] ++ [ex_i t3 (CGetCFHeaders 5 0 2 103)]) s outs /\
  nth 2 outs [] = [CoCFHeaders 5 103 8012 [12; 13]].
Proof. apply run_ex. vm_compute. reflexivity. Qed.

(** A start above the stop height is answered with headers past the stop
    (release builds; debug builds panic). *)
Theorem C63_range_refuted : exists ins s outs s' prev hashes, cbf_reach ex_P 1000 [] ins s outs /\ tr_get t3 101 = Some 1 /\
  step_on ex_P (ex_i t3 (CGetCFHeaders 5 0 3 101)) s = Val (s', [CoCFHeaders 5 101 prev hashes]) /\ hashes = [13].
Proof.
  set (ins := ex_up t3 103 [11; 12; 13]).
  destruct (run_ex (cbf_run ex_P ins (cbf0 1000 [])) (fun s _ => match step_on ex_P (ex_i t3 (CGetCFHeaders 5 0 3 101)) s with
    | Val (_, x) => x = [CoCFHeaders 5 101 8012013 [13]] | _ => False end)) as (s & outs & R & X); [vm_compute; reflexivity|].
  apply run_ex in X as (s' & x & E & ->). exists ins, s, outs, s'. eexists _, _. split; [exact R|]. split; [done|]. split; [exact E|done].
Qed.
Print Assumptions C63_range_refuted.

(** A stop block above the filter headers gets an incomplete answer. *)
Theorem C63_incomplete_refuted : exists ins s outs s' prev hashes, cbf_reach ex_P 1000 [] ins s outs /\
  let t := ex_t [101; 102; 103; 104] in tr_get t 104 = Some 4 /\
  step_on ex_P (ex_i t (CGetCFHeaders 5 0 2 104)) s = Val (s', [CoCFHeaders 5 104 prev hashes]) /\ hashes = [12; 13].
Proof.
  set (ins := ex_up t3 103 [11; 12; 13] ++ [ex_i (ex_t [101; 102; 103; 104]) (CImported [])]).
  destruct (run_ex (cbf_run ex_P ins (cbf0 1000 [])) (fun s _ => match step_on ex_P (ex_i (ex_t [101; 102; 103; 104]) (CGetCFHeaders 5 0 2 104)) s with
    | Val (_, x) => x = [CoCFHeaders 5 104 8012 [12; 13]] | _ => False end)) as (s & outs & R & X); [vm_compute; reflexivity|].
  apply run_ex in X as (s' & x & E & ->). exists ins, s, outs, s'. eexists _, _. split; [exact R|]. split; [done|]. split; [exact E|done].
Qed.
Print Assumptions C63_incomplete_refuted.

(** ** C64 *)
Theorem C64_matched P cap st ins s outs i s' x block h v m c : chained P ((p_genesis P, p_header P (p_genesis P) 0) :: st) ->
  cbf_reach P cap st ins s outs -> step_on P i s = Val (s', x) -> CoFilterProcessed block h v m c ∈ x ->
  exists f, vouched P h block f (ins ++ [i]) (cbf0 cap st) /\ (m = true <-> looked_for P (ins ++ [i]) f block) /\
    (m = true -> CoGetBlock block ∈ x \/ waiting h ins outs false = true).
Proof. exact (matched_watched P cap st ins s outs i s' x block h v m c). Qed.
Print Assumptions C64_matched.

(** Block 2 pays the watched script, block 1 both outputs of the transaction
    77, block 3 only one of them. *)
Example C64_case :
  let ins := ex_up t3 103 [11; 12; 13] ++ [ex_i t3 (CRescan (Included 1) Unbounded [52]); ex_i t3 (CWatchTx 77 [61; 62]);
    ex_i t3 (CCFilter 1 0 102 [12; 52]); ex_i t3 (CCFilter 1 0 103 [13; 61])] in
  watched_scripts ins = [52] /\ watched_txs ins !! 77 = Some [61; 62] /\
  exists s outs s' x, cbf_reach ex_P 1000 [] ins s outs /\ step_on ex_P (ex_i t3 (CCFilter 1 0 101 [11; 61; 62])) s = Val (s', x) /\
    x = [CoFilterReceived 1 101 1 [11; 61; 62]; CoFilterProcessed 101 1 true true false; CoFilterProcessed 102 2 true true false;
         CoFilterProcessed 103 3 true false false; CoGetBlock 101; CoGetBlock 102].
Proof.
  intros ins. split; [reflexivity|]. split; [vm_compute; reflexivity|].
  destruct (run_ex (cbf_run ex_P ins (cbf0 1000 [])) (fun s _ => match step_on ex_P (ex_i t3 (CCFilter 1 0 101 [11; 61; 62])) s with
    | Val (_, x) => x = [CoFilterReceived 1 101 1 [11; 61; 62]; CoFilterProcessed 101 1 true true false; CoFilterProcessed 102 2 true true false;
         CoFilterProcessed 103 3 true false false; CoGetBlock 101; CoGetBlock 102] | _ => False end)) as (s & outs & R & X); [vm_compute; reflexivity|].
  apply run_ex in X as (s' & x & E & X). exists s, outs, s', x. split; [exact R|]. split; [exact E|exact X].
Qed.

(** ** C65 *)
Theorem C65_reported_partial P cap st ins0 s outs i ins s1 x s' xs block h v c from ftype hash f k now t :
  chained P ((p_genesis P, p_header P (p_genesis P) 0) :: st) -> cbf_reach P cap st ins0 s outs ->
  i_op i = CCFilter from ftype hash f -> step_on P i s = Val (s1, x) -> CoFilterProcessed block h v true c ∈ x ->
  cbf_run P ins s1 = Val (s', xs) -> Forall (block_awaited h) ins ->
  exists s2 y, step_on P (Input k now t (CBlockProcessed block h)) s' = Val (s2, CoBlockMatched block h :: y).
Proof.
  intros C R. exact (matched_reported P cap i ins s s1 x s' xs block h v c from ftype hash f k now t (reach_ok P cap st ins0 s outs C R)).
Qed.
Print Assumptions C65_reported_partial.

Example C65_case : exists s outs, cbf_reach ex_P 1000 [] (scan_ins ++ [ex_i t3 (CBlockProcessed 102 2)]) s outs /\
  nth 6 outs [] = [CoBlockMatched 102 2; CoScanned 3].
Proof. apply run_ex. vm_compute. reflexivity. Qed.

(** A block is reported as matched exactly when it is awaited. *)
Theorem C65_exact P cap st ins s outs i s' x block h : chained P ((p_genesis P, p_header P (p_genesis P) 0) :: st) ->
  cbf_reach P cap st ins s outs -> step_on P i s = Val (s', x) ->
  CoBlockMatched block h ∈ x <-> i_op i = CBlockProcessed block h /\ waiting h ins outs false = true.
Proof.
  intros C R E. rewrite (reach_wait P cap st ins s outs h C R). split; [exact (step_matched P cap i s s' x block h (reach_ok P cap st ins s outs C R) E)|].
  intros [Op I]. exact (step_reports P i s s' x block h Op I E).
Qed.
Print Assumptions C65_exact.

(** A match found among the cached filters is fetched, but its block is not
    reported when it arrives. *)
Theorem C65_cached_refuted : exists ins s outs i s1 x s' y, cbf_reach ex_P 1000 [] ins s outs /\ i_op i = CRescan (Included 2) Unbounded [52] /\
  step_on ex_P i s = Val (s1, x) /\ CoFilterProcessed 102 2 true true true ∈ x /\ CoGetBlock 102 ∈ x /\
  step_on ex_P (ex_i t3 (CBlockProcessed 102 2)) s1 = Val (s', y) /\ y = [].
Proof.
  set (ins := ex_up t3 103 [11; 12; 13] ++ [ex_i t3 (CRescan (Included 2) Unbounded [99]); ex_i t3 (CCFilter 1 0 102 [12; 52])]).
  set (i := ex_i t3 (CRescan (Included 2) Unbounded [52])).
  destruct (run_ex (cbf_run ex_P ins (cbf0 1000 [])) (fun s _ => match step_on ex_P i s with
    | Val (s1, x) => x = [CoRescanStarted 2 None; CoGetCFilters 1 3 103; CoFilterProcessed 102 2 true true true; CoGetBlock 102] /\
        match step_on ex_P (ex_i t3 (CBlockProcessed 102 2)) s1 with Val (_, y) => y = [] | _ => False end
    | _ => False end)) as (s & outs & R & X); [vm_compute; repeat split|].
  apply run_ex in X as (s1 & x & E1 & -> & X). apply run_ex in X as (s' & y & E2 & ->).
  exists ins, s, outs, i, s1. eexists _, s', _. split; [exact R|]. split; [done|]. split; [exact E1|].
  split; [do 2 right; left|]. split; [do 3 right; left|]. split; [exact E2|done].
Qed.
Print Assumptions C65_cached_refuted.

(** ** C66 *)

(** The flag consulted when a header request times out is that of the newly
    chosen peer: a persistent peer is dropped. *)
Theorem C66_persistent_refuted : exists ins s outs, cbf_reach ex_P 1000 [] ins s outs /\
  ins !! 0%nat = Some (ex_i t3 (CNegotiated 1 true true true)) /\ CoDisconnect 1 ∈ concat outs.
Proof.
  set (ins := [ex_i t3 (CNegotiated 1 true true true); ex_i t3 (CNegotiated 2 true true false);
    Input (Choices 0 (fun _ => 1%nat) (fun _ l => l) None true) 200000 t3 CTimer]).
  destruct (run_ex (cbf_run ex_P ins (cbf0 1000 [])) (fun s outs => existsb (fun o => match o with CoDisconnect 1 => true | _ => false end) (concat outs) = true))
    as (s & outs & R & X); [vm_compute; reflexivity|].
  exists ins, s, outs. split; [exact R|]. split; [done|]. apply existsb_exists in X as (o & I & X). apply elem_of_list_In.
  destruct o as [| | |p| | | | | | | | | | | |]; try done. by destruct p as [|[]].
Qed.
Print Assumptions C66_persistent_refuted.

(** What does hold: whoever is dropped had been asked for filter headers and
    the time is up, and another peer, one that is not persistent, is asked. *)
Theorem C66_dropped P cap st ins s outs i s' x x1 p x2 : cbf_reach P cap st ins s outs -> step_on P i s = Val (s', x) -> x = x1 ++ CoDisconnect p :: x2 ->
  dropped_for P i (foldl (held_out i) (held_in (helds ins outs held0) i) x1) p x2.
Proof. exact (whom_dropped P cap st ins s outs i s' x x1 p x2). Qed.
Print Assumptions C66_dropped.

(** So nobody is dropped while all filter peers are persistent. *)
Theorem C66_kept P cap st ins s outs p : cbf_reach P cap st ins s outs -> Forall (fun i => forall a, i_op i <> CNegotiated a true true false) ins ->
  CoDisconnect p ∉ concat outs.
Proof. exact (none_dropped P cap st ins s outs p). Qed.
Print Assumptions C66_kept.

Definition slow_ins (persistent : bool) : list input := [ex_i t3 (CNegotiated 1 true true true); ex_i t3 (CNegotiated 2 true true persistent)].
Definition slow_timer : input := Input (Choices 0 (fun _ => 1%nat) (fun _ l => l) None true) 200000 t3 CTimer.
Example C66_case : exists s outs s' x x1 x2, cbf_reach ex_P 1000 [] (slow_ins false) s outs /\ step_on ex_P slow_timer s = Val (s', x) /\
  x = x1 ++ CoDisconnect 1 :: x2 /\
  exists s0 outs0, cbf_reach ex_P 1000 [] (slow_ins true ++ [slow_timer]) s0 outs0 /\ outs0 !! 2%nat = Some [CoTimer 60000; CoGetCFHeaders 2 1 103].
Proof.
  destruct (run_ex (cbf_run ex_P (slow_ins false) (cbf0 1000 [])) (fun s _ => match step_on ex_P slow_timer s with Val (_, x) => x = [CoTimer 60000; CoDisconnect 1; CoGetCFHeaders 2 1 103] | Panic _ => False end))
    as (s & outs & R & X); [vm_compute; reflexivity|]. apply run_ex in X as (s' & x & E & X).
  destruct (run_ex (cbf_run ex_P (slow_ins true ++ [slow_timer]) (cbf0 1000 [])) (fun _ o => o !! 2%nat = Some [CoTimer 60000; CoGetCFHeaders 2 1 103]))
    as (s0 & outs0 & R0 & X0); [vm_compute; reflexivity|].
  exists s, outs, s', x, [CoTimer 60000], [CoGetCFHeaders 2 1 103]. split; [exact R|]. split; [exact E|]. split; [exact X|]. exists s0, outs0. split; [exact R0|exact X0].
Qed.

(** ** C93 *)

(** Filter headers are asked for from connected outbound filter peers only,
    from the height after the last header up to the next stop, once; and
    again, for the same range, only when time is up. *)
Theorem C93_asked P cap st ins s outs i s' x x1 p start stop x2 : cbf_reach P cap st ins s outs -> step_on P i s = Val (s', x) ->
  x = x1 ++ CoGetCFHeaders p start stop :: x2 ->
  let w := foldl (watch_out i) (watch_in (watches ins outs watch0) i) x1 in
  p ∈ w_peers w /\
  ((w_asked w !! stop = None /\ start = f_height s' + 1 /\ start <= tr_height (i_tree i) /\ next_stop (i_tree i) (f_height s') = Some stop /\ past_checkpoints (i_tree i)) \/
   (exists t0, w_asked w !! stop = Some (start, t0) /\ t0 + p_timeout P <= i_now i /\ i_op i = CTimer)).
Proof. exact (headers_asked P cap st ins s outs i s' x x1 p start stop x2). Qed.
Print Assumptions C93_asked.

Theorem C93_again P cap st ins s outs i s' x start stop t0 : cbf_reach P cap st ins s outs -> step_on P i s = Val (s', x) ->
  i_op i = CTimer -> complete i -> w_asked (watches ins outs watch0) !! stop = Some (start, t0) -> t0 + p_timeout P <= i_now i ->
  w_peers (watches ins outs watch0) <> ∅ -> exists p, CoGetCFHeaders p start stop ∈ x.
Proof. exact (headers_again P cap st ins s outs i s' x start stop t0). Qed.
Print Assumptions C93_again.

(** Filters are asked for from such peers, too, and filter headers are sent
    only to a peer that has asked for those up to this block. *)
Theorem C93_filters P cap st ins s outs i s' x p : cbf_reach P cap st ins s outs -> step_on P i s = Val (s', x) ->
  (forall a b, complete i -> CoGetCFilters p a b ∈ x -> exists x1 x2, x = x1 ++ CoGetCFilters p a b :: x2 /\
    p ∈ w_peers (foldl (watch_out i) (watch_in (watches ins outs watch0) i) x1)) /\
  (forall stop prev l, CoCFHeaders p stop prev l ∈ x -> exists ty start, i_op i = CGetCFHeaders p ty start stop).
Proof.
  intros R E. split.
  - intros a b Co I. destruct (step_proper P cap st ins s outs i s' x _ R E I) as (x1 & x2 & Ex & Pr). exists x1, x2. split; [exact Ex|exact (Pr Co)].
  - intros stop prev l I. destruct (step_proper P cap st ins s outs i s' x _ R E I) as (x1 & x2 & _ & Pr). exact Pr.
Qed.
Print Assumptions C93_filters.

(** Behind the block headers, a request for the next filter headers is out. *)
Theorem C93_next P cap st ins s outs i s' x old : chained P ((p_genesis P, p_header P (p_genesis P) 0) :: st) -> lenN st <= tr_height old ->
  cbf_reach P cap st ins s outs -> faithful old ins -> Forall io_ok (ins ++ [i]) -> step_on P i s = Val (s', x) -> looks_for_headers i s s' ->
  past_checkpoints (i_tree i) -> f_height s' < tr_height (i_tree i) ->
  let w := foldl (watch_out i) (watch_in (watches ins outs watch0) i) x in w_peers w <> ∅ ->
  exists stop, next_stop (i_tree i) (f_height s') = Some stop /\ is_Some (w_asked w !! stop).
Proof. exact (headers_next P cap st ins s outs i s' x old). Qed.
Print Assumptions C93_next.

(** The same after a minute without. *)
Theorem C93_idle P cap st ins s outs i s' x : cbf_reach P cap st ins s outs -> step_on P i s = Val (s', x) ->
  i_op i = CTimer \/ i_op i = CInitialize -> 60000 <= i_now i - default 0 (since_when idle_step ins outs None) ->
  CoTimer 60000 ∈ x /\
  (past_checkpoints (i_tree i) -> f_height s' < tr_height (i_tree i) -> w_peers (watches ins outs watch0) <> ∅ ->
   exists stop, next_stop (i_tree i) (f_height s') = Some stop /\ is_Some (w_asked (foldl (watch_out i) (watch_in (watches ins outs watch0) i) x) !! stop)).
Proof. exact (headers_idle P cap st ins s outs i s' x). Qed.
Print Assumptions C93_idle.

(** The filter headers are reported complete when they have become so. *)
Theorem C93_synced P cap st ins s outs old i s' x h : chained P ((p_genesis P, p_header P (p_genesis P) 0) :: st) -> lenN st <= tr_height old ->
  cbf_reach P cap st ins s outs -> faithful old (ins ++ [i]) -> Forall io_ok (ins ++ [i]) -> step_on P i s = Val (s', x) ->
  CoHeadersSynced h ∈ x <-> f_height s < f_height s' /\ f_height s' = h /\ h = tr_height (i_tree i).
Proof. exact (headers_synced P cap st ins s outs old i s' x h). Qed.
Print Assumptions C93_synced.

(** Asked on negotiation, and again from the other peer when time is up. *)
Example C93_case : exists s outs, cbf_reach ex_P 1000 [] [ex_i t3 (CNegotiated 1 true true true); ex_i t3 (CNegotiated 2 true true true);
    Input (Choices 0 (fun _ => 1%nat) (fun _ l => l) None true) 130000 t3 CTimer] s outs /\
  nth 0 outs [] = [CoGetCFHeaders 1 1 103] /\ nth 1 outs [] = [] /\ nth 2 outs [] = [CoTimer 60000; CoGetCFHeaders 2 1 103].
Proof. apply run_ex. vm_compute. repeat split. Qed.

(** ** C94 *)

(** A report that the scan has come to [k] is true: every height below [k]
    has been processed in this scan and none of their blocks is awaited. *)
Theorem C94_scanned P cap st ins0 s0 outs0 i s1 x ins s' xs i' s2 x' from to watch k :
  chained P ((p_genesis P, p_header P (p_genesis P) 0) :: st) -> cbf_reach P cap st ins0 s0 outs0 ->
  (forall h, waiting h ins0 outs0 false = false) ->
  i_op i = CRescan from to watch -> step_on P i s0 = Val (s1, x) -> cbf_run P ins s1 = Val (s', xs) -> step_on P i' s' = Val (s2, x') ->
  Forall scan_goes_on (ins ++ [i']) -> CoScanned k ∈ x' ->
  (forall b h h', i_op i' = CBlockProcessed b h -> h' < h -> waiting h' (ins0 ++ i :: ins) (outs0 ++ x :: xs) false = false) ->
  (forall h, h < k -> waiting h (ins0 ++ i :: ins ++ [i']) (outs0 ++ x :: xs ++ [x']) false = false) /\
  exists start stop y n, x = CoRescanStarted start stop :: y /\ processed_heights (y ++ concat xs ++ x') = heights_from start n /\ k <= start + N.of_nat n.
Proof. exact (scanned_truthful P cap st ins0 s0 outs0 i s1 x ins s' xs i' s2 x' from to watch k). Qed.
Print Assumptions C94_scanned.

(** If the matching block of an earlier scan arrives, the scan is reported
    ahead of where it is. *)
Theorem C94_ahead_refuted : exists ins s outs i s1 x i' s2 x', cbf_reach ex_P 1000 [] ins s outs /\ faithful t3 (ins ++ [i; i']) /\ Forall io_ok (ins ++ [i; i']) /\
  i_op i = CRescan (Included 1) Unbounded [53] /\ step_on ex_P i s = Val (s1, x) /\ i_op i' = CBlockProcessed 103 3 /\ step_on ex_P i' s1 = Val (s2, x') /\
  processed_heights (x ++ x') = [] /\ CoScanned 3 ∈ x'.
Proof.
  set (ins := ex_up t3 103 [11; 12; 13] ++ [ex_i t3 (CRescan (Included 3) Unbounded [52]); ex_i t3 (CCFilter 1 0 103 [13; 52])]).
  set (i := ex_i t3 (CRescan (Included 1) Unbounded [53])). set (i' := ex_i t3 (CBlockProcessed 103 3)).
  destruct (run_ex (cbf_run ex_P ins (cbf0 1000 [])) (fun s _ => match step_on ex_P i s with
    | Val (s1, x) => processed_heights x = [] /\ match step_on ex_P i' s1 with Val (_, y) => y = [CoBlockMatched 103 3; CoScanned 3] | _ => False end
    | _ => False end)) as (s & outs & R & X); [vm_compute; repeat split|].
  apply run_ex in X as (s1 & x & E1 & X1 & X). apply run_ex in X as (s2 & y & E2 & ->).
  exists ins, s, outs, i, s1, x, i', s2. eexists. split; [exact R|]. split; [repeat split|]. split; [repeat constructor|]. split; [done|].
  split; [exact E1|]. split; [done|]. split; [exact E2|]. split; [|right; left].
  unfold processed_heights in *. rewrite omap_app, X1. done.
Qed.
Print Assumptions C94_ahead_refuted.

(** The history of [C65_case] is one: after the block of height 2, the scan
    is reported to have come to 3. *)
Example C94_case : exists s0 outs0 s1 x s' xs s2 x', cbf_reach ex_P 1000 [] (take 2 scan_ins) s0 outs0 /\
  step_on ex_P (ex_i t3 (CRescan (Included 1) Unbounded [52])) s0 = Val (s1, x) /\ cbf_run ex_P (drop 3 scan_ins) s1 = Val (s', xs) /\
  step_on ex_P (ex_i t3 (CBlockProcessed 102 2)) s' = Val (s2, x') /\ CoScanned 3 ∈ x' /\
  (forall h, waiting h (take 2 scan_ins) outs0 false = false) /\ waiting 2 scan_ins (outs0 ++ x :: xs) false = true.
Proof.
  destruct (run_ex (cbf_run ex_P (take 2 scan_ins) (cbf0 1000 [])) (fun s0 outs0 => length outs0 = 2%nat /\
    match step_on ex_P (ex_i t3 (CRescan (Included 1) Unbounded [52])) s0 with
    | Val (s1, x) => match cbf_run ex_P (drop 3 scan_ins) s1 with
       | Val (s', xs) => waiting 2 scan_ins (outs0 ++ x :: xs) false = true /\
           match step_on ex_P (ex_i t3 (CBlockProcessed 102 2)) s' with Val (_, x') => x' = [CoBlockMatched 102 2; CoScanned 3] | _ => False end
       | _ => False end
    | _ => False end)) as (s0 & outs0 & R & L & X); [vm_compute; repeat split|].
  apply run_ex in X as (s1 & x & E1 & X). apply run_ex in X as (s' & xs & E2 & W & X). apply run_ex in X as (s2 & x' & E3 & ->).
  exists s0, outs0, s1, x, s', xs, s2. eexists. split; [exact R|]. split; [exact E1|]. split; [exact E2|]. split; [exact E3|]. split; [right; left|].
  split; [|exact W]. destruct outs0 as [|a [|b [|]]]; done.
Qed.

(** ** C95 *)

(** A filter from the network is processed at most as often as it has been
    asked for. *)
Theorem C95_once P cap st ins s outs old h : chained P ((p_genesis P, p_header P (p_genesis P) 0) :: st) -> lenN st <= tr_height old ->
  cbf_reach P cap st ins s outs -> faithful old ins -> Forall io_ok ins -> Forall complete ins ->
  (count (processes_new h) (concat outs) <= asked_filter h ins outs)%nat.
Proof. exact (filters_asked P cap st ins s outs old h). Qed.
Print Assumptions C95_once.

(** A scan that does not move on asks again for what has not come. *)
Theorem C95_again P cap st ins0 s0 outs0 i s1 x ins s' xs i' s2 x' from to watch start stop y h old :
  chained P ((p_genesis P, p_header P (p_genesis P) 0) :: st) -> lenN st <= tr_height old -> cbf_reach P cap st ins0 s0 outs0 ->
  i_op i = CRescan from to watch -> step_on P i s0 = Val (s1, x) -> cbf_run P ins s1 = Val (s', xs) -> step_on P i' s' = Val (s2, x') ->
  i_op i' = CTimer -> complete i' -> Forall scan_goes_on ins -> faithful old ((ins0 ++ i :: ins) ++ [i']) -> Forall io_ok ((ins0 ++ i :: ins) ++ [i']) ->
  x = CoRescanStarted start stop :: y -> (forall k, CoRescanStopped k ∉ y ++ concat xs) ->
  6000 <= i_now i' - default 0 (since_when moved_step (ins0 ++ i :: ins) (outs0 ++ x :: xs) None) ->
  w_peers (watches (ins0 ++ i :: ins) (outs0 ++ x :: xs) watch0) <> ∅ ->
  start + lenN (processed_heights (y ++ concat xs)) <= h <= f_height s' -> never_received h (outs0 ++ x :: xs) ->
  (1 <= count (asks_filter (i_tree i') h) x')%nat.
Proof. exact (filters_again P cap st ins0 s0 outs0 i s1 x ins s' xs i' s2 x' from to watch start stop y h old). Qed.
Print Assumptions C95_again.

(** The filter of height 1 comes, those of 2 and 3 do not; six seconds later
    they are asked for again. *)
Example C95_again_case : exists s outs, cbf_reach ex_P 1000 [] (ex_up t3 103 [11; 12; 13] ++ [ex_i t3 (CRescan (Included 1) Unbounded [52]);
    ex_i t3 (CCFilter 1 0 101 [11]); Input ex_k 105999 t3 CTimer; Input ex_k 106000 t3 CTimer]) s outs /\
  nth 2 outs [] = [CoRescanStarted 1 None; CoGetCFilters 1 1 103] /\ nth 4 outs [] = [CoTimer 60000] /\ nth 5 outs [] = [CoGetCFilters 1 2 103].
Proof. apply run_ex. vm_compute. repeat split. Qed.

(** Asked once; the second copy of the filter is not processed. *)
Example C95_case : exists s outs, cbf_reach ex_P 1000 [] (scan_ins ++ [ex_i t3 (CCFilter 1 0 101 [11])]) s outs /\
  Forall complete (scan_ins ++ [ex_i t3 (CCFilter 1 0 101 [11])]) /\
  asked_filter 1 (scan_ins ++ [ex_i t3 (CCFilter 1 0 101 [11])]) outs = 1%nat /\ count (processes_new 1) (concat outs) = 1%nat.
Proof.
  destruct (run_ex (cbf_run ex_P (scan_ins ++ [ex_i t3 (CCFilter 1 0 101 [11])]) (cbf0 1000 [])) (fun _ outs =>
    asked_filter 1 (scan_ins ++ [ex_i t3 (CCFilter 1 0 101 [11])]) outs = 1%nat /\ count (processes_new 1) (concat outs) = 1%nat)) as (s & outs & R & X); [vm_compute; repeat split|].
  exists s, outs. split; [exact R|]. split; [|exact X]. repeat constructor; intros n l; reflexivity.
Qed.
