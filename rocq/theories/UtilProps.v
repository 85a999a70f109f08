(** Property theorems about the small components (C22, C23, C35, C52, C53),
    each followed by a concrete case. *)
From Coq Require Import Sorted.
From Verif Require Import Base UtilModel UtilSpec UtilProofs.
Open Scope N_scope.

(** ** C22 *)

(** Whatever the calls, the chain is what came from the front, then what has
    not been yielded yet, then what came from the back in reverse; once a call
    yielded nothing, nothing is left. *)
Theorem C22_exactly_once {T} (chain : list T) calls s rs :
  iter_run chain (iter_new chain) calls = (s, rs) ->
  exists mid,
    numbered chain = results_of Front calls rs ++ mid ++ reverse (results_of Back calls rs) /\
    (None ∈ rs -> mid = []) /\ length rs = length calls.
Proof. exact (iter_exactly_once chain calls s rs). Qed.
Print Assumptions C22_exactly_once.

(** A call yields nothing exactly when every item has been yielded. *)
Theorem C22_exhausted {T} (chain : list T) calls d s rs :
  iter_run chain (iter_new chain) (calls ++ [d]) = (s, rs) ->
  last rs = Some None <-> length (omap id (take (length calls) rs)) = length chain.
Proof. exact (iter_exhausted chain calls d s rs). Qed.
Print Assumptions C22_exhausted.

Example C22_case :
  (iter_run [10; 20; 30] (iter_new [10; 20; 30]) [Back; Front; Front; Back; Front]).2 =
  [Some (2, 30); Some (0, 10); Some (1, 20); None; None].
Proof. reflexivity. Qed.

(** ** C23 *)

(** For every sequence of reports with samples above [i64::MIN]. *)
Theorem C23_offset_bounded t os : Forall at_op_ok os -> let a := at_run t os in
  (Z.abs (at_offset a) <= 4200)%Z /\
  ((length (at_samples a) < 5)%nat -> at_offset a = 0%Z) /\
  NoDup (at_sources a) /\ (length (at_sources a) <= 200)%nat /\
  length (at_samples a) = S (length (at_sources a)).
Proof.
  intros H. destruct (at_inv_run t os H) as (H1 & H2 & H3 & _ & H4 & H5). exact (conj H4 (conj H5 (conj H1 (conj H2 H3)))).
Qed.
Print Assumptions C23_offset_bounded.

(** A report from a known source or beyond 200 sources changes nothing; any
    other adds one sample, and recomputes the offset exactly when the number of
    samples is odd and at least five. *)
Theorem C23_report t os src z : let a := at_run t os in let a' := at_step a (ARecord src z) in
  (src ∈ at_sources a \/ length (at_sources a) = 200%nat -> a' = a) /\
  (src ∉ at_sources a -> (length (at_sources a) < 200)%nat ->
     at_samples a' = at_samples a ++ [z] /\ at_sources a' ≡ₚ src :: at_sources a /\
     at_local a' = at_local a /\
     ((length (at_samples a') < 5)%nat \/ Nat.Even (length (at_samples a')) -> at_offset a' = at_offset a) /\
     ((5 <= length (at_samples a'))%nat -> Nat.Odd (length (at_samples a')) ->
        exists m, is_median m (at_samples a') /\
          at_offset a' = if bool_decide (abs64 m <= 4200)%Z then m else 0%Z)).
Proof. exact (record_cases t os src z). Qed.
Print Assumptions C23_report.

Theorem C23_network_time t os : Forall at_op_ok os -> let a := at_run t os in
  4200 <= at_local a -> at_local a + 4200 < two32 ->
  Z.of_N (at_get a) = (Z.of_N (at_local a) + at_offset a)%Z.
Proof. exact (at_get_close t os). Qed.
Print Assumptions C23_network_time.

(** Five samples (the initial zero and four reports) give the median 30; the
    duplicate report of source 1 is ignored. *)
Definition ex_reports : list at_op :=
  [ALocal 1000000; ARecord 1 30; ARecord 2 50; ARecord 1 9000; ARecord 3 (-7); ARecord 4 90].
Example C23_case : Forall at_op_ok ex_reports /\
  at_offset (at_run 0 ex_reports) = 30%Z /\ at_get (at_run 0 ex_reports) = 1000030 /\
  at_offset (at_run 0 (take 5 ex_reports)) = 0%Z /\ length (at_sources (at_run 0 ex_reports)) = 4%nat.
Proof. repeat constructor. Qed.

(** Without the bound on samples the claim is false in a release build:
    [i64::MIN.abs()] wraps to itself and passes the bound check.  (A debug
    build panics.)  Any peer chooses its sample. *)
Theorem C23_offset_bounded_refuted_at_i64_min :
  exists t os, Forall (fun o => match o with ARecord _ z => (i64_min <= z < 2 ^ 63)%Z | ALocal _ => True end) os /\
    (at_offset (at_run t os) < -4200)%Z.
Proof.
  exists 0, [ARecord 1 i64_min; ARecord 2 i64_min; ARecord 3 i64_min; ARecord 4 0].
  split; [repeat constructor; unfold i64_min; lia|]. vm_compute. reflexivity.
Qed.
Print Assumptions C23_offset_bounded_refuted_at_i64_min.

(** ** C52 *)

(** After any history, a wake-up returns the keys of exactly the timers that
    are due, earliest first, and keeps the others. *)
Theorem C52_wake {K} (sort : timers K -> timers K) threshold os ts rs now ts' ks : sorts sort ->
  tm_run sort threshold [] os = (ts, rs) -> tm_wake now ts = (ts', ks) ->
  ts' = List.filter (fun e => now <? e.2) ts /\
  (exists due, due ≡ₚ List.filter (fun e => e.2 <=? now) ts /\ ks = due.*1 /\
     StronglySorted (fun a b => a.2 <= b.2) due).
Proof. intros HS. exact (tm_wake_spec sort HS threshold os ts rs now ts' ks). Qed.
Print Assumptions C52_wake.

(** Every accepted timer is woken once or still pending. *)
Theorem C52_conserved {K} (sort : timers K -> timers K) threshold os ts rs : sorts sort ->
  tm_run sort threshold [] os = (ts, rs) ->
  (accepted os rs).*1 ≡ₚ ts.*1 ++ woken rs.
Proof. intros HS. exact (tm_conserved sort HS threshold os [] ts rs (SSorted_nil _)). Qed.
Print Assumptions C52_conserved.

(** The suggested wait ends at the earliest deadline. *)
Theorem C52_next {K} (sort : timers K -> timers K) threshold os ts rs now : sorts sort ->
  tm_run sort threshold [] os = (ts, rs) ->
  match tm_next now ts with
  | None => ts = []
  | Some d => (forall e, e ∈ ts -> now + d <= N.max now e.2) /\
              exists e, e ∈ ts /\ now + d = N.max now e.2
  end.
Proof. intros HS. exact (tm_next_spec sort HS threshold os ts rs now). Qed.
Print Assumptions C52_next.

(** A registration is refused exactly when a pending timer is closer than the
    threshold; an accepted one is added to the pending timers. *)
Theorem C52_register {K} (sort : timers K -> timers K) threshold k t ts : sorts sort ->
  let '(ts', ok) := tm_register sort threshold k t ts in
  (ok = false <-> exists e, e ∈ ts /\ (Z.abs (Z.of_N e.2 - Z.of_N t) < Z.of_N threshold)%Z) /\
  (ok = true -> ts' ≡ₚ (k, t) :: ts) /\ (ok = false -> ts' = ts).
Proof. intros HS. exact (tm_register_spec sort HS threshold k t ts). Qed.
Print Assumptions C52_register.

(** Insertion sort by descending time, for concrete cases. *)
Fixpoint ex_ins {K} (e : K * N) (l : timers K) : timers K :=
  match l with [] => [e] | x :: l' => if x.2 <=? e.2 then e :: l else x :: ex_ins e l' end.
Definition ex_sort {K} (l : timers K) : timers K := foldr ex_ins [] l.
Lemma ex_sort_sorts {K} : sorts (ex_sort (K:=K)).
Proof.
  intros l. split.
  - induction l as [|e l IH]; [done|]. change (ex_sort (e :: l)) with (ex_ins e (ex_sort l)). rewrite <- IH at 2. generalize (ex_sort l). clear. intros l2.
    induction l2 as [|x l2 IH]; cbn; [done|]. destruct (x.2 <=? e.2); [done|]. rewrite IH. apply Permutation_swap.
  - induction l as [|e l IH]; [constructor|]. change (ex_sort (e :: l)) with (ex_ins e (ex_sort l)). induction IH as [|x l' Hs IH Hf]; cbn; [repeat constructor|].
    destruct (N.leb_spec x.2 e.2).
    + constructor; [by constructor|]. constructor; [done|]. eapply Forall_impl; [exact Hf|]. cbn. intros; lia.
    + constructor; [done|]. assert (Hin : forall y, y ∈ ex_ins e l' -> y = e \/ y ∈ l').
      { clear. induction l' as [|z l' IH]; cbn; intros y Hy; [left; by apply elem_of_list_singleton in Hy|].
        destruct (z.2 <=? e.2); set_solver. }
      apply Forall_forall. intros y [->|Hy]%Hin; [lia|]. rewrite Forall_forall in Hf. by apply Hf.
Qed.
Example C52_case : sorts (ex_sort (K:=N)) /\
  tm_run ex_sort 10 [] [TRegister 1 100; TRegister 2 50; TRegister 3 55; TRegister 4 75; TWake 80] =
  ([(1, 100)], [TRegistered true; TRegistered true; TRegistered false; TRegistered true; TWoken [2; 4]]) /\
  tm_next 90 [(1, 100)] = Some 10.
Proof. split; [exact ex_sort_sorts|]. split; reflexivity. Qed.

(** ** C53 *)

(** Any chunking gives the messages, the remainder and the error verdict of
    the whole stream in one piece. *)
Theorem C53_chunking {Msg} (parse : list N -> parsed Msg) buf chunks : streaming parse -> chunks <> [] ->
  chunks_received parse buf chunks = bytes_received parse buf (concat chunks) /\
  is_Some (bytes_received parse buf (concat chunks)).
Proof. intros HS. exact (chunks_one_piece parse HS chunks buf). Qed.
Print Assumptions C53_chunking.

(** The framing of network messages meets the hypothesis, whatever the
    checksum function and the payload decoder. *)
Theorem C53_framing {Msg} checksum (payload : list N -> list N -> list N -> parsed Msg) :
  streaming (frame_parse checksum payload).
Proof. exact (frame_streaming checksum payload). Qed.
Print Assumptions C53_framing.

(** What is left over never starts with a decodable message. *)
Theorem C53_remainder {Msg} (parse : list N -> parsed Msg) b x buf ms e : streaming parse ->
  bytes_received parse b x = Some (buf, ms, e) -> parse buf = if e then Malformed else Incomplete.
Proof. intros _. exact (remainder_undecodable parse b x buf ms e). Qed.
Print Assumptions C53_remainder.

(** Two empty-payload messages and a partial third, cut in odd places. *)
Definition ex_frame : list N := replicate 4 7 ++ replicate 12 1 ++ [0; 0; 0; 0] ++ [9; 9; 9; 9].
Definition ex_parse : list N -> parsed N :=
  frame_parse (fun _ => [9; 9; 9; 9]) (fun magic _ _ => Done (le_value (take 1 magic)) 0).
Definition ex_stream : list N := ex_frame ++ ex_frame ++ [7; 7].
Example C53_case :
  chunks_received ex_parse [] [take 5 ex_stream; take 30 (drop 5 ex_stream); drop 35 ex_stream] =
    Some ([7; 7], [7; 7], false) /\
  bytes_received ex_parse [] ex_stream = Some ([7; 7], [7; 7], false).
Proof. split; vm_compute; reflexivity. Qed.

(** ** C35 *)

(** Every sequence of pushes and rollbacks runs without panic or endless loop
    and keeps the cache within its capacity. *)
Theorem C35_within_capacity {T} (flen : T -> N) cap os :
  exists c, fc_run flen (fc_new cap) os = Val c /\
    fc_capacity c = cap /\ fc_size c <= cap /\ held flen (fc_cache c) <= fc_size c /\
    StronglySorted N.lt (fc_cache c).*1 /\
    (fresh_pushes flen (fc_new cap) os -> held flen (fc_cache c) = fc_size c).
Proof. exact (fc_run_ok flen cap os). Qed.
Print Assumptions C35_within_capacity.

(** A push stores the filter and drops only the heights below some cut; the
    cut is as low as the capacity allows. *)
Theorem C35_push {T} (flen : T -> N) cap os c h f : fc_run flen (fc_new cap) os = Val c ->
  (cap < flen f -> fc_push flen h f c = Val (c, false)) /\
  (flen f <= cap -> exists c' cut, fc_push flen h f c = Val (c', true) /\
    (forall k, fc_get c' k = if k <? cut then None else if h =? k then Some f else fc_get c k) /\
    (cut = 0 \/ exists g, 0 < cut /\ (if h =? cut - 1 then Some f else fc_get c (cut - 1)) = Some g /\
                  cap < fc_size c' + flen g)).
Proof. exact (push_facts flen cap os c h f). Qed.
Print Assumptions C35_push.

Theorem C35_rollback {T} (flen : T -> N) cap os c height : fc_run flen (fc_new cap) os = Val c ->
  exists c', fc_rollback flen height c = Val c' /\
    (forall k, fc_get c' k = if height <? k then None else fc_get c k) /\
    fc_size c' + held flen (fc_cache c) = fc_size c + held flen (fc_cache c').
Proof. exact (rollback_facts flen cap os c height). Qed.
Print Assumptions C35_rollback.

(** Filters are represented by their length.  The push at height 8 evicts the
    filter at height 3. *)
Example C35_case :
  fc_run id (fc_new 8) [FPush 3 3; FPush 5 4; FPush 8 3; FPush 9 100] = Val (FCache [(5, 4); (8, 3)] 7 8) /\
  fc_run id (fc_new 8) [FPush 3 3; FPush 5 4; FPush 8 3; FRollback 6] = Val (FCache [(5, 4)] 4 8) /\
  fresh_pushes id (fc_new 8) [FPush 3 3; FPush 5 4].
Proof.
  split; [reflexivity|]. split; [reflexivity|]. cbn. split; [done|]. intros c' [= <-]. split; [done|]. done.
Qed.

(** A height pushed twice is counted twice: the reported size of an emptied
    cache is not zero, so that part of the capacity is lost for good. *)
Theorem C35_exact_size_refuted :
  exists cap os c, fc_run (T := N) id (fc_new cap) os = Val c /\ fc_cache c = [] /\ 0 < fc_size c.
Proof. exists 8, [FPush 3 4; FPush 3 4; FRollback 0], (FCache [] 4 8). done. Qed.
Print Assumptions C35_exact_size_refuted.
