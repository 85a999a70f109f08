(** Proofs about the small components. *)
From Verif Require Import Base SortProofs UtilModel UtilSpec.
From Coq Require Import Sorted.
Open Scope N_scope.

Lemma ssorted_app {A} (R : A -> A -> Prop) l1 l2 : StronglySorted R (l1 ++ l2) <->
  StronglySorted R l1 /\ StronglySorted R l2 /\ (forall x y, x ∈ l1 -> y ∈ l2 -> R x y).
Proof.
  induction l1 as [|a l1 IH]; cbn.
  - split; [intros H; split; [constructor|split; [done|]]; by intros ? ? ?%elem_of_nil|by intros (_ & ? & _)].
  - split.
    + intros H. apply StronglySorted_inv in H as [H1 H2]. apply IH in H1 as (Ha & Hb & Hc).
      apply Forall_app in H2 as [H3 H4]. split; [by constructor|]. split; [done|].
      intros x y [->|Hx]%elem_of_cons Hy; [|by apply Hc]. rewrite Forall_forall in H4. by apply H4.
    + intros (Ha & Hb & Hc). apply StronglySorted_inv in Ha as [H1 H2]. constructor.
      * apply IH. split; [done|]. split; [done|]. intros x y Hx. apply Hc. by right.
      * apply Forall_app. split; [done|]. apply Forall_forall. intros y. apply Hc. by left.
Qed.

Lemma lfilter_length {A} (f : A -> bool) l : (length (List.filter f l) <= length l)%nat.
Proof. induction l as [|x l IH]; cbn; [done|]. destruct (f x); cbn; lia. Qed.

(** ** Iterator *)
Section Iter.
Context {T : Type}.
Implicit Types (chain : list T).

Lemma numbered_lookup chain i : numbered chain !! i = (fun x => (N.of_nat i, x)) <$> chain !! i.
Proof. unfold numbered. by rewrite list_lookup_imap. Qed.

Lemma numbered_length chain : length (numbered chain) = length chain.
Proof. unfold numbered. by rewrite imap_length. Qed.

Definition segment chain (s : iter_st) : list (N * T) :=
  take (it_back s - it_next s) (drop (it_next s) (numbered chain)).

Lemma iter_next_spec chain s s' r : (it_next s <= it_back s <= length chain)%nat ->
  iter_next chain s = (s', r) ->
  (it_next s' <= it_back s' <= length chain)%nat /\
  segment chain s = match r with Some x => x :: segment chain s' | None => [] end /\
  (r = None -> segment chain s' = []).
Proof.
  intros Hs E. unfold iter_next in E. destruct (Nat.eqb_spec (it_next s) (it_back s)) as [En|En].
  - injection E as <- <-. split; [done|]. unfold segment. rewrite En, Nat.sub_diag. done.
  - injection E as <- <-. cbn. split; [lia|].
    destruct (lookup_lt_is_Some_2 chain (it_next s)) as [x Hx]; [lia|]. rewrite Hx. cbn. split; [|done].
    unfold segment. cbn.
    rewrite (drop_S _ (N.of_nat (it_next s), x) (it_next s)); [|by rewrite numbered_lookup, Hx].
    replace (it_back s - it_next s)%nat with (S (it_back s - (it_next s + 1))) by lia.
    cbn. by rewrite Nat.add_1_r.
Qed.

Lemma iter_next_back_spec chain s s' r : (it_next s <= it_back s <= length chain)%nat ->
  iter_next_back chain s = (s', r) ->
  (it_next s' <= it_back s' <= length chain)%nat /\
  segment chain s = match r with Some x => segment chain s' ++ [x] | None => [] end /\
  (r = None -> segment chain s' = []).
Proof.
  intros Hs E. unfold iter_next_back in E. destruct (Nat.eqb_spec (it_back s) (it_next s)) as [En|En].
  - injection E as <- <-. split; [done|]. unfold segment. rewrite En, Nat.sub_diag. done.
  - injection E as <- <-. cbn. split; [lia|].
    destruct (lookup_lt_is_Some_2 chain (it_back s - 1)) as [x Hx]; [lia|]. rewrite Hx. cbn. split; [|done].
    unfold segment. cbn.
    replace (it_back s - it_next s)%nat with (S (it_back s - 1 - it_next s)) by lia.
    apply take_S_r. rewrite lookup_drop. rewrite numbered_lookup.
    replace (it_next s + (it_back s - 1 - it_next s))%nat with (it_back s - 1)%nat by lia. by rewrite Hx.
Qed.

Lemma iter_run_spec chain calls : forall s s' rs,
  (it_next s <= it_back s <= length chain)%nat -> iter_run chain s calls = (s', rs) ->
  segment chain s = results_of Front calls rs ++ segment chain s' ++ reverse (results_of Back calls rs) /\
  length rs = length calls /\ (None ∈ rs -> segment chain s' = []).
Proof.
  induction calls as [|d calls IH]; intros s s' rs Hs E.
  - injection E as <- <-. cbn. rewrite app_nil_r. split; [done|]. split; [done|]. by intros ?%elem_of_nil.
  - cbn in E. destruct d.
    + destruct (iter_next chain s) as [s1 r] eqn:E1. destruct (iter_run chain s1 calls) as [s2 rs1] eqn:E2.
      injection E as <- <-. apply iter_next_spec in E1 as (Hs1 & H1 & Hn); [|done].
      destruct (IH _ _ _ Hs1 E2) as (H2 & Hl & Hnone). split; [|split].
      * rewrite H1. destruct r as [x|]; cbn [results_of].
        -- by rewrite H2.
        -- rewrite (Hn eq_refl) in H2. done.
      * cbn. by rewrite Hl.
      * intros [<-|Hin]%elem_of_cons; [|by apply Hnone].
        rewrite (Hn eq_refl) in H2. symmetry in H2. apply app_nil in H2 as [_ H2]. by apply app_nil in H2 as [? _].
    + destruct (iter_next_back chain s) as [s1 r] eqn:E1. destruct (iter_run chain s1 calls) as [s2 rs1] eqn:E2.
      injection E as <- <-. apply iter_next_back_spec in E1 as (Hs1 & H1 & Hn); [|done].
      destruct (IH _ _ _ Hs1 E2) as (H2 & Hl & Hnone). split; [|split].
      * rewrite H1. destruct r as [x|]; cbn [results_of].
        -- rewrite H2. rewrite reverse_cons. by rewrite <- !app_assoc.
        -- rewrite (Hn eq_refl) in H2. done.
      * cbn. by rewrite Hl.
      * intros [<-|Hin]%elem_of_cons; [|by apply Hnone].
        rewrite (Hn eq_refl) in H2. symmetry in H2. apply app_nil in H2 as [_ H2]. by apply app_nil in H2 as [? _].
Qed.

Lemma segment_new chain : segment chain (iter_new chain) = numbered chain.
Proof.
  unfold segment, iter_new. cbn. rewrite Nat.sub_0_r, drop_0.
  apply take_ge. by rewrite numbered_length.
Qed.

Lemma iter_exactly_once chain calls s rs :
  iter_run chain (iter_new chain) calls = (s, rs) ->
  exists mid,
    numbered chain = results_of Front calls rs ++ mid ++ reverse (results_of Back calls rs) /\
    (None ∈ rs -> mid = []) /\ length rs = length calls.
Proof.
  intros E. exists (segment chain s).
  assert (Hn : (it_next (iter_new chain) <= it_back (iter_new chain) <= length chain)%nat) by (cbn; lia).
  destruct (iter_run_spec _ _ _ _ _ Hn E) as (H1 & H2 & H3). rewrite segment_new in H1. done.
Qed.

Lemma results_count calls : forall rs : list (option (N * T)), length rs = length calls ->
  (length (results_of Front calls rs) + length (results_of Back calls rs) =
   length (omap id rs))%nat.
Proof.
  induction calls as [|d calls IH]; intros [|r rs] Hl; try done.
  injection Hl as Hl. specialize (IH _ Hl). destruct d, r; cbn; lia.
Qed.

(** A call yields nothing exactly when all items have been yielded. *)
Lemma iter_run_app chain calls1 calls2 : forall s,
  iter_run chain s (calls1 ++ calls2) =
  let '(s1, r1) := iter_run chain s calls1 in
  let '(s2, r2) := iter_run chain s1 calls2 in (s2, r1 ++ r2).
Proof.
  induction calls1 as [|d calls1 IH]; intros s; cbn.
  - by destruct (iter_run chain s calls2).
  - destruct (match d with Front => _ | Back => _ end) as [s1 r]. rewrite IH.
    destruct (iter_run chain s1 calls1) as [s2 r2]. destruct (iter_run chain s2 calls2). done.
Qed.

Lemma iter_exhausted chain calls d s rs :
  iter_run chain (iter_new chain) (calls ++ [d]) = (s, rs) ->
  last rs = Some None <-> length (omap id (take (length calls) rs)) = length chain.
Proof.
  intros E. rewrite iter_run_app in E.
  destruct (iter_run chain (iter_new chain) calls) as [s1 r1] eqn:E1.
  assert (Hn : (it_next (iter_new chain) <= it_back (iter_new chain) <= length chain)%nat) by (cbn; lia).
  assert (Hs1 : (it_next s1 <= it_back s1 <= length chain)%nat).
  { clear -Hn E1. revert E1 Hn. generalize (iter_new chain). revert s1 r1.
    induction calls as [|d calls IH]; intros s1 r1 s E Hs; [by injection E as <- <-|].
    cbn in E. destruct d; [destruct (iter_next chain s) as [s2 r] eqn:E2|destruct (iter_next_back chain s) as [s2 r] eqn:E2];
      destruct (iter_run chain s2 calls) as [s3 r3] eqn:E3; injection E as <- <-; (eapply IH; [exact E3|]).
    - by apply iter_next_spec in E2 as [? _].
    - by apply iter_next_back_spec in E2 as [? _]. }
  destruct (iter_run_spec _ _ _ _ _ Hn E1) as (H1 & Hl & _). rewrite segment_new in H1.
  apply (f_equal length) in H1. rewrite numbered_length, !app_length, reverse_length in H1.
  pose proof (results_count _ _ Hl) as Hc.
  cbn in E. assert (Hr : exists r, rs = r1 ++ [r] /\ (r = None <-> segment chain s1 = [])).
  { destruct d; [destruct (iter_next chain s1) as [s2 r] eqn:E2|destruct (iter_next_back chain s1) as [s2 r] eqn:E2];
      injection E as <- <-; exists r; (split; [done|]).
    - apply iter_next_spec in E2 as (_ & H2 & _); [|done]. rewrite H2. destruct r; naive_solver.
    - apply iter_next_back_spec in E2 as (_ & H2 & _); [|done]. rewrite H2.
      destruct r; [|naive_solver]. split; [done|]. by intros [_ ?]%app_nil. }
  destruct Hr as (r & -> & Hr). rewrite last_snoc, <- Hl, take_app.
  split.
  - intros [= ->]. rewrite (proj1 Hr eq_refl) in H1. cbn in H1. lia.
  - intros E'. f_equal. apply Hr. apply nil_length_inv. lia.
Qed.
End Iter.

(** ** Adjusted time *)
Section AT.
Open Scope Z_scope.

Lemma median_is l m : l !! (length l / 2)%nat = Some m -> StronglySorted Z.le l -> is_median m l.
Proof.
  intros Hm Hs. split; [by eapply elem_of_list_lookup_2|].
  rewrite <- (take_drop_middle l (length l / 2) m Hm) in Hs.
  assert (Hlt : (length l / 2 < length l)%nat) by (by apply lookup_lt_Some in Hm).
  pose proof (take_drop_middle l (length l / 2) m Hm) as Hsp.
  set (i := (length l / 2)%nat) in *.
  assert (Hlen : (length (drop (S i) l) <= i)%nat).
  { rewrite drop_length. unfold i. pose proof (Nat.div_mod_eq (length l) 2).
    pose proof (Nat.mod_upper_bound (length l) 2). lia. }
  assert (Hlent : (length (take i l) <= i)%nat) by (rewrite take_length; lia).
  assert (Hbefore : Forall (fun x => x <= m) (take i l)).
  { apply Forall_forall. intros x [j Hj]%elem_of_list_lookup.
    eapply (strongly_lookup _ _ j (length (take i l))); [exact Hs|by apply lookup_lt_Some in Hj| |].
    - by rewrite lookup_app_l by (by apply lookup_lt_Some in Hj).
    - by rewrite lookup_app_r, Nat.sub_diag by lia. }
  assert (Hafter : Forall (fun x => m <= x) (drop (S i) l)).
  { apply ssorted_app in Hs as (_ & Hs & _). by apply StronglySorted_inv in Hs as [_ ?]. }
  clear Hs. rewrite <- Hsp. rewrite !List.filter_app, !app_length. cbn [List.filter].
  rewrite Z.ltb_irrefl. split.
  - assert (E : List.filter (fun x => x <? m) (drop (S i) l) = []).
    { clear -Hafter. induction Hafter; cbn; [done|]. destruct (Z.ltb_spec x m); [lia|done]. }
    rewrite E. cbn. rewrite Nat.add_0_r. etransitivity; [apply lfilter_length|done].
  - assert (E : List.filter (fun x => m <? x) (take i l) = []).
    { clear -Hbefore. induction Hbefore; cbn; [done|]. destruct (Z.ltb_spec m x); [lia|done]. }
    rewrite E. cbn. etransitivity; [apply lfilter_length|done].
Qed.

Lemma filter_perm_len {A} (f : A -> bool) l l' : l ≡ₚ l' ->
  length (List.filter f l) = length (List.filter f l').
Proof. induction 1; cbn; repeat (case_match; cbn); try lia; congruence. Qed.

Lemma is_median_perm m l l' : l ≡ₚ l' -> is_median m l -> is_median m l'.
Proof.
  intros P (H1 & H2 & H3). split; [by rewrite <- P|].
  rewrite <- !(filter_perm_len _ _ _ P), <- P. done.
Qed.

Lemma nth_median samples : samples <> [] ->
  is_median (nth (length (sortZ samples) / 2) (sortZ samples) 0) samples.
Proof.
  intros Hne. eapply is_median_perm; [apply sortZ_perm|]. apply median_is; [|apply sortZ_strongly].
  assert (Hp : (0 < length (sortZ samples))%nat) by (rewrite sortZ_length; destruct samples; [done|cbn; lia]).
  destruct (lookup_lt_is_Some_2 (sortZ samples) (length (sortZ samples) / 2)) as [m Hm].
  { apply Nat.div_lt; lia. }
  rewrite Hm. f_equal. symmetry. by apply nth_lookup_Some.
Qed.

Definition at_inv (a : adjusted) : Prop :=
  NoDup (at_sources a) /\ (length (at_sources a) <= max_time_samples)%nat /\
  length (at_samples a) = S (length (at_sources a)) /\
  Forall (fun z => i64_min < z < 2 ^ 63) (at_samples a) /\
  Z.abs (at_offset a) <= 4200 /\
  ((length (at_samples a) < 5)%nat -> at_offset a = 0).

Lemma at_inv_step a o : at_op_ok o -> at_inv a -> at_inv (at_step a o).
Proof.
  intros Ho (Hnd & Hl & Hs & Hf & Hb & Hz). destruct o as [src z|t]; cbn.
  2: done.
  unfold record_offset. destruct (Nat.eqb_spec (length (at_sources a)) max_time_samples) as [|Hn].
  { done. }
  destruct (bool_decide_reflect (src ∈ at_sources a)) as [|Hni]; [done|].
  assert (Hf' : Forall (fun z => i64_min < z < 2 ^ 63) (at_samples a ++ [z])).
  { apply Forall_app. split; [done|]. constructor; [exact Ho|constructor]. }
  assert (Hbase : NoDup (src :: at_sources a) /\ (length (src :: at_sources a) <= max_time_samples)%nat /\
    length (at_samples a ++ [z]) = S (length (src :: at_sources a))).
  { split; [by constructor|]. cbn. rewrite app_length. cbn. lia. }
  rewrite sortZ_length. destruct (Nat.ltb_spec (length (at_samples a ++ [z])) min_time_samples) as [H5|H5].
  { destruct Hbase as (? & ? & ?). repeat split; cbn; try done. intros _. apply Hz.
    rewrite app_length in H5. cbn in H5. unfold min_time_samples in H5. lia. }
  unfold min_time_samples in H5.
  destruct (Nat.eqb_spec (length (at_samples a ++ [z]) mod 2) 1) as [Hodd|Heven].
  2: { destruct Hbase as (? & ? & ?). repeat split; cbn; try done. intros; lia. }
  destruct Hbase as (? & ? & ?). repeat split; cbn [at_sources at_samples at_offset]; try done; [|lia].
  set (m := nth _ _ _).
  assert (Hm : m ∈ at_samples a ++ [z]).
  { unfold m. rewrite <- (sortZ_length (at_samples a ++ [z])). apply nth_median. by destruct (at_samples a). }
  rewrite Forall_forall in Hf'. specialize (Hf' _ Hm). cbn in Hf'.
  unfold abs64. destruct (Z.eqb_spec m i64_min); [lia|].
  destruct (Z.leb_spec (Z.abs m) max_time_adjustment) as [H4|H4]; unfold max_time_adjustment in H4; lia.
Qed.

Lemma at_inv_run t os : Forall at_op_ok os -> at_inv (at_run t os).
Proof.
  unfold at_run. assert (H0 : at_inv (at_new t)).
  { repeat split; cbn; try done; [constructor| unfold max_time_samples; lia | repeat constructor; unfold i64_min; lia]. }
  revert H0. generalize (at_new t). induction os as [|o os IH]; intros a Ha Hos; [done|].
  inversion Hos; subst. cbn. apply IH; [|done]. by apply at_inv_step.
Qed.

(** What one report does. *)
Lemma record_cases t os src z : let a := at_run t os in let a' := at_step a (ARecord src z) in
  (src ∈ at_sources a \/ length (at_sources a) = 200%nat -> a' = a) /\
  (src ∉ at_sources a -> (length (at_sources a) < 200)%nat ->
     at_samples a' = at_samples a ++ [z] /\ at_sources a' ≡ₚ src :: at_sources a /\
     at_local a' = at_local a /\
     ((length (at_samples a') < 5)%nat \/ Nat.Even (length (at_samples a')) -> at_offset a' = at_offset a) /\
     ((5 <= length (at_samples a'))%nat -> Nat.Odd (length (at_samples a')) ->
        exists m, is_median m (at_samples a') /\
          at_offset a' = if bool_decide (abs64 m <= 4200) then m else 0)).
Proof.
  intros a a'. unfold a', at_step, record_offset. unfold max_time_samples. split.
  - intros [H|H].
    + destruct (Nat.eqb _ _); [done|]. by rewrite bool_decide_true.
    + by rewrite H.
  - intros Hni Hlt. destruct (Nat.eqb_spec (length (at_sources a)) 200); [lia|].
    rewrite bool_decide_false by done. rewrite sortZ_length. unfold min_time_samples.
    set (s := at_samples a ++ [z]).
    assert (Hpar : forall n, (n mod 2 =? 1)%nat = Nat.odd n).
    { intros k. destruct (Nat.eqb_spec (k mod 2) 1) as [E|E].
      - symmetry. apply Nat.odd_spec. exists (k / 2)%nat. pose proof (Nat.div_mod_eq k 2). lia.
      - symmetry. apply not_true_is_false. intros [q Hq]%Nat.odd_spec. subst k.
        apply E. rewrite Nat.add_comm, Nat.mul_comm, Nat.mod_add by lia. done. }
    rewrite Hpar.
    destruct (Nat.ltb_spec (length s) 5) as [H5|H5].
    { cbn. repeat split; try done. intros; lia. }
    destruct (Nat.odd (length s)) eqn:Ho; cbn [at_samples at_sources at_local at_offset]; repeat split; try done.
    + intros [|[q Hq]]; [lia|]. apply Nat.odd_spec in Ho as [p Hp]. lia.
    + intros _ _. exists (nth (length s / 2) (sortZ s) 0). split.
      * rewrite <- (sortZ_length s). apply nth_median. unfold s. by destruct (at_samples a).
      * unfold max_time_adjustment.
        destruct (Z.leb_spec (abs64 (nth (length s / 2) (sortZ s) 0)) 4200);
          [rewrite bool_decide_true; [done|lia]|rewrite bool_decide_false; [done|lia]].
    + intros _ [q Hq]. pose proof (proj2 (Nat.odd_spec (length s)) (ex_intro _ q Hq)). congruence.
Qed.

Lemma at_get_close t os : Forall at_op_ok os -> let a := at_run t os in
  (4200 <= at_local a)%N -> (at_local a + 4200 < two32)%N ->
  Z.of_N (at_get a) = Z.of_N (at_local a) + at_offset a.
Proof.
  intros Hos a H1 H2. destruct (at_inv_run t os Hos) as (_ & _ & _ & _ & Hb & _). fold a in Hb.
  unfold at_get, at_from, wadd32, wsub32, wrap32. unfold two32 in *.
  rewrite (N.mod_small (at_local a)) by lia.
  destruct (Z.ltb_spec 0 (at_offset a)).
  - rewrite (N.mod_small (Z.to_N _)) by lia. rewrite N.mod_small by lia. lia.
  - rewrite (N.mod_small (Z.to_N _)) by lia.
    replace (at_local a + 4294967296 - Z.to_N (- at_offset a))%N
      with ((at_local a - Z.to_N (- at_offset a)) + 1 * 4294967296)%N by lia.
    rewrite N.mod_add by lia. rewrite N.mod_small by lia. lia.
Qed.
End AT.

(** ** Timers *)
Section Timers.
Context {K : Type} (sort : timers K -> timers K) (Hsort : sorts sort) (threshold : N).
Definition desc (a b : K * N) : Prop := b.2 <= a.2.

Lemma wake_rev_spec now (l : timers K) : StronglySorted (fun a b => a.2 <= b.2) l ->
  forall rest ks, tm_wake_rev now l = (rest, ks) ->
  rest = List.filter (fun e => now <? e.2) l /\ ks = (List.filter (fun e => e.2 <=? now) l).*1.
Proof.
  induction 1 as [|[k t] l Hs IH Hf]; intros rest ks E; cbn in E.
  - by injection E as <- <-.
  - cbn. destruct (N.leb_spec t now) as [H1|H1].
    + destruct (tm_wake_rev now l) as [r w]. injection E as <- <-.
      destruct (N.ltb_spec now t); [lia|]. destruct (IH _ _ eq_refl) as [-> ->]. done.
    + injection E as <- <-. destruct (N.ltb_spec now t); [|lia].
      assert (Hall : Forall (fun e => now < e.2) l).
      { eapply Forall_impl; [exact Hf|]. cbn. intros; lia. }
      clear -Hall. split.
      * f_equal. induction Hall as [|e l He _ IH]; cbn; [done|]. destruct (N.ltb_spec now e.2); [|lia]. by f_equal.
      * induction Hall as [|e l He _ IH]; cbn; [done|]. destruct (N.leb_spec e.2 now); [lia|]. done.
Qed.

Lemma StronglySorted_reverse {A} (R : A -> A -> Prop) l :
  StronglySorted R l -> StronglySorted (fun a b => R b a) (reverse l).
Proof.
  induction 1 as [|a l Hs IH Hf]; [constructor|]. rewrite reverse_cons.
  apply ssorted_app. split; [done|]. split; [by repeat constructor|].
  intros x y Hx Hy%elem_of_list_singleton. subst y.
  rewrite Forall_forall in Hf. rewrite elem_of_reverse in Hx. exact (Hf _ Hx).
Qed.

Lemma list_filter_rev {A} (f : A -> bool) l : List.filter f (reverse l) = reverse (List.filter f l).
Proof.
  induction l as [|x l IH]; [done|]. rewrite reverse_cons, List.filter_app, IH. cbn [List.filter].
  destruct (f x); [by rewrite reverse_cons|by rewrite app_nil_r].
Qed.

Lemma wake_spec now ts ts' ks : StronglySorted desc ts -> tm_wake now ts = (ts', ks) ->
  ts' = List.filter (fun e => now <? e.2) ts /\
  ks = (reverse (List.filter (fun e => e.2 <=? now) ts)).*1.
Proof.
  intros Hs E. unfold tm_wake in E. destruct (tm_wake_rev now (reverse ts)) as [rest w] eqn:E1.
  injection E as <- <-. apply wake_rev_spec in E1 as [-> ->]; [|by apply (StronglySorted_reverse desc)].
  rewrite !list_filter_rev, reverse_involutive. done.
Qed.

Lemma filter_sorted {A} (R : A -> A -> Prop) f l : StronglySorted R l -> StronglySorted R (List.filter f l).
Proof.
  induction 1 as [|a l Hs IH Hf]; cbn; [constructor|]. destruct (f a); [|done].
  constructor; [done|]. apply Forall_forall. intros x [Hx _]%elem_of_list_In%List.filter_In.
  rewrite Forall_forall in Hf. apply Hf. by apply elem_of_list_In.
Qed.

Lemma filter_split {A} (f g : A -> bool) (l : list A) : (forall x, g x = negb (f x)) ->
  l ≡ₚ List.filter f l ++ List.filter g l.
Proof.
  intros Hg. induction l as [|x l IH]; cbn; [done|]. rewrite Hg. destruct (f x); cbn.
  - by rewrite <- IH.
  - rewrite <- Permutation_middle. by rewrite <- IH.
Qed.

Lemma tm_step_sorted ts o ts' r : StronglySorted desc ts -> tm_step sort threshold ts o = (ts', r) ->
  StronglySorted desc ts'.
Proof.
  intros Hs E. destruct o as [k t|now]; cbn in E.
  - unfold tm_register in E. destruct (existsb _ ts); injection E as <- <-; [done|]. apply Hsort.
  - destruct (tm_wake now ts) as [ts1 ks] eqn:E1. injection E as <- <-.
    apply wake_spec in E1 as [-> _]; [|done]. by apply filter_sorted.
Qed.

Lemma tm_run_sorted os : forall ts ts' rs, StronglySorted desc ts ->
  tm_run sort threshold ts os = (ts', rs) -> StronglySorted desc ts'.
Proof.
  induction os as [|o os IH]; intros ts ts' rs Hs E; cbn in E; [by injection E as <- <-|].
  destruct (tm_step sort threshold ts o) as [t1 r] eqn:E1. destruct (tm_run sort threshold t1 os) as [t2 rs2] eqn:E2.
  injection E as <- <-. eapply IH; [|exact E2]. by eapply tm_step_sorted.
Qed.

Lemma tm_run_app os1 os2 : forall ts, tm_run sort threshold ts (os1 ++ os2) =
  let '(t1, r1) := tm_run sort threshold ts os1 in
  let '(t2, r2) := tm_run sort threshold t1 os2 in (t2, r1 ++ r2).
Proof.
  induction os1 as [|o os1 IH]; intros ts; cbn.
  - by destruct (tm_run sort threshold ts os2).
  - destruct (tm_step sort threshold ts o) as [t1 r]. rewrite IH.
    destruct (tm_run sort threshold t1 os1) as [t2 rs2]. by destruct (tm_run sort threshold t2 os2).
Qed.

(** Every accepted timer is either pending or has been woken, once. *)
Lemma tm_conserved os : forall ts ts' rs, StronglySorted desc ts ->
  tm_run sort threshold ts os = (ts', rs) ->
  ts.*1 ++ (accepted os rs).*1 ≡ₚ ts'.*1 ++ woken rs.
Proof.
  induction os as [|o os IH]; intros ts ts' rs Hs E; cbn in E; [by injection E as <- <-|].
  destruct (tm_step sort threshold ts o) as [t1 r] eqn:E1. destruct (tm_run sort threshold t1 os) as [t2 rs2] eqn:E2.
  injection E as <- <-. pose proof (tm_step_sorted _ _ _ _ Hs E1) as Hs1. specialize (IH _ _ _ Hs1 E2).
  destruct o as [k t|now]; cbn in E1.
  - unfold tm_register in E1. destruct (existsb _ ts); injection E1 as <- <-; cbn; [done|].
    rewrite <- IH. destruct (Hsort (ts ++ [(k, t)])) as [P _]. rewrite P, fmap_app. cbn. by rewrite <- app_assoc.
  - destruct (tm_wake now ts) as [ts1 ks] eqn:E3. injection E1 as <- <-.
    apply wake_spec in E3 as [-> ->]; [|done]. cbn.
    rewrite app_assoc, (Permutation_app_comm (t2.*1)), <- app_assoc, <- IH, app_assoc.
    apply Permutation_app; [|done]. rewrite reverse_Permutation, <- fmap_app. apply fmap_Permutation.
    apply filter_split. intros x. rewrite N.leb_antisym. by rewrite negb_involutive.
Qed.

Lemma sorted_last_min (ts : timers K) k t e : StronglySorted desc ts -> last ts = Some (k, t) -> e ∈ ts -> t <= e.2.
Proof.
  intros Hs Hl He. apply last_Some in Hl as [ts' ->].
  apply elem_of_app in He as [He|He].
  - apply ssorted_app in Hs as (_ & _ & Hs). by apply (Hs e (k, t)) in He; [|left].
  - apply elem_of_list_singleton in He. by subst.
Qed.
End Timers.

(** ** Stream decoding *)
Section Stream.
Context {Msg : Type} (parse : list N -> parsed Msg) (HS : streaming parse).

Lemma drain_total fuel b : (length b < fuel)%nat -> exists r, drain parse fuel b = Some r.
Proof.
  revert b. induction fuel as [|fuel IH]; intros b Hf; [lia|]. cbn. unfold decode_next.
  destruct (parse b) as [m n| |] eqn:E; [|by eauto..].
  destruct HS as (H1 & _ & _). specialize (H1 _ _ _ E).
  destruct (IH (drop n b)) as [[[buf ms] e] ->]; [rewrite drop_length; lia|]. by eauto.
Qed.

Lemma drain_mono fuel fuel' b r : drain parse fuel b = Some r -> (fuel <= fuel')%nat ->
  drain parse fuel' b = Some r.
Proof.
  revert fuel' b r. induction fuel as [|fuel IH]; intros fuel' b r E Hle; [done|].
  destruct fuel' as [|fuel']; [lia|]. cbn in *. unfold decode_next in *.
  destruct (parse b) as [m n| |]; [|done..].
  destruct (drain parse fuel (drop n b)) as [[[buf ms] e]|] eqn:E1; [|done].
  rewrite (IH fuel' _ _ E1) by lia. done.
Qed.

Lemma drain_any fuel fuel' b r : (length b < fuel')%nat -> drain parse fuel b = Some r ->
  drain parse fuel' b = Some r.
Proof.
  intros Hf E. destruct (drain_total fuel' b Hf) as [r' E'].
  pose proof (drain_mono _ (max fuel fuel') _ _ E ltac:(lia)).
  pose proof (drain_mono _ (max fuel fuel') _ _ E' ltac:(lia)). congruence.
Qed.

Lemma drain_app fuel b buf ms e x : drain parse fuel b = Some (buf, ms, e) ->
  exists buf' ms' e', bytes_received parse buf x = Some (buf', ms', e') /\
    bytes_received parse b x = Some (buf', ms ++ ms', e') /\ (e = true -> e' = true).
Proof.
  revert b buf ms e. induction fuel as [|fuel IH]; intros b buf ms e E; [done|].
  cbn in E. unfold decode_next in E. destruct (parse b) as [m n| |] eqn:Ep.
  - destruct (drain parse fuel (drop n b)) as [[[b1 m1] e1]|] eqn:E1; [|done]. injection E as <- <- <-.
    destruct (IH _ _ _ _ E1) as (buf' & ms' & e' & H1 & H2 & H3). exists buf', ms', e'.
    split; [done|]. split; [|done]. unfold bytes_received in *.
    destruct HS as (Hn & Hd & _). specialize (Hn _ _ _ Ep).
    change (drain parse (S (length (b ++ x))) (b ++ x)) with
      (match decode_next parse (b ++ x) with
       | (rest, Ok (Some m)) => match drain parse (length (b ++ x)) rest with
                                | Some (buf, ms, e) => Some (buf, m :: ms, e) | None => None end
       | (rest, Ok None) => Some (rest, [], false)
       | (rest, Err _) => Some (rest, [], true)
       end).
    unfold decode_next. rewrite (Hd _ x _ _ Ep). rewrite drop_app_le by lia.
    assert (Hl : (length (drop n b ++ x) < length (b ++ x))%nat) by (rewrite !app_length, drop_length; lia).
    by rewrite (drain_any _ _ _ _ Hl H2).
  - injection E as <- <- <-. destruct (drain_total (S (length (b ++ x))) (b ++ x) (Nat.lt_succ_diag_r _)) as [[[b1 m1] e1] E1].
    exists b1, m1, e1. done.
  - injection E as <- <- <-. exists (b ++ x), [], true. destruct HS as (_ & _ & Hm).
    assert (E : bytes_received parse b x = Some (b ++ x, [], true)).
    { unfold bytes_received. cbn. unfold decode_next. by rewrite (Hm _ x Ep). }
    rewrite E. done.
Qed.

Lemma chunks_one_piece chunks : forall buf, chunks <> [] ->
  chunks_received parse buf chunks = bytes_received parse buf (concat chunks) /\
  is_Some (bytes_received parse buf (concat chunks)).
Proof.
  induction chunks as [|c cs IH]; intros buf Hne; [done|]. cbn [chunks_received concat].
  assert (Ht : forall b x, is_Some (bytes_received parse b x)).
  { intros b x. destruct (drain_total (S (length (b ++ x))) (b ++ x) (Nat.lt_succ_diag_r _)) as [r E]. by exists r. }
  split; [|apply Ht].
  destruct (Ht buf c) as [[[b1 m1] e1] E1]. rewrite E1. destruct cs as [|c2 cs].
  - cbn [chunks_received concat]. rewrite (app_nil_r c), E1. by rewrite app_nil_r, orb_false_r.
  - destruct (IH b1 ltac:(done)) as [-> _]. unfold bytes_received in E1.
    destruct (drain_app _ _ _ _ _ (concat (c2 :: cs)) E1) as (buf' & ms' & e' & -> & H2 & H3).
    unfold bytes_received in *. rewrite app_assoc, H2. destruct e1; [by rewrite (H3 eq_refl)|done].
Qed.

(** The remainder starts with no complete message. *)
Lemma remainder_undecodable b x buf ms e : bytes_received parse b x = Some (buf, ms, e) ->
  parse buf = if e then Malformed else Incomplete.
Proof.
  unfold bytes_received. generalize (S (length (b ++ x))) as fuel. generalize (b ++ x). clear b x.
  intros b fuel. revert b ms. induction fuel as [|fuel IH]; intros b ms E; [done|]. cbn in E. unfold decode_next in E.
  destruct (parse b) as [m n| |] eqn:Ep.
  - destruct (drain parse fuel (drop n b)) as [[[b1 m1] e1]|] eqn:E1; [|done]. injection E as <- <- <-. by eapply IH.
  - by injection E as <- <- <-.
  - by injection E as <- <- <-.
Qed.
End Stream.

Lemma frame_streaming {Msg} checksum (payload : list N -> list N -> list N -> parsed Msg) :
  streaming (frame_parse checksum payload).
Proof.
  assert (Happ : forall b x, (24 <= length b)%nat ->
    (24 + N.to_nat (le_value (take 4 (drop 16 b))) <= length b)%nat ->
    frame_parse checksum payload (b ++ x) = frame_parse checksum payload b).
  { intros b x H1 H2. unfold frame_parse.
    rewrite app_length. destruct (Nat.ltb_spec (length b + length x) 24); [lia|].
    destruct (Nat.ltb_spec (length b) 24); [lia|].
    assert (Hd : forall k n, (k + n <= length b)%nat -> take n (drop k (b ++ x)) = take n (drop k b)).
    { intros k n Hk. rewrite drop_app_le by lia. apply take_app_le. rewrite drop_length. lia. }
    rewrite (Hd 4%nat 12%nat), (Hd 16%nat 4%nat), (Hd 20%nat 4%nat) by lia.
    rewrite (take_app_le b x 4) by lia.
    destruct (Nat.ltb_spec (length b + length x) (24 + N.to_nat (le_value (take 4 (drop 16 b))))); [lia|].
    destruct (Nat.ltb_spec (length b) (24 + N.to_nat (le_value (take 4 (drop 16 b))))); [lia|].
    rewrite (Hd 24%nat) by lia. done. }
  assert (Hlen : forall b, frame_parse checksum payload b <> Incomplete -> (24 <= length b)%nat /\
    (24 + N.to_nat (le_value (take 4 (drop 16 b))) <= length b)%nat).
  { intros b Hb. unfold frame_parse in Hb. destruct (Nat.ltb_spec (length b) 24); [done|].
    destruct (Nat.ltb_spec (length b) (24 + N.to_nat (le_value (take 4 (drop 16 b))))); [done|]. lia. }
  split; [|split].
  - intros b m n E. destruct (Hlen b) as [H1 H2]; [by rewrite E|].
    unfold frame_parse in E. destruct (Nat.ltb_spec (length b) 24); [done|].
    destruct (Nat.ltb_spec (length b) (24 + N.to_nat (le_value (take 4 (drop 16 b))))); [done|].
    case_bool_decide; [|done]. destruct (payload _ _ _); [|done..]. injection E as <- <-. lia.
  - intros b x m n E. destruct (Hlen b) as [H1 H2]; [by rewrite E|]. by rewrite Happ.
  - intros b x E. destruct (Hlen b) as [H1 H2]; [by rewrite E|]. by rewrite Happ.
Qed.

(** ** Filter cache *)
Section FC.
Context {T : Type} (flen : T -> N).
Implicit Types (l : list (N * T)).

Definition getl l (k : N) : option T := snd <$> List.find (fun e => e.1 =? k) l.
Definition lenopt (o : option T) : N := match o with Some g => flen g | None => 0 end.
Definition keylt (a b : N * T) : Prop := a.1 < b.1.

Lemma getl_cons k v l x : getl ((k, v) :: l) x = if k =? x then Some v else getl l x.
Proof. unfold getl. cbn. by destruct (k =? x). Qed.

Lemma getl_insert h f l k : getl (bt_insert N.compare h f l) k = if h =? k then Some f else getl l k.
Proof.
  induction l as [|[k' v'] l IH]; cbn [bt_insert]; [by rewrite getl_cons|].
  destruct (N.compare_spec h k') as [E|E|E].
  - subst. rewrite !getl_cons. by destruct (k' =? k).
  - by rewrite getl_cons.
  - rewrite !getl_cons, IH. destruct (N.eqb_spec k' k), (N.eqb_spec h k); try done. lia.
Qed.

Lemma getl_above k l : Forall (fun e : N * T => k < e.1) l -> getl l k = None.
Proof.
  induction 1 as [|[h f] l H1 _ IH]; [done|]. rewrite getl_cons. cbn in H1. destruct (N.eqb_spec h k); [lia|done].
Qed.

Lemma getl_below k l : Forall (fun e : N * T => e.1 < k) l -> getl l k = None.
Proof.
  induction 1 as [|[h f] l H1 _ IH]; [done|]. rewrite getl_cons. cbn in H1. destruct (N.eqb_spec h k); [lia|done].
Qed.

Lemma getl_app l1 l2 k : getl (l1 ++ l2) k = match getl l1 k with Some v => Some v | None => getl l2 k end.
Proof.
  induction l1 as [|[h f] l1 IH]; [done|]. cbn [app]. rewrite !getl_cons, IH. by destruct (h =? k).
Qed.

Lemma held_cons k f l : held flen ((k, f) :: l) = flen f + held flen l.
Proof. done. Qed.
Lemma held_nil : held flen [] = 0.
Proof. done. Qed.

Lemma held_app l1 l2 : held flen (l1 ++ l2) = held flen l1 + held flen l2.
Proof. induction l1 as [|[k f] l1 IH]; [done|]. cbn [app]. rewrite !held_cons, IH. lia. Qed.

Lemma held_insert h f l : StronglySorted keylt l ->
  held flen (bt_insert N.compare h f l) + lenopt (getl l h) = held flen l + flen f.
Proof.
  induction 1 as [|[k' v'] l Hs IH Hf]; [cbn [bt_insert]; rewrite held_cons, held_nil; cbn; lia|].
  cbn [bt_insert]. rewrite getl_cons.
  destruct (N.compare_spec h k') as [E|E|E].
  - subst. rewrite N.eqb_refl, !held_cons. cbn. lia.
  - destruct (N.eqb_spec k' h); [lia|]. rewrite getl_above; [rewrite !held_cons; cbn; lia|].
    eapply Forall_impl; [exact Hf|]. unfold keylt. cbn. intros; lia.
  - destruct (N.eqb_spec k' h); [lia|]. rewrite !held_cons. lia.
Qed.

Lemma insert_sorted h f l : StronglySorted keylt l -> StronglySorted keylt (bt_insert N.compare h f l).
Proof.
  assert (Hin : forall l e, e ∈ bt_insert N.compare h f l -> e = (h, f) \/ e ∈ l).
  { clear. intros l e. induction l as [|[k' v'] l IH]; cbn; intros He; [left; by apply elem_of_list_singleton in He|].
    destruct (N.compare h k'); set_solver. }
  induction 1 as [|[k' v'] l Hs IH Hf]; cbn [bt_insert]; [repeat constructor|].
  destruct (N.compare_spec h k') as [E|E|E].
  - subst. by constructor.
  - constructor; [by constructor|]. constructor; [done|]. eapply Forall_impl; [exact Hf|]. unfold keylt. cbn. intros; lia.
  - constructor; [done|]. apply Forall_forall. intros e [->|He]%Hin; [done|]. rewrite Forall_forall in Hf. by apply Hf.
Qed.

Lemma lenopt_le l h : lenopt (getl l h) <= held flen l.
Proof.
  induction l as [|[k v] l IH]; [done|]. rewrite getl_cons, held_cons. destruct (k =? h); cbn; lia.
Qed.

Lemma evict_spec cap l size : held flen l <= size -> size - held flen l <= cap ->
  exists ev l', l = ev ++ l' /\
    fc_evict flen l size cap = Val (l', size - held flen ev) /\
    size - held flen ev <= cap /\
    (ev = [] \/ exists e, last ev = Some e /\ cap < size - held flen ev + flen e.2).
Proof.
  revert size. induction l as [|[k f] l IH]; intros size H1 H2.
  - rewrite held_nil in *. exists [], []. cbn [fc_evict]. destruct (N.leb_spec size cap); [|lia].
    rewrite held_nil, N.sub_0_r. repeat split; try done. by left.
  - cbn [fc_evict]. destruct (N.leb_spec size cap) as [H3|H3].
    + exists [], ((k, f) :: l). rewrite held_nil, N.sub_0_r. repeat split; try done; by left.
    + rewrite held_cons in H1, H2. destruct (N.ltb_spec size (flen f)); [lia|].
      destruct (IH (size - flen f)) as (ev & l' & -> & E & Hc & Hl); [lia..|].
      exists ((k, f) :: ev), l'. rewrite E, held_cons.
      replace (size - (flen f + held flen ev)) with (size - flen f - held flen ev) by lia.
      repeat split; try done. right. destruct Hl as [->|(e & He & Hlt)].
      * exists (k, f). rewrite held_nil. split; [done|]. cbn. lia.
      * exists e. split; [|done]. destruct ev; [done|]. done.
Qed.

Definition fc_inv (cap : N) (c : fcache T) : Prop :=
  fc_capacity c = cap /\ fc_size c <= cap /\ held flen (fc_cache c) <= fc_size c /\
  StronglySorted keylt (fc_cache c).

Lemma fc_get_getl (c : fcache T) k : fc_get c k = getl (fc_cache c) k.
Proof. done. Qed.

Lemma push_big cap c h f : fc_inv cap c -> cap < flen f -> fc_push flen h f c = Val (c, false).
Proof.
  intros (Hc & Hs & _ & _) Hb. unfold fc_push, assertM. rewrite Hc.
  destruct (N.leb_spec (fc_size c) cap); [|lia]. destruct (N.ltb_spec cap (flen f)); [done|lia].
Qed.

Lemma push_fits cap c h f : fc_inv cap c -> flen f <= cap ->
  exists c' cut, fc_push flen h f c = Val (c', true) /\ fc_inv cap c' /\
    (forall k, fc_get c' k = if k <? cut then None else if h =? k then Some f else fc_get c k) /\
    (cut = 0 \/ exists g, 0 < cut /\ (if h =? cut - 1 then Some f else fc_get c (cut - 1)) = Some g /\
                  cap < fc_size c' + flen g) /\
    fc_size c' + held flen (fc_cache c) =
      fc_size c + held flen (fc_cache c') + lenopt (fc_get c h).
Proof.
  intros (Hc & Hs & Hh & Hso) Hb. unfold fc_push, assertM. rewrite Hc.
  destruct (N.leb_spec (fc_size c) cap); [|lia]. destruct (N.ltb_spec cap (flen f)); [lia|].
  set (l := fc_cache c) in *. set (l1 := bt_insert N.compare h f l).
  pose proof (held_insert h f l Hso) as Hi. fold l1 in Hi. pose proof (lenopt_le l h) as Hle.
  destruct (evict_spec cap l1 (fc_size c + flen f)) as (ev & l' & El & E & Hcap & Hlast); [lia|lia|].
  rewrite E. cbn [mbind_M]. pose proof (insert_sorted h f l Hso) as Hs1. fold l1 in Hs1. rewrite El in Hs1.
  apply ssorted_app in Hs1 as (Hse & Hs' & Hcross).
  pose proof (held_app ev l') as Hha. rewrite <- El in Hha.
  exists (FCache l' (fc_size c + flen f - held flen ev) cap).
  assert (Hinv : fc_inv cap (FCache l' (fc_size c + flen f - held flen ev) cap)).
  { repeat split; cbn [fc_size fc_cache fc_capacity]; try done. lia. }
  assert (Hg : forall k, getl l1 k = if h =? k then Some f else getl l k) by (intros; apply getl_insert).
  destruct Hlast as [->|([hl fl] & Hl & Hlt)].
  - exists 0. split; [done|]. split; [done|]. cbn in El. subst l'.
    split; [|split; [by left|]].
    + intros k. destruct (N.ltb_spec k 0); [lia|]. rewrite !fc_get_getl. cbn. apply Hg.
    + rewrite fc_get_getl. cbn [fc_size fc_cache]. rewrite held_nil in *. fold l. lia.
  - exists (hl + 1). split; [done|]. split; [done|].
    apply last_Some in Hl as [ev' ->].
    assert (Hev : Forall (fun e => e.1 <= hl) (ev' ++ [(hl, fl)])).
    { apply Forall_app. split; [|repeat constructor; cbn; lia].
      apply ssorted_app in Hse as (_ & _ & Hx). apply Forall_forall. intros e He.
      specialize (Hx e (hl, fl) He ltac:(by left)). unfold keylt in Hx. cbn in Hx. lia. }
    assert (Hl' : Forall (fun e => hl < e.1) l').
    { apply Forall_forall. intros e He. specialize (Hcross (hl, fl) e ltac:(set_solver) He).
      by unfold keylt in Hcross. }
    split; [|split].
    + intros k. rewrite !fc_get_getl. cbn. destruct (N.ltb_spec k (hl + 1)).
      * apply getl_above. eapply Forall_impl; [exact Hl'|]. cbn. intros; lia.
      * fold l. rewrite <- Hg. rewrite El. rewrite getl_app, getl_below; [done|].
        eapply Forall_impl; [exact Hev|]. cbn. intros; lia.
    + right. exists fl. split; [lia|]. replace (hl + 1 - 1) with hl by lia. split.
      * rewrite fc_get_getl. fold l. rewrite <- Hg, El, <- app_assoc, getl_app.
        rewrite getl_below; [cbn [app]; rewrite getl_cons, N.eqb_refl; done|].
        apply ssorted_app in Hse as (_ & _ & Hx). apply Forall_forall. intros e He.
        exact (Hx e (hl, fl) He ltac:(by left)).
      * cbn. cbn in Hlt. lia.
    + rewrite fc_get_getl. cbn [fc_size fc_cache]. fold l. lia.
Qed.

Lemma rollback_rev_spec height l size : held flen l <= size ->
  StronglySorted (fun a b : N * T => b.1 < a.1) l ->
  exists gone rest, l = gone ++ rest /\
    fc_rollback_rev flen height l size = Val (rest, size - held flen gone) /\
    Forall (fun e => height < e.1) gone /\ Forall (fun e => e.1 <= height) rest.
Proof.
  intros Hh Hs. revert size Hh. induction Hs as [|[k f] l Hs IH Hf]; intros size Hh.
  - exists [], []. rewrite held_nil, N.sub_0_r. done.
  - cbn [fc_rollback_rev]. rewrite held_cons in Hh. destruct (N.ltb_spec height k) as [H1|H1].
    + destruct (N.ltb_spec size (flen f)); [lia|].
      destruct (IH (size - flen f)) as (gone & rest & -> & E & Hg & Hr); [lia|].
      exists ((k, f) :: gone), rest. rewrite E. split; [done|]. split; [|split; [by constructor|done]].
      f_equal. f_equal. rewrite held_cons. lia.
    + exists [], ((k, f) :: l). rewrite held_nil, N.sub_0_r. repeat split; try done.
      constructor; [done|]. eapply Forall_impl; [exact Hf|]. cbn. intros; lia.
Qed.

Lemma held_reverse l : held flen (reverse l) = held flen l.
Proof.
  induction l as [|[k f] l IH]; [done|]. rewrite reverse_cons, held_app, IH, !held_cons, held_nil. lia.
Qed.

Lemma rollback_ok cap c height : fc_inv cap c ->
  exists c', fc_rollback flen height c = Val c' /\ fc_inv cap c' /\
    (forall k, fc_get c' k = if height <? k then None else fc_get c k) /\
    fc_size c' + held flen (fc_cache c) = fc_size c + held flen (fc_cache c').
Proof.
  intros (Hc & Hs & Hh & Hso). unfold fc_rollback.
  destruct (rollback_rev_spec height (reverse (fc_cache c)) (fc_size c)) as (gone & rest & El & -> & Hg & Hr).
  { by rewrite held_reverse. }
  { by apply (StronglySorted_reverse keylt). }
  cbn [mbind_M]. eexists. split; [done|].
  assert (El' : fc_cache c = reverse rest ++ reverse gone).
  { rewrite <- reverse_app, <- El. by rewrite reverse_involutive. }
  assert (Hh' : held flen (fc_cache c) = held flen rest + held flen gone).
  { by rewrite El', held_app, !held_reverse. }
  rewrite El' in Hso. apply ssorted_app in Hso as (Hs1 & _ & _).
  split; [|split].
  - repeat split; cbn [fc_size fc_cache fc_capacity]; try done; rewrite ?held_reverse; lia.
  - intros k. rewrite !fc_get_getl. cbn [fc_cache]. rewrite El', getl_app.
    destruct (N.ltb_spec height k).
    + apply getl_below. apply Forall_reverse. eapply Forall_impl; [exact Hr|]. cbn. intros; lia.
    + rewrite (getl_above k (reverse gone)); [by destruct (getl (reverse rest) k)|].
      apply Forall_reverse. eapply Forall_impl; [exact Hg|]. cbn. intros; lia.
  - cbn [fc_size fc_cache]. rewrite held_reverse. lia.
Qed.

Lemma fc_step_inv cap c o : fc_inv cap c -> exists c', fc_step flen c o = Val c' /\ fc_inv cap c' /\
  (match o with FPush h _ => fc_get c h = None | _ => True end ->
   held flen (fc_cache c) = fc_size c -> held flen (fc_cache c') = fc_size c').
Proof.
  intros I. destruct o as [h f|h]; cbn.
  - destruct (N.leb_spec (flen f) cap).
    + destruct (push_fits cap c h f I) as (c' & cut & -> & I' & _ & _ & Hz); [done|]. exists c'.
      split; [done|]. split; [done|]. intros E. rewrite E in Hz. cbn in Hz. lia.
    + rewrite (push_big cap) by done. exists c. done.
  - destruct (rollback_ok cap c h I) as (c' & -> & I' & _ & Hz). exists c'. split; [done|]. split; [done|]. lia.
Qed.

Lemma fc_run_inv cap os : forall c, fc_inv cap c -> exists c', fc_run flen c os = Val c' /\ fc_inv cap c' /\
  (fresh_pushes flen c os -> held flen (fc_cache c) = fc_size c -> held flen (fc_cache c') = fc_size c').
Proof.
  induction os as [|o os IH]; intros c I; cbn; [by exists c|].
  destruct (fc_step_inv cap c o I) as (c1 & E & I1 & H1). rewrite E. cbn [mbind_M].
  destruct (IH c1 I1) as (c2 & E2 & I2 & H2). exists c2. split; [done|]. split; [done|].
  intros [Hf Hn] Hsz. apply H2; [|by apply H1]. by apply Hn.
Qed.

Lemma fc_new_inv cap : fc_inv cap (fc_new cap).
Proof. repeat split; cbn; try lia; constructor. Qed.

Lemma fc_run_reach cap os c : fc_run flen (fc_new cap) os = Val c -> fc_inv cap c.
Proof.
  intros E. destruct (fc_run_inv cap os (fc_new cap) (fc_new_inv cap)) as (c' & E' & I & _). congruence.
Qed.

Lemma fc_run_ok cap os : exists c, fc_run flen (fc_new cap) os = Val c /\
  fc_capacity c = cap /\ fc_size c <= cap /\ held flen (fc_cache c) <= fc_size c /\
  StronglySorted N.lt (fc_cache c).*1 /\
  (fresh_pushes flen (fc_new cap) os -> held flen (fc_cache c) = fc_size c).
Proof.
  destruct (fc_run_inv cap os (fc_new cap) (fc_new_inv cap)) as (c & E & (I1 & I2 & I3 & I4) & Hf).
  exists c. repeat split; try done.
  - clear -I4. induction I4 as [|e l Hs IH Hf]; cbn; constructor; [done|].
    apply Forall_fmap. eapply Forall_impl; [exact Hf|]. done.
  - intros Hp. by apply Hf.
Qed.
End FC.

Section TimerFacts.
Context {K : Type} (sort : timers K -> timers K) (Hsort : sorts sort) (threshold : N).

Lemma tm_next_spec os ts rs now : tm_run sort threshold [] os = (ts, rs) ->
  match tm_next now ts with
  | None => ts = []
  | Some d => (forall e, e ∈ ts -> now + d <= N.max now e.2) /\
              exists e, e ∈ ts /\ now + d = N.max now e.2
  end.
Proof.
  intros E. pose proof (tm_run_sorted sort Hsort threshold os [] ts rs (SSorted_nil _) E) as Hs.
  unfold tm_next. destruct (last ts) as [[k t]|] eqn:El; [|by apply last_None].
  assert (Hin : (k, t) ∈ ts). { apply last_Some in El as [l ->]. set_solver. }
  split.
  - intros e He. pose proof (sorted_last_min ts k t e Hs El He). destruct (N.leb_spec now t); lia.
  - exists (k, t). split; [done|]. cbn. destruct (N.leb_spec now t); lia.
Qed.

Lemma tm_wake_spec os ts rs now ts' ks :
  tm_run sort threshold [] os = (ts, rs) -> tm_wake now ts = (ts', ks) ->
  ts' = List.filter (fun e => now <? e.2) ts /\
  (exists due, due ≡ₚ List.filter (fun e => e.2 <=? now) ts /\ ks = due.*1 /\
     StronglySorted (fun a b => a.2 <= b.2) due).
Proof.
  intros E Ew. pose proof (tm_run_sorted sort Hsort threshold os [] ts rs (SSorted_nil _) E) as Hs.
  destruct (wake_spec now ts ts' ks Hs Ew) as [H1 H2]. split; [exact H1|].
  eexists. split; [|split; [exact H2|]]; [apply reverse_Permutation|].
  apply (StronglySorted_reverse desc). apply filter_sorted. exact Hs.
Qed.

Lemma tm_register_spec k t (ts : timers K) :
  let '(ts', ok) := tm_register sort threshold k t ts in
  (ok = false <-> exists e, e ∈ ts /\ (Z.abs (Z.of_N e.2 - Z.of_N t) < Z.of_N threshold)%Z) /\
  (ok = true -> ts' ≡ₚ (k, t) :: ts) /\ (ok = false -> ts' = ts).
Proof.
  unfold tm_register.
  assert (Hd : forall a b, (time_diff a b <? threshold) = true <->
    (Z.abs (Z.of_N a - Z.of_N b) < Z.of_N threshold)%Z).
  { intros a b. unfold time_diff. rewrite N.ltb_lt. destruct (N.ltb_spec b a); lia. }
  destruct (existsb _ ts) eqn:E.
  - split; [|done]. split; [|done]. intros _. apply List.existsb_exists in E as (e & He & Ht).
    exists e. split; [by apply elem_of_list_In|]. by apply Hd.
  - split; [|split; [|done]].
    + split; [done|]. intros (e & He & Ht). exfalso. apply Hd in Ht. rewrite <- not_true_iff_false in E. apply E.
      apply List.existsb_exists. exists e. split; [by apply elem_of_list_In|done].
    + intros _. destruct (Hsort (ts ++ [(k, t)])) as [P _]. rewrite P. by rewrite Permutation_app_comm.
Qed.
End TimerFacts.

Section FCFacts.
Context {T : Type} (flen : T -> N).

Lemma push_facts cap os c h f : fc_run flen (fc_new cap) os = Val c ->
  (cap < flen f -> fc_push flen h f c = Val (c, false)) /\
  (flen f <= cap -> exists c' cut, fc_push flen h f c = Val (c', true) /\
    (forall k, fc_get c' k = if k <? cut then None else if h =? k then Some f else fc_get c k) /\
    (cut = 0 \/ exists g, 0 < cut /\ (if h =? cut - 1 then Some f else fc_get c (cut - 1)) = Some g /\
                  cap < fc_size c' + flen g)).
Proof.
  intros I%fc_run_reach. split; [by apply push_big|]. intros Hf.
  destruct (push_fits flen cap c h f I Hf) as (c' & cut & H1 & _ & H2 & H3 & _). by exists c', cut.
Qed.

Lemma rollback_facts cap os c height : fc_run flen (fc_new cap) os = Val c ->
  exists c', fc_rollback flen height c = Val c' /\
    (forall k, fc_get c' k = if height <? k then None else fc_get c k) /\
    fc_size c' + held flen (fc_cache c) = fc_size c + held flen (fc_cache c').
Proof.
  intros I%fc_run_reach. destruct (rollback_ok flen cap c height I) as (c' & H1 & _ & H2 & H3). by exists c'.
Qed.
End FCFacts.
