(** Property theorems about the node put together from its managers (C86,
    C87), each followed by a concrete case. *)
From Verif Require Import Base RunEx PowModel BlockModel BlockSpec BlockExample BlockProps UtilModel AddrModel PeerModel
  DispModel LoadModel NodeModel NodeSpec NodeProofs NodeSingle.
From Verif Require SyncModel SyncSpec SyncProps CbfModel CbfSpec CbfProps.
Open Scope N_scope.

(** ** C86 *)

(** Any inputs in any order, with outputs taken at any time: as long as the
    height of the active chain never goes down, the filter headers never reach
    beyond it. *)
Theorem C86_heights H ng scf P cap sock env magic st ps cps fst0 c0 os s t :
  setup H ng P env st ps cps fst0 c0 (node_headers os) ->
  node_run H scf P sock env magic os (node0 c0 (CbfModel.cbf0 cap fst0)) = Val (s, t) ->
  never_drops (node_step H scf P sock env magic) os (node0 c0 (CbfModel.cbf0 cap fst0)) ->
  filter_height_of s <= height_of s.
Proof.
  intros [S1 S2 S3 S4 S5 S6 S7 S8 S9].
  exact (up_heights H ng scf P cap sock env magic st ps cps c0 S1 S2 S3 S6 S7 fst0 S8 S9 os s t (conj S4 S5)).
Qed.
Print Assumptions C86_heights.

(** And the node panics in three known cases only. *)
Theorem C86_panics H ng scf P cap sock env magic st ps cps fst0 c0 os s t o p :
  setup H ng P env st ps cps fst0 c0 (node_headers (os ++ [o])) ->
  node_run H scf P sock env magic os (node0 c0 (CbfModel.cbf0 cap fst0)) = Val (s, t) ->
  never_drops (node_step H scf P sock env magic) os (node0 c0 (CbfModel.cbf0 cap fst0)) ->
  node_step H scf P sock env magic o s = Panic p -> known_panic s o p.
Proof.
  intros [S1 S2 S3 S4 S5 S6 S7 S8 S9].
  exact (up_panics H ng scf P cap sock env magic st ps cps c0 S1 S2 S3 S6 S7 fst0 S8 S9 os s t o p (conj S4 S5)).
Qed.
Print Assumptions C86_panics.

(** ** C87 *)

(** Outputs are taken before the next input, and every change of the chain is
    reported exactly.  The chain may get shorter. *)
Theorem C87_settled H ng scf P cap sock env magic st ps cps fst0 c0 os s t :
  let step := node_step H scf P sock env magic in
  let s0 := node0 c0 (CbfModel.cbf0 cap fst0) in
  setup H ng P env st ps cps fst0 c0 (node_headers os) ->
  node_run H scf P sock env magic os s0 = Val (s, t) -> settled step os s0 -> all_reported step H os s0 ->
  drained s -> filter_height_of s <= height_of s.
Proof.
  intros step s0 [S1 S2 S3 S4 S5 S6 S7 S8 S9].
  exact (settled_heights H ng scf P cap sock env magic st ps cps c0 S1 S2 S3 S6 S7 fst0 S8 S9 os s t (conj S4 S5)).
Qed.
Print Assumptions C87_settled.

Theorem C87_settled_panics H ng scf P cap sock env magic st ps cps fst0 c0 os s t o p :
  let step := node_step H scf P sock env magic in
  let s0 := node0 c0 (CbfModel.cbf0 cap fst0) in
  setup H ng P env st ps cps fst0 c0 (node_headers (os ++ [o])) ->
  node_run H scf P sock env magic os s0 = Val (s, t) -> settled step os s0 -> all_reported step H os s0 ->
  (o = NNext \/ drained s) -> step o s = Panic p -> known_panic s o p.
Proof.
  intros step s0 [S1 S2 S3 S4 S5 S6 S7 S8 S9].
  exact (settled_known H ng scf P cap sock env magic st ps cps c0 S1 S2 S3 S6 S7 fst0 S8 S9 os s t o p (conj S4 S5)).
Qed.
Print Assumptions C87_settled_panics.

(** Headers that come one at a time over a working header store are always
    reported exactly. *)
Theorem C87_single H ng scf P cap sock env magic st ps cps fst0 c0 os s t o p :
  let step := node_step H scf P sock env magic in
  let s0 := node0 c0 (CbfModel.cbf0 cap fst0) in
  setup H ng P env st ps cps fst0 c0 (node_headers (os ++ [o])) -> block_io env -> one_by_one os ->
  node_run H scf P sock env magic os s0 = Val (s, t) -> settled step os s0 ->
  all_reported step H os s0 /\ (drained s -> filter_height_of s <= height_of s) /\
  ((o = NNext \/ drained s) -> step o s = Panic p -> known_panic s o p).
Proof.
  intros step s0 S Bi Ob R Se. destruct S as [S1 S2 S3 S4 S5 S6 S7 S8 S9].
  assert (B2 : bounded H st (node_headers (os ++ [o]))) by done.
  assert (B1 : bounded H st (node_headers os)) by (rewrite node_headers_snoc in B2; by eapply bounded_prefix).
  assert (B0 : bounded H st []) by (change (node_headers os) with ([] ++ node_headers os) in B1; by eapply bounded_prefix).
  assert (Al : all_reported step H os s0).
  { eapply (single_reported H ng st ps cps S1 scf P cap sock env magic c0 S2 S3 S6 Bi S7 os s0 [] s t); try done.
    by apply strong_weak, (start H ng scf P cap st ps cps c0 S1 S2 S3 fst0 S8 S9). }
  split; [exact Al|]. split.
  - exact (settled_heights H ng scf P cap sock env magic st ps cps c0 S1 S2 S3 S6 S7 fst0 S8 S9 os s t B1 R Se Al).
  - exact (settled_known H ng scf P cap sock env magic st ps cps c0 S1 S2 S3 S6 S7 fst0 S8 S9 os s t o p B2 R Se Al).
Qed.
Print Assumptions C87_single.

(** ** Concrete runs *)
Definition nx_env (n : nat) : nenv := NEnv (SyncProps.ex_env 1000000000) (fun _ => ch0) CbfProps.ex_k (fun _ l => head l).
Definition nx_sock (a : N) : sockaddr := ((true, a), 8333).
Notation nx_step := (node_step exH SyncProps.ex_cf CbfProps.ex_P nx_sock nx_env 7).
Notation nx_run := (node_run exH SyncProps.ex_cf CbfProps.ex_P nx_sock nx_env 7).
Notation nx_setup := (setup exH ex_ng CbfProps.ex_P nx_env cp_store cp_params [] []).
Notation nx_0 c := (node0 c (CbfModel.cbf0 1000 [])).

Lemma nx_fair : fair_node nx_env.
Proof. intros n. split; [intros m l; reflexivity|intros i; exact fair_ch0]. Qed.
Lemma nx_ex hs os (Q : cache -> state -> Prop) :
  forallb (fun h => h_prev h <? exH h) hs = true -> lenN hs < 2 ^ 64 ->
  match from_store exH ex_ng cp_store cp_params [] with
  | Val (Ok c) => c_height c = 0 /\ match nx_run os (nx_0 c) with Val (s, _) => Q c s | Panic _ => False end
  | _ => False
  end ->
  exists c s t, nx_setup c hs /\ nx_run os (nx_0 c) = Val (s, t) /\ Q c s.
Proof.
  intros A L. destruct (from_store exH ex_ng cp_store cp_params []) as [[c|]|] eqn:E; [|intros []..]. intros [Eh R].
  destruct (nx_run os (nx_0 c)) as [[s t]|] eqn:Er; [|destruct R]. exists c, s, t. split; [|split; [exact Er|exact R]]. constructor.
  - split; cbn; lia.
  - exact E.
  - exact I.
  - exists N.to_nat. apply Forall_forall. intros h Hh. rewrite forallb_forall in A. specialize (A h). rewrite <- elem_of_list_In in A.
    specialize (A Hh). lia.
  - exact L.
  - exact nx_fair.
  - intros n. split; intros; reflexivity.
  - split; [reflexivity|]. intros i a b Ha Hb. destruct i; discriminate Hb.
  - rewrite Eh. apply N.le_refl.
Qed.

Fixpoint never_drops_b (os : list nop) (s : state) : bool :=
  match os with
  | [] => true
  | o :: os' => match nx_step o s with Val (s', _) => (height_of s <=? height_of s') && never_drops_b os' s' | Panic _ => true end
  end.
Lemma never_drops_ok os : forall s, never_drops_b os s = true -> never_drops nx_step os s.
Proof.
  induction os as [|o os IH]; intros s; cbn [never_drops_b never_drops]; [done|]. destruct (nx_step o s) as [[s' t]|]; [|done].
  intros [A B]%andb_true_iff. split; [lia|by apply IH].
Qed.
Definition drained_b (s : state) : bool := forallb (fun c => match f_box s c with [] => true | _ => false end) sources.
Lemma drained_ok s : drained_b s = true -> drained s.
Proof.
  intros E c. unfold drained_b in E. rewrite forallb_forall in E. specialize (E c).
  destruct (f_box s c); [done|]. cbn in E. by destruct c; specialize (E ltac:(auto 10)).
Qed.
Fixpoint settled_b (os : list nop) (s : state) : bool :=
  match os with
  | [] => true
  | o :: os' => (match o with NNext => true | _ => drained_b s end) && match nx_step o s with Val (s', _) => settled_b os' s' | Panic _ => true end
  end.
Lemma settled_ok os : forall s, settled_b os s = true -> settled nx_step os s.
Proof.
  induction os as [|o os IH]; intros s; cbn [settled_b settled]; [done|]. intros [A B]%andb_true_iff. split.
  - destruct o; try (right; by apply drained_ok). by left.
  - destruct (nx_step o s) as [[s' t]|]; [by apply IH|done].
Qed.

(** A peer with filters, two easy blocks, their filter headers. *)
Definition hello (a : N) : nop := NPeer (PNegotiated a 0 true true true true false false).
Definition drain : list nop := repeat NNext 12.
Definition nx_up : list nop :=
  hello 1 :: drain ++ NMessage 1 (MHeaders [la1]) :: drain ++ NMessage 1 (MCFHeaders 0 (exH la1) 8 [11]) :: drain ++
  NMessage 1 (MHeaders [la2]) :: drain ++ NMessage 1 (MCFHeaders 0 (exH la2) 8012 [12]) :: drain.
(** A block on genesis with more work than both. *)
Definition hard : header := mkHeader (1 * 2 ^ 248) 600 0x1c00ffff 7.

(** Outputs are not taken between two inputs, and the user asks for filters
    that are not there. *)
Definition nx_mixed : list nop :=
  [hello 1; NNext; NMessage 1 (MHeaders [la1; la2]); hello 2; NTimer; NNext; NNext; NNext; NNext; NNext; NNext; NNext; NNext;
   NMessage 1 (MCFHeaders 0 (exH la2) 8 [11; 12])].
Example C86_case : exists c s t, nx_setup c (node_headers (nx_mixed ++ [NRequestFilters 1 3])) /\
  nx_run nx_mixed (nx_0 c) = Val (s, t) /\ never_drops nx_step nx_mixed (nx_0 c) /\
  (height_of s = 2 /\ filter_height_of s = 2) /\ nx_step (NRequestFilters 1 3) s = Panic (PAssert 449).
Proof.
  destruct (nx_ex (node_headers (nx_mixed ++ [NRequestFilters 1 3])) nx_mixed (fun c s => never_drops_b nx_mixed (nx_0 c) = true /\
    (height_of s = 2 /\ filter_height_of s = 2) /\ match nx_step (NRequestFilters 1 3) s with Panic p => p = PAssert 449 | _ => False end))
    as (c & s & t & S & R & Q1 & Q2 & Q3); [vm_compute; reflexivity|vm_compute; reflexivity|vm_compute; repeat split|].
  exists c, s, t. split; [exact S|]. split; [exact R|]. split; [by apply never_drops_ok|]. split; [done|].
  destruct (nx_step (NRequestFilters 1 3) s); [done|by rewrite Q3].
Qed.

(** Without it the node can panic while it hands out an output: the chain got
    shorter, and the next event is one that was queued by the peer manager,
    before the one that reports the change. *)
Theorem C86_drop_refuted : exists c s t,
  let os := nx_up ++ [NMessage 1 (MHeaders [hard]); hello 2] in
  nx_setup c (node_headers (os ++ [NNext])) /\ block_io nx_env /\ one_by_one os /\
  nx_run os (nx_0 c) = Val (s, t) /\ height_of s = 1 /\ filter_height_of s = 2 /\ nx_step NNext s = Panic (PAssert 571).
Proof.
  set (os := nx_up ++ [NMessage 1 (MHeaders [hard]); hello 2]).
  destruct (nx_ex (node_headers (os ++ [NNext])) os (fun c s => height_of s = 1 /\ filter_height_of s = 2 /\
    match nx_step NNext s with Panic p => p = PAssert 571 | _ => False end))
    as (c & s & t & S & R & Q1 & Q2 & Q3); [vm_compute; reflexivity|vm_compute; reflexivity|vm_compute; repeat split|].
  exists c, s, t. split; [exact S|]. split; [intros n i; done|]. split; [repeat constructor; vm_compute; discriminate|].
  split; [exact R|]. split; [done|]. split; [done|]. destruct (nx_step NNext s); [done|by rewrite Q3].
Qed.
Print Assumptions C86_drop_refuted.

(** The same change with the outputs taken: the filter headers follow the
    shorter chain. *)
Definition nx_down : list nop := nx_up ++ NMessage 1 (MHeaders [hard]) :: drain ++ hello 2 :: drain.
Example C87_case : exists c s t, nx_setup c (node_headers (nx_down ++ [NTimer])) /\ block_io nx_env /\ one_by_one nx_down /\
  nx_run nx_down (nx_0 c) = Val (s, t) /\ settled nx_step nx_down (nx_0 c) /\ all_reported nx_step exH nx_down (nx_0 c) /\
  drained s /\ height_of s = 1 /\ filter_height_of s = 0.
Proof.
  destruct (nx_ex (node_headers (nx_down ++ [NTimer])) nx_down (fun c s => settled_b nx_down (nx_0 c) = true /\ drained_b s = true /\
    height_of s = 1 /\ filter_height_of s = 0))
    as (c & s & t & S & R & Q1 & Q2 & Q3); [vm_compute; reflexivity|vm_compute; reflexivity|vm_compute; repeat split|].
  assert (Bi : block_io nx_env) by (intros n i; done). assert (Ob : one_by_one nx_down) by (repeat constructor; vm_compute; discriminate).
  apply settled_ok in Q1. apply drained_ok in Q2. exists c, s, t. split; [exact S|]. split; [exact Bi|]. split; [exact Ob|].
  split; [exact R|]. split; [exact Q1|]. split; [|done].
  exact (proj1 (C87_single exH ex_ng SyncProps.ex_cf CbfProps.ex_P 1000 nx_sock nx_env 7 cp_store cp_params [] [] c nx_down s t NTimer (PDivZero 0) S Bi Ob R Q1)).
Qed.

(** Batches are not always reported exactly, and then even that is not
    enough: one message with four headers makes the chain switch three times.
    The blocks of the first branch, which come back in between, are not
    reported as reverted, and the new chain is shorter. *)
Definition ha4 : header := mkHeader (4 * 2 ^ 248) 6500 0x1c00ffff 8.
Definition hc1 : header := mkHeader (1 * 2 ^ 248) 1100 0x1c00ffff 9.
Definition hc2 : header := mkHeader (9 * 2 ^ 248) 2200 0x1c00ffff 10.
Definition nx_batch : list nop :=
  nx_up ++ NMessage 1 (MHeaders [la3]) :: drain ++ NMessage 1 (MCFHeaders 0 (exH la3) 8012013 [13]) :: drain ++
  [NMessage 1 (MHeaders [hard; ha4; hc1; hc2]); NNext; NNext].
Theorem C87_batch_refuted : exists c s t,
  nx_setup c (node_headers (nx_batch ++ [NNext])) /\ block_io nx_env /\
  nx_run nx_batch (nx_0 c) = Val (s, t) /\ settled nx_step (nx_batch ++ [NNext]) (nx_0 c) /\
  height_of s = 2 /\ filter_height_of s = 3 /\ nx_step NNext s = Panic (PAssert 571).
Proof.
  destruct (nx_ex (node_headers (nx_batch ++ [NNext])) nx_batch (fun c s => settled_b (nx_batch ++ [NNext]) (nx_0 c) = true /\ height_of s = 2 /\ filter_height_of s = 3 /\
    match nx_step NNext s with Panic p => p = PAssert 571 | _ => False end))
    as (c & s & t & S & R & Q0 & Q1 & Q2 & Q3); [vm_compute; reflexivity|vm_compute; reflexivity|vm_compute; repeat split|].
  exists c, s, t. split; [exact S|]. split; [intros n i; done|]. split; [exact R|]. split; [by apply settled_ok|]. split; [done|]. split; [done|].
  destruct (nx_step NNext s); [done|by rewrite Q3].
Qed.
Print Assumptions C87_batch_refuted.
