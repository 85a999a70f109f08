(** Property theorems about the whole state machine (C98, C99), each followed
    by a concrete case. *)
From Verif Require Import Base RunEx PowModel BlockModel BlockSpec BlockExample BlockProps UtilModel FeeModel AddrModel AddrSpec AddrProps PeerModel PeerSpec PeerMain PeerProps
  PingModel DispModel LoadModel NodeModel NodeSpec NodeProps FullModel FullSpec FullProofs.
From Verif Require SyncModel SyncSpec SyncProps CbfModel CbfSpec CbfProps InvModel.
Open Scope N_scope.

(** ** C98 *)

(** The whole client, started as the reactor does, with any messages,
    connections, timers and commands in any order and outputs taken at any
    time: as long as the height of the active chain never goes down, the
    filter headers never reach beyond it. *)
Theorem C98_heights H ng scf P kcf acf ping_timeout cap env wenv_of magic hook st ps cps fst0 c0 white am os s t :
  let s0 := full0 c0 (CbfModel.cbf0 cap fst0) white am in
  wsetup H ng P kcf env wenv_of st ps cps fst0 c0 am (wheaders os) ->
  full_run H scf P kcf acf ping_timeout env wenv_of magic hook (WInitialize :: os) s0 = Val (s, t) ->
  w_never_drops (full_step H scf P kcf acf ping_timeout env wenv_of magic hook) (WInitialize :: os) s0 ->
  w_filter_height_of s <= w_height_of s.
Proof. exact (whole_heights H ng scf P kcf acf ping_timeout cap env wenv_of magic hook st ps cps fst0 c0 white am os s t). Qed.
Print Assumptions C98_heights.

(** And it panics in three known cases only. *)
Theorem C98_panics H ng scf P kcf acf ping_timeout cap env wenv_of magic hook st ps cps fst0 c0 white am os s t o p :
  let s0 := full0 c0 (CbfModel.cbf0 cap fst0) white am in
  wsetup H ng P kcf env wenv_of st ps cps fst0 c0 am (wheaders (os ++ [o])) ->
  full_run H scf P kcf acf ping_timeout env wenv_of magic hook (WInitialize :: os) s0 = Val (s, t) ->
  w_never_drops (full_step H scf P kcf acf ping_timeout env wenv_of magic hook) (WInitialize :: os) s0 ->
  full_step H scf P kcf acf ping_timeout env wenv_of magic hook o s = Panic p -> w_known_panic magic s o p.
Proof. exact (whole_panics H ng scf P kcf acf ping_timeout cap env wenv_of magic hook st ps cps fst0 c0 white am os s t o p). Qed.
Print Assumptions C98_panics.

(** ** C99 *)

(** When outputs are taken before the next input, headers come one at a time
    and the header store works, the same holds though the chain may get
    shorter. *)
Theorem C99_settled H ng scf P kcf acf ping_timeout cap env wenv_of magic hook st ps cps fst0 c0 white am os s t o p :
  let s0 := full0 c0 (CbfModel.cbf0 cap fst0) white am in
  let step := full_step H scf P kcf acf ping_timeout env wenv_of magic hook in
  wsetup H ng P kcf env wenv_of st ps cps fst0 c0 am (wheaders (os ++ [o])) -> block_io env -> w_one_by_one os ->
  full_run H scf P kcf acf ping_timeout env wenv_of magic hook (WInitialize :: os) s0 = Val (s, t) -> w_settled step (WInitialize :: os) s0 ->
  (w_drained s -> w_filter_height_of s <= w_height_of s) /\
  ((o = WNext \/ w_drained s) -> step o s = Panic p -> w_known_panic magic s o p).
Proof. exact (whole_settled H ng scf P kcf acf ping_timeout cap env wenv_of magic hook st ps cps fst0 c0 white am os s t o p). Qed.
Print Assumptions C99_settled.

(** ** Concrete runs *)
Definition wx_wenv (n : nat) : wenv := WEnv (ex_kenv T 5) (ex_aenv T) (fun a => a) (fun l => l).
Definition wx_kcf : kconf := KConf 70016 ∅ 9 [] 1 9 3 2 60000 1000 7 true false.
Notation wx_step := (full_step exH SyncProps.ex_cf CbfProps.ex_P wx_kcf ex_acf 60000 nx_env wx_wenv 7 (fun _ _ => true)).
Notation wx_run := (full_run exH SyncProps.ex_cf CbfProps.ex_P wx_kcf ex_acf 60000 nx_env wx_wenv 7 (fun _ _ => true)).
Notation wx_setup := (wsetup exH ex_ng CbfProps.ex_P wx_kcf nx_env wx_wenv cp_store cp_params [] []).
Notation wx_0 c am := (full0 c (CbfModel.cbf0 1000 []) ∅ am).
Lemma wx_ex hs os (Q : cache -> amgr -> wstate -> Prop) :
  forallb (fun h => h_prev h <? exH h) hs = true -> lenN hs < 2 ^ 64 ->
  match from_store exH ex_ng cp_store cp_params [], addr_new (ex_aenv T) ∅ with
  | Val (Ok c), Val am => c_height c = 0 /\ match wx_run os (wx_0 c am) with Val (s, _) => Q c am s | Panic _ => False end
  | _, _ => False
  end ->
  exists c am s t, wx_setup c am hs /\ wx_run os (wx_0 c am) = Val (s, t) /\ Q c am s.
Proof.
  intros A L. destruct (from_store exH ex_ng cp_store cp_params []) as [[c|]|] eqn:E; [|intros []..].
  destruct (addr_new (ex_aenv T) ∅) as [am|] eqn:Ea; [|intros []]. intros [Eh R].
  destruct (wx_run os (wx_0 c am)) as [[s t]|] eqn:Er; [|destruct R]. exists c, am, s, t. split; [|split; [exact Er|exact R]]. split.
  - constructor.
    + split; cbn; lia.
    + exact E.
    + exact I.
    + exists N.to_nat. apply Forall_forall. intros h Hh. rewrite forallb_forall in A. specialize (A h). rewrite <- elem_of_list_In in A.
      specialize (A Hh). lia.
    + exact L.
    + exact nx_fair.
    + intros n. split; intros; reflexivity.
    + split; [reflexivity|]. intros i a b Ha Hb. destruct i; discriminate Hb.
    + rewrite Eh. apply N.le_refl.
  - by split.
  - intros n. split; [|apply fair_ex]. split; [done|]. intros m. apply fair_ex.
  - exists (ex_aenv T), ∅. split; [apply fair_ex|exact Ea].
Qed.
Fixpoint w_never_drops_b (os : list wop) (s : wstate) : bool :=
  match os with
  | [] => true
  | o :: os' => match wx_step o s with Val (s', _) => (w_height_of s <=? w_height_of s') && w_never_drops_b os' s' | Panic _ => true end
  end.
Lemma w_never_drops_ok os : forall s, w_never_drops_b os s = true -> w_never_drops wx_step os s.
Proof.
  induction os as [|o os IH]; intros s; cbn [w_never_drops_b w_never_drops]; [done|]. destruct (wx_step o s) as [[s' t]|]; [|done].
  intros [A B]%andb_true_iff. split; [lia|by apply IH].
Qed.
Definition w_drained_b (s : wstate) : bool := forallb (fun c => match f_box s c with [] => true | _ => false end) sources.
Lemma w_drained_ok s : w_drained_b s = true -> w_drained s.
Proof.
  intros E c. unfold w_drained_b in E. rewrite forallb_forall in E. specialize (E c).
  destruct (f_box s c); [done|]. cbn in E. by destruct c; specialize (E ltac:(auto 10)).
Qed.
Fixpoint w_settled_b (os : list wop) (s : wstate) : bool :=
  match os with
  | [] => true
  | o :: os' => (match o with WNext => true | _ => w_drained_b s end) && match wx_step o s with Val (s', _) => w_settled_b os' s' | Panic _ => true end
  end.
Lemma w_settled_ok os : forall s, w_settled_b os s = true -> w_settled wx_step os s.
Proof.
  induction os as [|o os IH]; intros s; cbn [w_settled_b w_settled]; [done|]. intros [A B]%andb_true_iff. split.
  - destruct o; try (right; by apply w_drained_ok). by left.
  - destruct (wx_step o s) as [[s' t]|]; [by apply IH|done].
Qed.

(** We connect to a peer, shake hands, and get two headers and their filter
    headers. *)
Definition wdrain : list wop := repeat WNext 14.
Definition from_alice (m : wmsg) : wop := WReceived alice 7 m.
Definition wx_meet : list wop :=
  wdrain ++ WConnected alice me Outbound :: wdrain ++ from_alice (WVersion (hi 12 73)) :: wdrain ++ from_alice WVerack :: wdrain.
Definition wx_up : list wop :=
  wx_meet ++ from_alice (WNode (MHeaders [la1])) :: wdrain ++ from_alice (WNode (MCFHeaders 0 (exH la1) 8 [11])) :: wdrain ++
  from_alice (WNode (MHeaders [la2])) :: wdrain ++ from_alice (WNode (MCFHeaders 0 (exH la2) 8012 [12])) :: wdrain.
(** The same without waiting for the outputs. *)
Definition wx_mixed : list wop :=
  [WConnected alice me Outbound; from_alice (WVersion (hi 12 73)); WTimer; from_alice WVerack] ++ wdrain ++ [from_alice (WPing 3); from_alice (WNode (MHeaders [la1; la2]));
   WCommand CmdGetTip; WConnected bob me Inbound] ++ wdrain ++ [WReceived bob 8 WVerack; from_alice (WNode (MCFHeaders 0 (exH la2) 8 [11; 12]))].
Example C98_case : exists c am s t, wx_setup c am (wheaders (wx_mixed ++ [WCommand (CmdRequestFilters 1 3)])) /\
  wx_run (WInitialize :: wx_mixed) (wx_0 c am) = Val (s, t) /\ w_never_drops wx_step (WInitialize :: wx_mixed) (wx_0 c am) /\
  (w_height_of s = 2 /\ w_filter_height_of s = 2) /\ wx_step (WCommand (CmdRequestFilters 1 3)) s = Panic (PAssert 449).
Proof.
  destruct (wx_ex (wheaders (wx_mixed ++ [WCommand (CmdRequestFilters 1 3)])) (WInitialize :: wx_mixed) (fun c am s => w_never_drops_b (WInitialize :: wx_mixed) (wx_0 c am) = true /\
    (w_height_of s = 2 /\ w_filter_height_of s = 2) /\ match wx_step (WCommand (CmdRequestFilters 1 3)) s with Panic p => p = PAssert 449 | _ => False end))
    as (c & am & s & t & S & R & Q1 & Q2 & Q3); [vm_compute; reflexivity|vm_compute; reflexivity|vm_compute; repeat split|].
  exists c, am, s, t. split; [exact S|]. split; [exact R|]. split; [by apply w_never_drops_ok|]. split; [done|].
  destruct (wx_step (WCommand (CmdRequestFilters 1 3)) s); [done|by rewrite Q3].
Qed.

(** A block with more work makes the chain shorter, and the filter headers
    follow. *)
Definition wx_down : list wop := wx_up ++ from_alice (WNode (MHeaders [hard])) :: wdrain.
Example C99_case : exists c am s t, wx_setup c am (wheaders (wx_down ++ [WTimer])) /\ block_io nx_env /\ w_one_by_one wx_down /\
  wx_run (WInitialize :: wx_down) (wx_0 c am) = Val (s, t) /\ w_settled wx_step (WInitialize :: wx_down) (wx_0 c am) /\
  w_drained s /\ w_height_of s = 1 /\ w_filter_height_of s = 0.
Proof.
  destruct (wx_ex (wheaders (wx_down ++ [WTimer])) (WInitialize :: wx_down) (fun c am s => w_settled_b (WInitialize :: wx_down) (wx_0 c am) = true /\ w_drained_b s = true /\
    w_height_of s = 1 /\ w_filter_height_of s = 0))
    as (c & am & s & t & S & R & Q1 & Q2 & Q3); [vm_compute; reflexivity|vm_compute; reflexivity|vm_compute; repeat split|].
  exists c, am, s, t. split; [exact S|]. split; [intros n i; done|]. split; [repeat constructor; vm_compute; discriminate|].
  split; [exact R|]. split; [by apply w_settled_ok|]. split; [by apply w_drained_ok|done].
Qed.
