(** Proofs about the node put together from its managers. *)
From Verif Require Import Base PowModel BlockModel BlockSpec BlockProofs BlockRun BlockMain UtilModel FeeModel AddrModel PeerModel
  DispModel DispSpec DispProofs LoadModel LoadProofs NodeModel NodeSpec.
From Verif Require SyncModel SyncSpec SyncMain SyncFacts CbfModel CbfSpec CbfProofs CbfStep CbfMain CbfFacts InvModel InvProofs.
Open Scope N_scope.

(** ** One step of the filter manager, whatever it was told before *)
Definition cbf_safe (i : CbfSpec.input) (s : CbfModel.cbf) : Prop :=
  (forall rev h, CbfSpec.i_op i = CbfModel.CImported rev -> last rev = Some h -> h - 1 <= CbfModel.tr_height (CbfSpec.i_tree i)) /\
  (CbfModel.f_height s <= CbfModel.tr_height (CbfSpec.i_tree i) \/
   exists rev h, CbfSpec.i_op i = CbfModel.CImported rev /\ last rev = Some h /\ h - 1 < CbfModel.f_height s).

Section Cbf.
Import CbfModel CbfSpec CbfProofs CbfStep CbfMain.

Lemma safe_heights P cap i s s' x : cbf_ok P cap s -> step_on P i s = Val (s', x) -> cbf_safe i s -> k_rollback_ok (i_k i) = true ->
  f_height s' <= tr_height (i_tree i).
Proof.
  intros Ok E [S W] K. apply (step_effect P cap) in E; [|done].
  assert (F : forall s s' t o, quiet t s s' o -> f_height s' = f_height s) by (intros ? ? ? ? Q; unfold f_height; by rewrite (q_filters _ _ _ _ Q)).
  destruct E as [s' x NR Q|from sh prev hs stop st s' x _ _ T L1 Ep _ L2 _ Q|from hash height f s' x Eo _ _ R Q|
    from hash height f c b r' ms es s' x Eo _ A _ Ec Pr E1 E2 E3 E4 _|rev h c s' x ok Eo El L2 -> Ec Q|from to w start stop s1 r' ms es x y Eo Q Pr _].
  - rewrite (F _ _ _ _ Q). destruct W as [?|(rev & h & H1 & H2 & H3)]; [done|]. specialize (NR _ _ H1 H2). lia.
  - rewrite (F _ _ _ _ Q). destruct (import_height P s sh prev hs stop st _ T L1 L2) as (-> & ?). done.
  - rewrite (F _ _ _ _ Q). destruct W as [?|(rev & h & H1 & _)]; [done|congruence].
  - unfold f_height. rewrite E1. fold (f_height s). destruct W as [?|(rev & h & H1 & _)]; [done|congruence].
  - rewrite (F _ _ _ _ Q), K. pose proof (S _ _ Eo El). unfold f_height. cbn. unfold lenN. rewrite take_length. lia.
  - change (f_height (set_rescan r' s1)) with (f_height s1). rewrite (F _ _ _ _ Q). change (f_height (set_rescan _ s)) with (f_height s).
    destruct W as [?|(rev & h & H1 & _)]; [done|congruence].
Qed.

Lemma safe_panic P cap i s p : cbf_ok P cap s -> c_store s = c_filters s -> cbf_safe i s -> io_ok i -> step_on P i s = Panic p ->
  (p = PAssert 449 /\ exists a b, i_op i = CRequestFilters a b /\ f_height s < b) \/
  (p = PAssert 707 /\ (exists from stop_hash prev hashes, i_op i = CCFHeaders from 0 stop_hash prev hashes) /\
   r_active (c_rescan s) = true /\ c_peers s = ∅).
Proof.
  intros Ok St [S W] [I1 I2] E. destruct (step_spec P cap i s Ok) as [(s1 & x & E1 & _)|(p' & E1 & C)]; rewrite E1 in E; [done|].
  injection E as ->.
  destruct C as [[NR C]|[(rev & h & Eo & El & _ & C)|[(rev & h & _ & _ & C)|[(a & b & Eo & -> & C)|
    (from & sh & prev & hs & stop & Eo & H1 & H2 & H3 & H4 & H5 & _ & C)]]]].
  - destruct W as [?|(rev & h & H1 & H2 & H3)]; [lia|]. specialize (NR _ _ H1 H2). lia.
  - pose proof (S _ _ Eo El). lia.
  - congruence.
  - left. split; [done|]. by exists a, b.
  - right. pose proof (tr_get_height _ _ _ H2) as T.
    assert (Le : lenN (c_filters s ++ chain_headers P prev hs) = stop).
    { unfold lenN in *. rewrite app_length, chain_headers_length. unfold f_height, lenN in H3, H5. lia. }
    rewrite St in C. cbn in C. rewrite Le in C.
    destruct C as [(-> & A & B)|[(h & C1 & C2)|[C|C]]]; [|exfalso; apply tr_at_none in C2; lia|lia|lia].
    split; [done|]. split; [|done]. by exists from, sh, prev, hs.
Qed.
End Cbf.

Section Node.
Context (H : header -> N) (ng : network -> N) (scf : SyncModel.sconf) (P : CbfModel.params) (cap : N)
  (sock : N -> sockaddr) (env : nat -> nenv) (magic : N).
Context (st : store) (ps : params) (cps : list (N * N)) (c0 : cache).
Context (Hps : params_ok ps) (E0 : from_store H ng st ps cps = Val (Ok c0)) (L0 : linked_from H (H (s_genesis st)) (s_tail st)).
Context (Fenv : fair_node env) (Io : filter_io env).

Notation io := (DispModel.io nmsg nev).
Notation tree n := (tree_of H (n_cache n)).
Notation th n := (CbfModel.tr_height (tree_of H (n_cache n))).
Notation fh n := (CbfModel.f_height (n_cbf n)).

(** ** The managers inside the node *)
Record NI (hs : list header) (n : node) : Prop := {
  ni_sync : exists sops xs, SyncSpec.sync_run H scf sops (SyncModel.sync_init, c0) = Val (n_sync n, n_cache n, xs) /\
    presented (SyncSpec.imports sops) = hs /\ fair (SyncSpec.imports sops);
  ni_cbf : CbfStep.cbf_ok P cap (n_cbf n);
  ni_store : CbfModel.c_store (n_cbf n) = CbfModel.c_filters (n_cbf n);
  ni_inv : InvProofs.inv_ok (n_inv n);
}.
Definition bounded (hs : list header) : Prop :=
  acyclic H (s_tail st ++ hs) /\ lenN (s_tail st) + lenN hs < 2 ^ 64.

Lemma presented_app os1 os2 : presented (os1 ++ os2) = presented os1 ++ presented os2.
Proof. unfold presented, inputs. by rewrite map_app, concat_app, map_app. Qed.

Lemma ni_reach hs n : NI hs n -> bounded hs -> exists hist outs, reachable H ng st ps cps hist (n_cache n) outs.
Proof.
  intros N [A _]. destruct (ni_sync _ _ N) as (sops & xs & R & Ep & F). rewrite <- Ep in A.
  destruct (SyncFacts.run_imports H scf _ _ _ _ _ _ R) as (hist & outs & Sub & Rh). exists hist, outs.
  by eapply (SyncFacts.hist_reachable H ng st ps cps c0).
Qed.
Lemma ni_height hs n : NI hs n -> bounded hs -> th n = c_height (n_cache n).
Proof.
  intros N B. destruct (ni_reach hs n N B) as (hist & outs & R). destruct (reach_inv H ng st ps cps Hps _ _ _ R) as (rank & tl & I).
  rewrite (inv_height I). unfold CbfModel.tr_height, tree_of, lenN. cbn [CbfModel.tr_chain]. by rewrite map_length, (i_tail I), mk_from_length.
Qed.

(** Outputs that make nobody change the chain. *)
Definition calm (p : comp * io) : Prop :=
  (p.1 = CSync \/ p.1 = CInv \/ p.1 = CCbf) /\
  match p.2 with
  | IoEvent (EvMessage _ _) | IoEvent (EvSync (SyncModel.SoImported _ _ _ _ _)) => False
  | _ => True
  end.

Lemma calm_sync o : match o with SyncModel.SoImported _ _ _ _ _ => False | _ => True end -> Forall calm (sync_io sock o).
Proof. destruct o; cbn [sync_io]; intros ?; try done; apply Forall_singleton; (split; [cbn; auto|done]). Qed.
Lemma calm_inv o : Forall calm (inv_io sock o).
Proof. destruct o; cbn [inv_io]; apply Forall_singleton; (split; [cbn; auto|done]). Qed.
Lemma calm_cbf o : Forall calm (cbf_io sock o).
Proof. destruct o; cbn [cbf_io]; try done; apply Forall_singleton; (split; [cbn; auto|done]). Qed.
Lemma calm_flat {A} (f : A -> list (comp * io)) (l : list A) : (forall x, x ∈ l -> Forall calm (f x)) -> Forall calm (flat_map f l).
Proof.
  induction l as [|x l IH]; intros F; cbn; [done|]. apply Forall_app. split; [apply F; left|]. apply IH. intros y Hy. apply F. by right.
Qed.

(** The headers that an operation of the sync manager presents. *)
Definition op_batch (o : SyncModel.sync_op) : list (header * choice) :=
  match o with SyncModel.SHeaders _ hds | SyncModel.SImport hds => hds | _ => [] end.
Definition op_headers (o : SyncModel.sync_op) : list header := map fst (op_batch o).
Definition op_fair (o : SyncModel.sync_op) : Prop := Forall (fun x => fair_choice x.2) (op_batch o).

Definition same_but_sync (n n' : node) : Prop := n_cbf n' = n_cbf n /\ n_inv n' = n_inv n.

(** What queueing the result of an import looks like. *)
Definition import_out (hds : list (header * choice)) (n n' : node) (l : list (comp * io)) : Prop :=
  (n_cache n' = n_cache n /\ Forall calm l) \/
  exists hist now r, transition H ng st ps cps hist (n_cache n) (OImport hds now) (n_cache n') r /\
    match r with
    | Ok (TipChanged tip k h rv cn) => exists y,
        l = map (fun p => (CSync, IoEvent (EvSync (SyncModel.SoDisconnected p.1 p.2)))) rv ++
            map (fun p => (CSync, IoEvent (EvSync (SyncModel.SoConnected p.1 p.2)))) cn ++
            (CSync, IoEvent (EvSync (SyncModel.SoImported (negb (bool_decide (rv = []))) k h rv cn))) :: y /\ Forall calm y
    | _ => Forall calm l
    end.

Lemma flat_single {A B} (f : A -> B) (l : list A) : flat_map (fun x => [f x]) l = map f l.
Proof. induction l; cbn; congruence. Qed.

Lemma flat_map_fmap {A B C} (f : A -> B) (g : B -> list C) (l : list A) : flat_map g (f <$> l) = flat_map (fun x => g (f x)) l.
Proof. induction l; cbn; congruence. Qed.

Lemma call_sync_spec o n hs : NI hs n -> bounded (hs ++ op_headers o) -> op_fair o ->
  exists n' l, call_sync H scf sock env o n = Val (n', l) /\ NI (hs ++ op_headers o) n' /\ same_but_sync n n' /\
    import_out (op_batch o) n n' l /\ (SyncSpec.op_imports (o, ne_sync (env (n_calls n))) = [] -> n_cache n' = n_cache n /\ Forall calm l).
Proof.
  intros N [A L] F. destruct (ni_sync _ _ N) as (sops & xs & R & Ep & Fs).
  set (oe := (o, ne_sync (env (n_calls n)))).
  assert (Ei : SyncSpec.imports (sops ++ [oe]) = SyncSpec.imports sops ++ SyncSpec.op_imports oe).
  { rewrite SyncFacts.imports_app. f_equal. unfold SyncSpec.imports. cbn. by rewrite app_nil_r. }
  assert (Ep2 : presented (SyncSpec.imports (sops ++ [oe])) = hs ++ op_headers o).
  { rewrite Ei, presented_app, Ep. f_equal. unfold presented, inputs, SyncSpec.op_imports. subst oe. cbn. destruct o; cbn; try done; by rewrite app_nil_r. }
  assert (F2 : fair (SyncSpec.imports (sops ++ [oe]))).
  { unfold fair, inputs in *. rewrite Ei, map_app, concat_app. apply Forall_app. split; [done|].
    unfold SyncSpec.op_imports. subst oe. cbn. destruct o; cbn; try constructor; rewrite app_nil_r; exact F. }
  rewrite <- Ep2 in A, L.
  assert (T : exists r, SyncModel.sync_step H scf oe (n_sync n, n_cache n) = Val r).
  { destruct (SyncFacts.run_imports H scf _ _ _ _ _ _ R) as (hist & outs & Sub & Rh).
    assert (Sub2 : SyncSpec.imports sops `sublist_of` SyncSpec.imports (sops ++ [oe])) by (rewrite Ei; by apply sublist_inserts_r).
    eapply (SyncFacts.step_total H ng scf st ps cps c0 Hps oe _ _ hist outs sops); try done.
    eapply (SyncFacts.hist_reachable H ng st ps cps c0); try done. by eapply (SyncFacts.acyclic_sub H st). }
  destruct T as [[[s' c'] x] E]. unfold call_sync. fold oe. rewrite E. cbn [mbind_M].
  eexists _, _. split; [reflexivity|]. split; [|split; [done|]].
  - constructor; cbn [n_sync n_cache n_cbf n_inv]; try apply N. exists (sops ++ [oe]), (xs ++ [x]). split; [|done].
    rewrite SyncFacts.sync_run_snoc, R. cbn [mbind_M]. by rewrite E.
  - cbn [n_cache]. pose proof (SyncFacts.step_import H scf _ _ _ _ _ _ E) as [[-> Fx]|(hds & s1 & x1 & y & r & Eo & Im & -> & _ & _ & Fy)].
    + assert (Forall calm (flat_map (sync_io sock) x)).
      { apply calm_flat. intros z Hz. rewrite Forall_forall in Fx. specialize (Fx _ Hz). apply calm_sync. by destruct z. }
      split; [|done]. by left.
    + split; [|unfold oe in *; by rewrite Eo].
      destruct (SyncFacts.step_transition H ng scf st ps cps c0 E0 L0 oe sops _ _ _ _ _ _ _ _ R A F2 Eo Im) as [hist T].
      assert (Eb : op_batch o = hds).
      { unfold oe, SyncSpec.op_imports in Eo. cbn [fst snd] in Eo. by destruct o; try done; injection Eo as <-. }
      rewrite Eb. right. exists hist, (SyncModel.se_block_time oe.2), r. split; [done|].
      assert (Cy : Forall calm (flat_map (sync_io sock) y)).
      { apply calm_flat. intros z Hz. specialize (Fy _ Hz). apply calm_sync. by destruct z. }
      unfold SyncModel.sync_import in Im. destruct (import_blocks H (n_cache n) hds _) as [[c1 r1]|]; [cbn [mbind_M] in Im|done].
      injection Im as <- <- ->. destruct r as [[tip k h rv cn|]|]; [|done..].
      rewrite flat_map_app. eexists. rewrite !flat_map_app, !flat_map_fmap. cbn [sync_io]. rewrite !flat_single. cbn [flat_map sync_io app].
      rewrite <- !app_assoc. cbn [app]. split; [reflexivity|]. apply Forall_app. split; [|done].
      apply calm_flat. intros z Hz. apply calm_sync. destruct z; try done.
      by apply SyncMain.broadcast_blame in Hz as (? & ? & ?).
Qed.

Lemma call_inv_spec o n hs : NI hs n ->
  match call_inv sock o n with
  | Val (n', l) => NI hs n' /\ n_cache n' = n_cache n /\ n_cbf n' = n_cbf n /\ Forall calm l
  | Panic p => p = PAssert 169 /\ exists b hof, o = InvModel.IBlock b hof
  end.
Proof.
  intros N. unfold call_inv. destruct (InvModel.inv_step o (n_inv n)) as [[i x]|p] eqn:E; cbn [mbind_M].
  - split; [|split; [done|split; [done|]]].
    + destruct N as [A B C D]. constructor; cbn [n_sync n_cache n_cbf n_inv]; try done. by eapply InvProofs.inv_step_ok.
    + apply calm_flat. intros. apply calm_inv.
  - eapply InvProofs.inv_panics; [apply N|exact E].
Qed.

Lemma get_blocks_ok l : forall i i' y, InvProofs.inv_ok i -> get_blocks l i = (i', y) -> InvProofs.inv_ok i'.
Proof.
  induction l as [|o l IH]; intros i i' y Ok; cbn [get_blocks]; [by intros [= <- <-]|].
  destruct o; try (by apply IH). destruct (InvModel.get_block hash i) as [i1 x1] eqn:E. destruct (get_blocks l i1) as [i2 x2] eqn:E2.
  intros [= <- <-]. eapply IH; [|exact E2]. eapply (InvProofs.inv_step_ok (InvModel.IGetBlock hash)); [exact Ok|]. cbn [InvModel.inv_step]. by rewrite E.
Qed.

Definition cbf_input (n : node) (o : CbfModel.cbf_op) : CbfSpec.input :=
  CbfSpec.Input (ne_cbf (env (n_calls n))) (SyncModel.se_now (ne_sync (env (n_calls n)))) (tree n) o.

Lemma call_cbf_spec o n hs : NI hs n -> cbf_safe (cbf_input n o) (n_cbf n) ->
  match call_cbf H P sock env o n with
  | Val (n', l) => NI hs n' /\ n_cache n' = n_cache n /\ fh n' <= th n /\ Forall calm l
  | Panic p =>
      (p = PAssert 449 /\ exists a b, o = CbfModel.CRequestFilters a b /\ fh n < b) \/
      (p = PAssert 707 /\ (exists from stop_hash prev hashes, o = CbfModel.CCFHeaders from 0 stop_hash prev hashes) /\
       CbfModel.r_active (CbfModel.c_rescan (n_cbf n)) = true /\ CbfModel.c_peers (n_cbf n) = ∅)
  end.
Proof.
  intros N S. unfold call_cbf. destruct (Io (n_calls n)) as [I1 I2].
  change (CbfModel.cbf_step P (ne_cbf (env (n_calls n))) (SyncModel.se_now (ne_sync (env (n_calls n)))) (tree n) o (n_cbf n))
    with (CbfSpec.step_on P (cbf_input n o) (n_cbf n)).
  destruct (CbfSpec.step_on P (cbf_input n o) (n_cbf n)) as [[s x]|p] eqn:E; cbn [mbind_M].
  - destruct (get_blocks x (n_inv n)) as [i y] eqn:G. split; [|split; [done|split]].
    + constructor; cbn [n_sync n_cache n_cbf n_inv]; [apply N|..].
      * eapply CbfMain.step_ok; [|exact E]. apply N.
      * eapply (CbfMain.step_store P cap); [|exact E|done|]; apply N.
      * eapply get_blocks_ok; [|exact G]. apply N.
    + cbn [n_cbf]. exact (safe_heights P cap (cbf_input n o) _ _ _ (ni_cbf _ _ N) E S I2).
    + apply Forall_app. split; apply calm_flat; intros; [apply calm_cbf|apply calm_inv].
  - exact (safe_panic P cap (cbf_input n o) _ _ (ni_cbf _ _ N) (ni_store _ _ N) S (conj I1 I2) E).
Qed.

(** A block is only taken off the pending ones. *)
Lemma call_cbf_disconnected h n hs : NI hs n ->
  exists n', call_cbf H P sock env (CbfModel.CBlockDisconnected h) n = Val (n', []) /\ NI hs n' /\ n_cache n' = n_cache n /\ fh n' = fh n.
Proof.
  intros N. eexists. split; [reflexivity|]. split; [|done]. destruct N as [A B C D]. constructor; try done. cbn [n_cbf].
  exact (CbfMain.step_ok P cap (cbf_input n (CbfModel.CBlockDisconnected h)) _ _ _ B eq_refl).
Qed.

(** ** Parts of a step that do not change the chain *)
Definition good (hs : list header) (c : cache) (E : node -> panic -> Prop) (f : node -> M (node * list (comp * io))) : Prop :=
  forall n, NI hs n -> n_cache n = c -> fh n <= th n ->
  match f n with
  | Val (n', l) => NI hs n' /\ n_cache n' = c /\ fh n' <= th n' /\ Forall calm l
  | Panic p => E n p
  end.
Lemma good_both hs c Ef Eg f g : good hs c Ef f -> good hs c Eg g ->
  good hs c (fun n p => Ef n p \/ exists n', Eg n' p) (both f g).
Proof.
  intros Gf Gg n N C L. unfold both. specialize (Gf n N C L). destruct (f n) as [[n1 l1]|p]; cbn [mbind_M]; [|by left].
  destruct Gf as (N1 & C1 & L1 & F1). specialize (Gg n1 N1 C1 L1). destruct (g n1) as [[n2 l2]|p]; cbn [mbind_M]; [|right; by exists n1].
  destruct Gg as (N2 & C2 & L2 & F2). do 3 (split; [done|]). by apply Forall_app.
Qed.
Lemma good_weaken hs c (E E' : node -> panic -> Prop) f : (forall n p, E n p -> E' n p) -> good hs c E f -> good hs c E' f.
Proof. intros W G n N C L. specialize (G n N C L). destruct (f n) as [[? ?]|p]; [done|by apply W]. Qed.
Lemma good_skip hs c E : good hs c E (fun n => Val (n, [])).
Proof. intros n N C L. done. Qed.

Lemma good_sync hs c o : bounded hs -> match o with SyncModel.SHeaders _ _ | SyncModel.SImport _ => False | _ => True end ->
  good hs c (fun _ _ => False) (call_sync H scf sock env o).
Proof.
  intros B Ho n N C L. assert (Eh : op_headers o = []) by (by destruct o).
  destruct (call_sync_spec o n hs N) as (n' & l & E & N' & [S1 S2] & _ & Q); [by rewrite Eh, app_nil_r|destruct o; try done; by apply Forall_nil|].
  rewrite E. rewrite Eh, app_nil_r in N'. destruct Q as [Q1 Q2]; [by destruct o|]. split; [done|]. split; [congruence|].
  rewrite S1, Q1. done.
Qed.
Lemma good_inv hs c o : good hs c (fun _ p => p = PAssert 169 /\ exists b hof, o = InvModel.IBlock b hof) (call_inv sock o).
Proof.
  intros n N C L. pose proof (call_inv_spec o n hs N) as Q. destruct (call_inv sock o n) as [[n' l]|p]; [|done].
  destruct Q as (Q1 & Q2 & Q3 & Q4). split; [done|]. split; [congruence|]. by rewrite Q3, Q2.
Qed.
Lemma good_cbf hs c o : (forall rev h, o = CbfModel.CImported rev -> last rev = Some h -> h - 1 <= CbfModel.tr_height (tree_of H c)) ->
  good hs c (fun n p =>
      (p = PAssert 449 /\ exists a b, o = CbfModel.CRequestFilters a b /\ fh n < b) \/
      (p = PAssert 707 /\ (exists from stop_hash prev hashes, o = CbfModel.CCFHeaders from 0 stop_hash prev hashes) /\
       CbfModel.r_active (CbfModel.c_rescan (n_cbf n)) = true /\ CbfModel.c_peers (n_cbf n) = ∅)) (call_cbf H P sock env o).
Proof.
  intros S n N C L. pose proof (call_cbf_spec o n hs N) as Q. destruct (call_cbf H P sock env o n) as [[n' l]|p].
  - destruct Q as (Q1 & Q2 & Q3 & Q4). { split; [by rewrite <- C in S|by left]. }
    split; [done|]. split; [congruence|]. by rewrite Q2.
  - apply Q. split; [by rewrite <- C in S|by left].
Qed.

(** ** Events *)
Definition ev_run (e : nev) : node -> M (node * list (comp * io)) :=
  both (on_event H scf P sock env CCbf e) (both (on_event H scf P sock env CInv e) (on_event H scf P sock env CSync e)).

Lemma queue_app (l l' : list (comp * io)) : forall b, queue (l ++ l') b = queue l' (queue l b).
Proof. induction l as [|[c x] l IH]; intros b; cbn [queue app]; [done|]. apply IH. Qed.

Lemma event_run e s : event (on_event H scf P sock env) e s =
  ('(n, l) <-- ev_run e (f_state s) ;; Val (Fsm n (queue l (f_box s)), l)).
Proof.
  unfold event, receivers, ev_run, both. cbn [deliver].
  destruct (on_event H scf P sock env CCbf e (f_state s)) as [[n1 l1]|p]; cbn [mbind_M f_state f_box]; [|done].
  change (on_event H scf P sock env CPing e n1) with (@Val (node * list (comp * io)) (n1, [])). cbn [mbind_M f_state f_box queue].
  destruct (on_event H scf P sock env CInv e n1) as [[n2 l2]|p]; cbn [mbind_M f_state f_box]; [|done].
  destruct (on_event H scf P sock env CSync e n2) as [[n3 l3]|p]; cbn [mbind_M f_state f_box]; [|done].
  change (on_event H scf P sock env CAddr e n3) with (@Val (node * list (comp * io)) (n3, [])). cbn [mbind_M f_state f_box queue].
  change (on_event H scf P sock env CPeer e n3) with (@Val (node * list (comp * io)) (n3, [])). cbn [mbind_M f_state f_box queue].
  by rewrite !queue_app, !app_nil_r.
Qed.

(** The events that managers handle without changing the chain. *)
Definition ev_ok (t : CbfModel.tree) (e : nev) : Prop :=
  match e with
  | EvMessage _ (MHeaders _) => False
  | EvSync (SyncModel.SoImported _ _ _ rv _) => forall h, last rv.*1 = Some h -> h - 1 <= CbfModel.tr_height t
  | _ => True
  end.
Definition ev_panic (e : nev) (n : node) (p : panic) : Prop :=
  match e with
  | EvMessage from (MCFHeaders 0 stop prev hs) => p = PAssert 707 /\
      CbfModel.r_active (CbfModel.c_rescan (n_cbf n)) = true /\ CbfModel.c_peers (n_cbf n) = ∅
  | EvMessage from (MBlock b) => p = PAssert 169
  | _ => False
  end.

Lemma good_event hs c e : bounded hs -> ev_ok (tree_of H c) e -> good hs c (ev_panic e) (ev_run e).
Proof.
  intros B Ve. unfold ev_run.
  assert (Gs : good hs c (fun _ _ => False) (on_event H scf P sock env CSync e)).
  { intros n N C L. unfold on_event. destruct (sync_event env e n) as [o|] eqn:Eo; [|exact (conj N (conj C (conj L (Forall_nil_2 _))))].
    apply (good_sync hs c); try done. destruct e as [| |a []| | |]; cbn in Eo; try done; by injection Eo as <-. }
  assert (Gi : good hs c (fun _ p => p = PAssert 169 /\ exists from b, e = EvMessage from (MBlock b)) (on_event H scf P sock env CInv e)).
  { intros n N C L. unfold on_event. destruct (inv_event H e n) as [o|] eqn:Eo; [|exact (conj N (conj C (conj L (Forall_nil_2 _))))].
    pose proof (good_inv hs c o n N C L) as G. destruct (call_inv sock o n) as [[? ?]|p]; [done|]. destruct G as [-> (b & hof & ->)]. split; [done|].
    destruct e as [| |a []|[]| |]; cbn in Eo; try done. eauto. }
  assert (Gc : good hs c (fun n p => p = PAssert 707 /\ (exists from stop prev hs, e = EvMessage from (MCFHeaders 0 stop prev hs)) /\
      CbfModel.r_active (CbfModel.c_rescan (n_cbf n)) = true /\ CbfModel.c_peers (n_cbf n) = ∅) (on_event H scf P sock env CCbf e)).
  { intros n N C L. unfold on_event. destruct (cbf_event e) as [o|] eqn:Eo; [|exact (conj N (conj C (conj L (Forall_nil_2 _))))].
    assert (Sf : forall rev h, o = CbfModel.CImported rev -> last rev = Some h -> h - 1 <= CbfModel.tr_height (tree_of H c)).
    { intros rev h -> El. destruct e as [| |a []|[]| |[| | |? []| | |]]; cbn in Eo; try done. injection Eo as <-. by apply Ve. }
    pose proof (good_cbf hs c o Sf n N C L) as G. destruct (call_cbf H P sock env o n) as [[? ?]|p]; [done|].
    destruct G as [(_ & a & b & -> & _)|(-> & (from & stop & prev & hs' & ->) & A1 & A2)].
    - exfalso. destruct e as [| |? []|[]| |[| | |? []| | |]]; cbn in Eo; done.
    - split; [done|]. split; [|done]. destruct e as [| |? []|[]| |[| | |? []| | |]]; cbn in Eo; try done. injection Eo as -> -> -> -> ->. eauto. }
  eapply good_weaken; [|apply good_both; [exact Gc|apply good_both; [exact Gi|exact Gs]]].
  intros n p [(-> & (from & stop & prev & hs' & ->) & A1 & A2)|(n' & [(-> & from & b & ->)|(? & [])])]; done.
Qed.

(** ** Outboxes *)
Notation by_comp c l := (flat_map (fun p : comp * io => if decide (p.1 = c) then [p.2] else []) l).
Definition box_ok (t : CbfModel.tree) (x : io) : Prop :=
  match x with
  | IoEvent (EvMessage _ _) => False
  | IoEvent e => ev_ok t e
  | _ => True
  end.
Definition BI (t : CbfModel.tree) (b : comp -> list io) : Prop := forall c x, x ∈ b c -> box_ok t x.

Lemma calm_box t p : calm p -> box_ok t p.2.
Proof. intros [_ C]. destruct p as [c [| | | |e]]; try done. destruct e as [| | |[]| |]; done. Qed.
Lemma elem_by_comp c x (l : list (comp * io)) : x ∈ by_comp c l -> (c, x) ∈ l.
Proof.
  induction l as [|[c' y] l IH]; [by intros ?%elem_of_nil|]. rewrite elem_of_cons. cbn [flat_map fst snd].
  rewrite elem_of_app. intros [Hx|Hx]; [|by right; apply IH].
  left. destruct (decide (c' = c)) as [->|]; [|by apply elem_of_nil in Hx]. apply elem_of_list_singleton in Hx. by subst.
Qed.
Lemma BI_queue t b l : BI t b -> Forall (fun p => box_ok t p.2) l -> BI t (queue l b).
Proof.
  intros B F c x. rewrite queue_box, elem_of_app. intros [?|Hx%elem_by_comp]; [by apply (B c)|]. rewrite Forall_forall in F. by apply (F (c, x)).
Qed.
Lemma BI_calm t b l : BI t b -> Forall calm l -> BI t (queue l b).
Proof. intros B F. apply BI_queue; [done|]. eapply Forall_impl; [exact F|]. intros p. apply calm_box. Qed.

Lemma take_first_elem cs (b : comp -> list io) c x b' : take_first cs b = Some (c, x, b') ->
  x ∈ b c /\ forall c' y, y ∈ b' c' -> y ∈ b c'.
Proof.
  induction cs as [|c1 cs IH]; cbn [take_first]; [done|]. destruct (b c1) as [|y rest] eqn:E; [by apply IH|].
  intros [= <- <- <-]. split; [rewrite E; left|]. intros c' z. cbn. destruct (decide (c1 = c')) as [<-|]; [|done]. rewrite E. by right.
Qed.

(** ** Steps that do not import headers *)
Definition nstep := node_step H scf P sock env magic.

Definition strong (hs : list header) (s : state) : Prop :=
  NI hs (f_state s) /\ BI (tree (f_state s)) (f_box s) /\ fh (f_state s) <= th (f_state s).

Lemma good_input hs (s : state) (f : node -> M (node * list (comp * io))) E : strong hs s -> good hs (n_cache (f_state s)) E f ->
  match fstep (on_event H scf P sock env) magic (FInput f) s with
  | Val (s', _) => strong hs s' /\ n_cache (f_state s') = n_cache (f_state s)
  | Panic p => E (f_state s) p
  end.
Proof.
  intros (N & B & L) G. cbn [fstep]. specialize (G _ N eq_refl L). destruct (f (f_state s)) as [[n l]|p]; cbn [mbind_M]; [|done].
  destruct G as (N' & C' & L' & F'). split; [|done]. split; [done|]. split; [|done]. cbn [f_state f_box]. rewrite C'. by apply BI_calm.
Qed.

Lemma quiet_step o s hs : strong hs s -> bounded hs -> presents o = false ->
  match nstep o s with
  | Val (s', t) => strong hs s' /\ n_cache (f_state s') = n_cache (f_state s)
  | Panic p => known_panic s o p
  end.
Proof.
  intros S B Io'. unfold nstep, node_step.
  assert (Gc : forall o, (forall rev, o <> CbfModel.CImported rev) -> (forall a b, o <> CbfModel.CRequestFilters a b) ->
    (forall a b c d e, o <> CbfModel.CCFHeaders a b c d e) -> good hs (n_cache (f_state s)) (fun _ _ => False) (call_cbf H P sock env o)).
  { intros q H1 H2 H3. eapply good_weaken; [|apply good_cbf; intros; by exfalso; eapply H1].
    intros n p [(_ & a & b & E & _)|(_ & (a & b & c & d & E) & _)]; [by eapply H2|by eapply H3]. }
  assert (Gi : forall o, (forall b hof, o <> InvModel.IBlock b hof) -> good hs (n_cache (f_state s)) (fun _ _ => False) (call_inv sock o)).
  { intros q H1. eapply good_weaken; [|apply good_inv]. intros n p (_ & b & hof & E). by eapply H1. }
  destruct o as [|e|from m| |hds|a b w|w|a b|h|t|]; cbn [nop_fop]; try done.
  - pose proof (good_input hs s _ _ S (good_both hs _ _ _ _ _ (good_sync hs _ SyncModel.SInitialize B I) (Gc CbfModel.CInitialize ltac:(done) ltac:(done) ltac:(done)))) as G.
    destruct (fstep _ _ _ s) as [[s' t]|p]; [done|]. by destruct G as [[]|[? []]].
  - destruct S as (N & Bx & L). destruct e; cbn [fstep mbind_M]; (split; [|done]); (split; [done|]); (split; [|done]); cbn [f_state f_box];
      (apply BI_queue; [done|]); by apply Forall_singleton.
  - cbn [fstep]. rewrite event_run. destruct S as (N & Bx & L).
    assert (Ve : ev_ok (tree (f_state s)) (EvMessage from m)) by (by destruct m).
    pose proof (good_event hs (n_cache (f_state s)) (EvMessage from m) B Ve _ N eq_refl L) as G.
    destruct (ev_run (EvMessage from m) (f_state s)) as [[n l]|p]; cbn [mbind_M].
    + destruct G as (N' & C' & L' & F'). split; [|done]. split; [done|]. split; [|done]. cbn [f_state f_box]. rewrite C'. by apply BI_calm.
    + destruct m as [| | | |b| |ty stop prev hs'| | |]; cbn in G; try done.
      * right. right. eauto.
      * destruct ty; [|done]. destruct G as (-> & G1 & G2). right. left. split; [done|]. by exists from, stop, prev, hs'.
  - set (tm := InvModel.ITimer (SyncModel.se_now (ne_sync (env (n_calls (f_state s))))) (th (f_state s)) (ne_pick (env (n_calls (f_state s))))).
    pose proof (good_input hs s (both (call_inv sock tm)
        (both (call_sync H scf sock env SyncModel.STimer) (call_cbf H P sock env CbfModel.CTimer))) _ S
      (good_both hs _ _ _ _ _ (Gi tm ltac:(done)) (good_both hs _ _ _ _ _ (good_sync hs _ SyncModel.STimer B I) (Gc CbfModel.CTimer ltac:(done) ltac:(done) ltac:(done))))) as G.
    cbn [fstep] in G |- *. fold tm. destruct (both _ _ (f_state s)) as [[s' t]|p]; cbn [mbind_M] in G |- *; [done|]. by destruct G as [[]|[? [[]|[? []]]]].
  - pose proof (good_input hs s _ _ S (Gc (CbfModel.CRescan a b w) ltac:(done) ltac:(done) ltac:(done))) as G.
    destruct (fstep _ _ _ s) as [[s' t]|p]; done.
  - pose proof (good_input hs s _ _ S (Gc (CbfModel.CWatch w) ltac:(done) ltac:(done) ltac:(done))) as G.
    destruct (fstep _ _ _ s) as [[s' t]|p]; done.
  - pose proof (good_input hs s _ _ S (good_cbf hs _ (CbfModel.CRequestFilters a b) ltac:(done))) as G.
    destruct (fstep _ _ _ s) as [[s' t]|p]; [done|]. destruct G as [(-> & a' & b' & [= <- <-] & Hb)|(_ & (? & ? & ? & ? & ?) & _)]; [|done].
    left. split; [done|]. by exists a, b.
  - pose proof (good_input hs s _ _ S (Gi (InvModel.IGetBlock h) ltac:(done))) as G.
    destruct (fstep _ _ _ s) as [[s' t]|p]; done.
  - pose proof (good_input hs s _ _ S (good_both hs _ _ _ _ _ (Gc (CbfModel.CWatchTx (t_id t) (t_outs t).*2) ltac:(done) ltac:(done) ltac:(done)) (Gi (InvModel.IAnnounce t) ltac:(done)))) as G.
    destruct (fstep _ _ _ s) as [[s' t']|p]; [done|]. by destruct G as [[]|[? []]].
  - cbn [fstep]. unfold next. destruct (take_first sources (f_box s)) as [[[c x] b]|] eqn:E; cbn [mbind_M]; [|done].
    apply take_first_elem in E as [Hx Hb]. destruct S as (N & Bx & L). assert (B' : BI (tree (f_state s)) b) by (intros c' y Hy; by apply (Bx c'), Hb).
    specialize (Bx _ _ Hx). destruct x as [| | | |e]; cbn [stamp mbind_M]; try done.
    rewrite event_run. cbn [f_state f_box]. assert (Ve : ev_ok (tree (f_state s)) e) by (by destruct e).
    pose proof (good_event hs (n_cache (f_state s)) e B Ve _ N eq_refl L) as G.
    destruct (ev_run e (f_state s)) as [[n l]|p]; cbn [mbind_M].
    + destruct G as (N' & C' & L' & F'). split; [|done]. split; [done|]. split; [|done]. cbn [f_state f_box]. rewrite C'. by apply BI_calm.
    + by destruct e.
Qed.

(** ** Steps that import headers *)
Lemma with_choices_fst n hds : map fst (with_choices env n hds) = hds.
Proof.
  unfold with_choices. apply list_eq. intros i. change (map fst) with (fmap fst : list (header * choice) -> list header).
  rewrite list_lookup_fmap, list_lookup_imap. by destruct (hds !! i).
Qed.
Lemma with_choices_fair n hds : Forall (fun x => fair_choice x.2) (with_choices env n hds).
Proof.
  apply Forall_forall. intros [hd ch] Hx. apply elem_of_list_lookup in Hx as [i Hi]. unfold with_choices in Hi.
  rewrite list_lookup_imap in Hi. destruct (hds !! i); [|done]. injection Hi as <- <-. apply Fenv.
Qed.

Lemma import_step o s hs : NI hs (f_state s) -> bounded (hs ++ headers_of o) -> presents o = true ->
  exists s' l t, nstep o s = Val (s', fqueued l ++ t) /\ (forall c x, FQueued c x ∉ t) /\ NI (hs ++ headers_of o) (f_state s') /\
    n_cbf (f_state s') = n_cbf (f_state s) /\ f_box s' = queue l (f_box s) /\
    import_out (with_choices env (f_state s) (headers_of o)) (f_state s) (f_state s') l.
Proof.
  intros N B Io'. unfold nstep, node_step. destruct o as [| |from []| |hds| | | | | |]; try done; cbn [nop_fop fstep headers_of] in *.
  - rewrite event_run. unfold ev_run, both. cbn [on_event cbf_event inv_event sync_event mbind_M].
    destruct (call_sync_spec (SyncModel.SHeaders from (with_choices env (f_state s) hds)) (f_state s) hs N) as (n' & l & E & N' & [S1 S2] & O & _).
    { unfold op_headers. cbn [op_batch]. by rewrite with_choices_fst. } { apply with_choices_fair. }
    unfold op_headers in N'. cbn [op_batch] in N', O. rewrite with_choices_fst in N'. rewrite E. cbn [mbind_M app].
    eexists _, l, _. split; [reflexivity|]. split; [|done]. intros c x Hx. by apply elem_of_list_singleton in Hx.
  - destruct (call_sync_spec (SyncModel.SImport (with_choices env (f_state s) hds)) (f_state s) hs N) as (n' & l & E & N' & [S1 S2] & O & _).
    { unfold op_headers. cbn [op_batch]. by rewrite with_choices_fst. } { apply with_choices_fair. }
    unfold op_headers in N'. cbn [op_batch] in N', O. rewrite with_choices_fst in N'. rewrite E. cbn [mbind_M].
    eexists _, l, []. split; [by rewrite app_nil_r|]. split; [|done]. intros c x Hx. by apply elem_of_nil in Hx.
Qed.

Lemma queue_import t l rv cn b k h y (bx : comp -> list io) : BI t bx ->
  (forall h, last rv.*1 = Some h -> h - 1 <= CbfModel.tr_height t) -> Forall calm y ->
  l = map (fun p => (CSync, IoEvent (EvSync (SyncModel.SoDisconnected p.1 p.2)))) rv ++
      map (fun p => (CSync, IoEvent (EvSync (SyncModel.SoConnected p.1 p.2)))) cn ++
      (CSync, IoEvent (EvSync (SyncModel.SoImported b k h rv cn))) :: y ->
  BI t (queue l bx).
Proof.
  intros B Hr Fy ->. apply BI_queue; [done|]. apply Forall_app. split; [|apply Forall_app; split; [|apply Forall_cons; split]].
  - apply Forall_forall. intros x Hx. apply elem_of_list_fmap in Hx as (z & -> & _). done.
  - apply Forall_forall. intros x Hx. apply elem_of_list_fmap in Hx as (z & -> & _). done.
  - exact Hr.
  - eapply Forall_impl; [exact Fy|]. intros p. apply calm_box.
Qed.

Lemma BI_mono t t' b : BI t b -> CbfModel.tr_height t <= CbfModel.tr_height t' -> BI t' b.
Proof.
  intros B L c x Hx. specialize (B c x Hx). destruct x as [| | | |e]; try done. destruct e as [| | |o| |]; try done. destruct o; try done.
  intros h0 Hh. specialize (B h0 Hh). lia.
Qed.

Lemma reverted_below hist c hds now c' tip k h rv cn : transition H ng st ps cps hist c (OImport hds now) c' (Ok (TipChanged tip k h rv cn)) ->
  forall h', last rv.*1 = Some h' -> h' <= c_height c.
Proof.
  intros T h' El. pose proof (batch_report_facts H ng st ps cps Hps _ _ _ _ _ _ T) as (_ & _ & _ & _ & _ & _ & R).
  destruct (trans_inv H ng st ps cps Hps _ _ _ _ _ T) as (rank & tl & tl' & I & _).
  apply last_Some_elem_of, elem_of_list_fmap in El as ([h1 x] & -> & Hx). destruct (R _ _ Hx) as [Ha _]. cbn [fst].
  rewrite (inv_active I) in Ha. rewrite (inv_height I). apply lookup_lt_Some in Ha. unfold lenN. cbn [length] in Ha. lia.
Qed.

(** The height does not go down. *)
Lemma import_up o s hs s' t : strong hs s -> bounded (hs ++ headers_of o) -> bounded hs -> presents o = true ->
  nstep o s = Val (s', t) -> height_of s <= height_of s' -> strong (hs ++ headers_of o) s'.
Proof.
  intros (N & Bx & L) B B0 Im E Up. destruct (import_step o s hs N B Im) as (s1 & l & t1 & E1 & _ & N' & Ec & Eb & O).
  rewrite E in E1. injection E1 as <- _. unfold height_of in Up. rewrite <- (ni_height hs _ N B0), <- (ni_height _ _ N' B) in Up.
  split; [done|]. rewrite Ec, Eb. split; [|lia].
  destruct O as [[C F]|(hist & now & r & T & O)]; [rewrite C; by apply BI_calm|].
  destruct r as [[tip k h rv cn|]|]; [|apply BI_calm; [by eapply BI_mono|done]..].
  destruct O as (y & -> & Fy). eapply queue_import; [by eapply BI_mono| |exact Fy|reflexivity].
  intros h' El. pose proof (reverted_below _ _ _ _ _ _ _ _ _ _ T h' El) as Hr. rewrite <- (ni_height hs _ N B0) in Hr. lia.
Qed.

(** ** Outputs taken before the next input *)
Definition told (x : io) : Prop :=
  match x with IoEvent (EvSync (SyncModel.SoDisconnected _ _)) | IoEvent (EvSync (SyncModel.SoConnected _ _)) => True | _ => False end.
(** The change of the chain is still to be reported to the filter manager. *)
Definition phase (s : state) : Prop :=
  f_box s CMain = [] /\ f_box s CPeer = [] /\
  exists pre b k h rv cn post h', f_box s CSync = pre ++ IoEvent (EvSync (SyncModel.SoImported b k h rv cn)) :: post /\
    Forall told pre /\ last rv.*1 = Some h'.
Definition weak (hs : list header) (s : state) : Prop :=
  NI hs (f_state s) /\ BI (tree (f_state s)) (f_box s) /\ (fh (f_state s) <= th (f_state s) \/ phase s).

Lemma calm_boxes l : Forall calm l -> by_comp CMain l = [] /\ by_comp CPeer l = [].
Proof.
  induction 1 as [|[c x] l [Hc _] F [IH1 IH2]]; [done|]. cbn [flat_map fst snd] in *. rewrite IH1, IH2.
  by destruct Hc as [ -> | [ -> | -> ] ].
Qed.
Lemma comp_map {A} (f : A -> io) c (l : list A) : by_comp c (map (fun p => (CSync, f p)) l) = if decide (CSync = c) then map f l else [].
Proof. destruct (decide (CSync = c)) as [<-|]; induction l as [|x l IH]; cbn [map flat_map fst snd]; try done; [rewrite decide_True by done; by rewrite IH|rewrite decide_False by done; by rewrite IH]. Qed.

Lemma phase_queue s n l : phase s -> Forall calm l -> phase (Fsm n (queue l (f_box s))).
Proof.
  intros (P1 & P2 & pre & b & k & h & rv & cn & post & h' & E & F & El) C. destruct (calm_boxes l C) as [C1 C2].
  unfold phase. cbn [f_box]. rewrite !queue_box, C1, C2, P1, P2, E. split; [done|]. split; [done|].
  exists pre, b, k, h, rv, cn, (post ++ by_comp CSync l), h'. split; [by rewrite <- app_assoc|done].
Qed.

Lemma strong_weak hs s : strong hs s -> weak hs s.
Proof. intros (N & B & L). split; [done|]. split; [done|]. by left. Qed.

Lemma import_settled o s hs s' t : strong hs s -> drained s -> bounded (hs ++ headers_of o) -> presents o = true ->
  nstep o s = Val (s', t) -> reported H s s' t -> weak (hs ++ headers_of o) s'.
Proof.
  intros (N & Bx & L) D B Im E [R1 R2]. destruct (import_step o s hs N B Im) as (s1 & l & t1 & E1 & T1 & N' & Ec & Eb & O).
  rewrite E in E1. injection E1 as <- ->. split; [done|]. rewrite Ec.
  assert (Q : Forall calm l -> tree (f_state s') = tree (f_state s)).
  { intros F. apply R2. intros b k h rv cn. rewrite elem_of_app. intros [Hx|Hx]; [|by eapply T1].
    unfold fqueued in Hx. apply elem_of_list_fmap in Hx as ([c x] & Heq & Hx). injection Heq as <- <-.
    rewrite Forall_forall in F. by destruct (F _ Hx) as [_ ?]. }
  destruct O as [[C F]|(hist & now & r & T & O)].
  { rewrite Q by done. rewrite Eb. split; [by apply BI_calm|by left]. }
  destruct r as [[tip k h rv cn|]|]; [|rewrite Q by done; rewrite Eb; (split; [by apply BI_calm|by left])..].
  destruct O as (y & -> & Fy).
  assert (Re : CbfSpec.reorganises (tree (f_state s)) (tree (f_state s')) rv.*1).
  { eapply R1. apply elem_of_app. left. unfold fqueued. apply elem_of_list_fmap. eexists. split; [|apply elem_of_app; right; apply elem_of_app; right; left]. reflexivity. }
  set (i := CbfSpec.Input (ne_cbf (env 0)) 0 (tree (f_state s')) (CbfModel.CImported rv.*1)).
  assert (Ve : CbfMain.env_ok (tree (f_state s)) i) by exact Re.
  split.
  - rewrite Eb. eapply queue_import; [|  |exact Fy|reflexivity].
    + intros c x Hx. rewrite (D c) in Hx. by apply elem_of_nil in Hx.
    + intros h' El. apply (CbfMain.env_fork _ i _ _ Ve eq_refl El).
  - destruct (CbfMain.env_cases _ i (n_cbf (f_state s)) Ve L) as [?|(rev & h' & [= <-] & El & _ & _)]; [by left|right].
    unfold phase. rewrite Eb, !queue_box, !(D _), !flat_map_app. destruct (calm_boxes y Fy) as [C1 C2].
    cbn [flat_map fst snd]. rewrite C1, C2, !comp_map. split; [done|]. split; [done|].
    rewrite !decide_True by done. cbn [app].
    exists (map (fun p => IoEvent (EvSync (SyncModel.SoDisconnected p.1 p.2))) rv ++ map (fun p => IoEvent (EvSync (SyncModel.SoConnected p.1 p.2))) cn).
    eexists _, _, _, _, _, _, h'. split; [rewrite <- app_assoc; reflexivity|]. split; [|done].
    apply Forall_app. split; apply Forall_forall; intros x Hx; apply elem_of_list_fmap in Hx as (z & -> & _); done.
Qed.

Lemma take_sync (b : comp -> list io) x rest : b CMain = [] -> b CPeer = [] -> b CSync = x :: rest ->
  take_first sources b = Some (CSync, x, fun c' => if decide (CSync = c') then rest else b c').
Proof. intros E1 E2 E3. cbn [take_first sources]. by rewrite E1, E2, E3. Qed.

Lemma phase_next s hs : weak hs s -> bounded hs -> th (f_state s) < fh (f_state s) ->
  exists s' t, nstep NNext s = Val (s', t) /\ weak hs s' /\ n_cache (f_state s') = n_cache (f_state s).
Proof.
  intros (N & Bx & [L|Ph]) B Hl; [lia|]. destruct Ph as (P1 & P2 & pre & b & k & h & rv & cn & post & h' & Es & Fp & El).
  unfold nstep, node_step. cbn [nop_fop fstep]. unfold next.
  destruct pre as [|x pre]; cbn [app] in Es.
  - rewrite (take_sync _ _ _ P1 P2 Es). set (bx := fun c' => if decide (CSync = c') then post else f_box s c'). cbn [stamp]. rewrite event_run. cbn [f_state f_box].
    assert (Bx' : BI (tree (f_state s)) bx).
    { intros c y Hy. apply (Bx c). revert Hy. unfold bx. destruct (decide (CSync = c)) as [<-|]; [|done]. intros Hy. rewrite Es. by right. }
    assert (Hb : forall h, last rv.*1 = Some h -> h - 1 <= th (f_state s)).
    { assert (box_ok (tree (f_state s)) (IoEvent (EvSync (SyncModel.SoImported b k h rv cn)))) as Q by (apply (Bx CSync); rewrite Es; left). exact Q. }
    unfold ev_run, both. cbn [on_event cbf_event inv_event sync_event].
    pose proof (call_cbf_spec (CbfModel.CImported rv.*1) (f_state s) hs N) as Gc.
    destruct (call_cbf H P sock env (CbfModel.CImported rv.*1) (f_state s)) as [[n1 l1]|p]; cbn [mbind_M].
    2: { destruct Gc as [(_ & ? & ? & ? & _)|(_ & (? & ? & ? & ? & ?) & _)]; try done.
         split; [intros rev h0 [= <-]; apply Hb|]. right. exists rv.*1, h'. split; [done|]. split; [done|]. specialize (Hb _ El). lia. }
    destruct Gc as (N1 & C1 & L1 & F1).
    { split; [intros rev h0 [= <-]; apply Hb|]. right. exists rv.*1, h'. split; [done|]. split; [done|]. specialize (Hb _ El). lia. }
    pose proof (call_inv_spec (InvModel.IReverted rv.*1) n1 hs N1) as Gi.
    destruct (call_inv sock (InvModel.IReverted rv.*1) n1) as [[n2 l2]|p]; cbn [mbind_M]; [|by destruct Gi as (_ & ? & ? & ?)].
    destruct Gi as (N2 & C2 & K2 & F2). eexists _, _. split; [reflexivity|]. cbn [f_state]. split; [|congruence].
    split; [done|]. cbn [f_state f_box]. rewrite K2, C2, C1. split; [|by left].
    rewrite app_nil_r. apply BI_calm; [done|]. by apply Forall_app.
  - apply Forall_cons in Fp as [Tx Fp]. rewrite (take_sync _ _ _ P1 P2 Es).
    set (bx := fun c' => if decide (CSync = c') then pre ++ IoEvent (EvSync (SyncModel.SoImported b k h rv cn)) :: post else f_box s c').
    assert (Bx' : BI (tree (f_state s)) bx).
    { intros c y Hy. apply (Bx c). revert Hy. unfold bx. destruct (decide (CSync = c)) as [<-|]; [|done]. intros Hy. rewrite Es. by right. }
    assert (Ph' : forall n, phase (Fsm n bx)).
    { intros n. unfold phase. cbn [f_box]. unfold bx. rewrite !decide_False by done. rewrite decide_True by done. split; [done|]. split; [done|].
      by exists pre, b, k, h, rv, cn, post, h'. }
    destruct x as [| | | |e]; try done. destruct e as [| | |o| |]; try done. destruct o; try done; cbn [stamp]; rewrite event_run; cbn [f_state f_box];
      unfold ev_run, both; cbn [on_event cbf_event inv_event sync_event].
    + destruct (call_cbf_disconnected height (f_state s) hs N) as (n1 & -> & N1 & C1 & K1). cbn [mbind_M app queue].
      eexists _, _. split; [reflexivity|]. split; [|done]. split; [done|]. cbn [f_state f_box]. rewrite C1. split; [done|]. by right.
    + cbn [mbind_M app queue]. eexists _, _. split; [reflexivity|]. split; [|done]. split; [done|]. cbn [f_state f_box]. split; [done|]. by right.
Qed.

(** ** Runs *)
Lemma bounded_prefix a b : bounded (a ++ b) -> bounded a.
Proof.
  intros [[rank A] L]. split.
  - exists rank. rewrite app_assoc in A. by apply Forall_app in A as [A _].
  - unfold lenN in *. rewrite app_length in L. lia.
Qed.
Lemma headers_none o : presents o = false -> headers_of o = [].
Proof. by destruct o as [| |? []| | | | | | | |]. Qed.
Notation nrun := (node_run H scf P sock env magic).

Lemma step_up o s hs s' t : strong hs s -> bounded (hs ++ headers_of o) -> nstep o s = Val (s', t) -> height_of s <= height_of s' ->
  strong (hs ++ headers_of o) s'.
Proof.
  intros S B E Up. destruct (presents o) eqn:Im.
  - eapply import_up; try done. by eapply bounded_prefix.
  - rewrite (headers_none o Im), app_nil_r in *. pose proof (quiet_step o s hs S B Im) as Q. rewrite E in Q. apply Q.
Qed.
Lemma run_up os : forall s hs s' t, strong hs s -> bounded (hs ++ node_headers os) -> nrun os s = Val (s', t) -> never_drops nstep os s ->
  strong (hs ++ node_headers os) s'.
Proof.
  induction os as [|o os IH]; intros s hs s' t S B; cbn [node_run never_drops].
  - intros [= <- <-] _. unfold node_headers. cbn. by rewrite app_nil_r.
  - fold nstep. destruct (nstep o s) as [[s1 t1]|] eqn:E; [cbn [mbind_M]|done].
    destruct (nrun os s1) as [[s2 t2]|] eqn:R; [cbn [mbind_M]|done]. intros [= <- <-] [Up Nd].
    unfold node_headers in *. cbn [map concat] in *. rewrite app_assoc in *. eapply IH; [|done|exact R|done].
    eapply step_up; try done. by eapply bounded_prefix.
Qed.
Lemma step_panics o s hs p : strong hs s -> bounded (hs ++ headers_of o) -> nstep o s = Panic p -> known_panic s o p.
Proof.
  intros S B E. destruct (presents o) eqn:Im.
  - destruct (import_step o s hs) as (s1 & l & t & E1 & _); [apply S|done|done|]. congruence.
  - pose proof (quiet_step o s hs S (bounded_prefix _ _ B) Im) as Q. by rewrite E in Q.
Qed.

Lemma drained_strong hs s : weak hs s -> drained s -> strong hs s.
Proof.
  intros (N & B & [L|Ph]) D; [done|]. destruct Ph as (_ & _ & pre & b & k & h & rv & cn & post & h' & E & _). rewrite (D CSync) in E.
  by destruct pre.
Qed.
Lemma step_settled o s hs s' t : weak hs s -> bounded (hs ++ headers_of o) -> (o = NNext \/ drained s) -> nstep o s = Val (s', t) ->
  (presents o = true -> reported H s s' t) -> weak (hs ++ headers_of o) s'.
Proof.
  intros W B D E R. destruct (N.le_gt_cases (fh (f_state s)) (th (f_state s))) as [L|L].
  - assert (S : strong hs s) by (destruct W as (N & Bx & _); done). destruct (presents o) eqn:Im.
    + destruct D as [->|D]; [done|]. eapply import_settled; try done. by apply R.
    + rewrite (headers_none o Im), app_nil_r in *. pose proof (quiet_step o s hs S B Im) as Q. rewrite E in Q. by apply strong_weak, Q.
  - destruct D as [->|D]; [|pose proof (drained_strong _ _ W D) as (_ & _ & ?); lia].
    cbn [headers_of] in *. rewrite app_nil_r in *. destruct (phase_next s hs W B L) as (s1 & t1 & E1 & W1 & _). rewrite E in E1. by injection E1 as -> ->.
Qed.
Lemma run_settled os : forall s hs s' t, weak hs s -> bounded (hs ++ node_headers os) -> nrun os s = Val (s', t) ->
  settled nstep os s -> all_reported nstep H os s -> weak (hs ++ node_headers os) s'.
Proof.
  induction os as [|o os IH]; intros s hs s' t S B; cbn [node_run settled all_reported].
  - intros [= <- <-] _ _. unfold node_headers. cbn. by rewrite app_nil_r.
  - fold nstep. destruct (nstep o s) as [[s1 t1]|] eqn:E; [cbn [mbind_M]|done].
    destruct (nrun os s1) as [[s2 t2]|] eqn:R; [cbn [mbind_M]|done]. intros [= <- <-] [D Se] [Re Al].
    unfold node_headers in *. cbn [map concat] in *. rewrite app_assoc in *. eapply IH; [|done|exact R|done|done].
    eapply step_settled; try done. by eapply bounded_prefix.
Qed.
Lemma settled_panics o s hs p : weak hs s -> bounded (hs ++ headers_of o) -> (o = NNext \/ drained s) -> nstep o s = Panic p -> known_panic s o p.
Proof.
  intros W B D E. destruct (N.le_gt_cases (fh (f_state s)) (th (f_state s))) as [L|L].
  - assert (S : strong hs s) by (destruct W as (N & Bx & _); done). by eapply step_panics.
  - destruct D as [->|D]; [|pose proof (drained_strong _ _ W D) as (_ & _ & ?); lia].
    cbn [headers_of] in *. rewrite app_nil_r in *. destruct (phase_next s hs W B L) as (s1 & t1 & E1 & _). congruence.
Qed.

(** ** From the start *)
Context (fst0 : list (N * N)) (Hch : CbfSpec.chained P ((CbfModel.p_genesis P, CbfModel.p_header P (CbfModel.p_genesis P) 0) :: fst0))
  (Hle : lenN fst0 <= c_height c0).
Lemma start : bounded [] -> strong [] (node0 c0 (CbfModel.cbf0 cap fst0)).
Proof.
  intros B. assert (N : NI [] (f_state (node0 c0 (CbfModel.cbf0 cap fst0)))).
  { constructor; [| |done|].
    - exists [], []. split; [done|]. split; [done|]. by apply Forall_nil.
    - by apply CbfMain.cbf0_ok.
    - apply InvProofs.inv0_ok. }
  split; [done|]. split; [by intros c x ?%elem_of_nil|]. by rewrite (ni_height _ _ N B).
Qed.

Notation s0 := (node0 c0 (CbfModel.cbf0 cap fst0)).
Lemma node_headers_snoc os o : node_headers (os ++ [o]) = node_headers os ++ headers_of o.
Proof. unfold node_headers. rewrite map_app, concat_app. cbn. by rewrite app_nil_r. Qed.

Lemma up_heights os s t : bounded (node_headers os) -> nrun os s0 = Val (s, t) -> never_drops nstep os s0 ->
  filter_height_of s <= height_of s.
Proof.
  intros B R Nd. assert (B0 : bounded []) by (by apply (bounded_prefix [] (node_headers os))).
  pose proof (run_up os _ [] s t (start B0) B R Nd) as (N & _ & L). unfold filter_height_of, height_of. by rewrite <- (ni_height _ _ N B).
Qed.
Lemma up_panics os s t o p : bounded (node_headers (os ++ [o])) -> nrun os s0 = Val (s, t) -> never_drops nstep os s0 ->
  nstep o s = Panic p -> known_panic s o p.
Proof.
  rewrite node_headers_snoc. intros B R Nd E. assert (B1 : bounded (node_headers os)) by (by eapply bounded_prefix).
  assert (B0 : bounded []) by (by apply (bounded_prefix [] (node_headers os))).
  pose proof (run_up os _ [] s t (start B0) B1 R Nd) as S. by eapply step_panics.
Qed.
Lemma settled_heights os s t : bounded (node_headers os) -> nrun os s0 = Val (s, t) -> settled nstep os s0 -> all_reported nstep H os s0 ->
  drained s -> filter_height_of s <= height_of s.
Proof.
  intros B R Se Al D. assert (B0 : bounded []) by (by apply (bounded_prefix [] (node_headers os))).
  pose proof (run_settled os _ [] s t (strong_weak _ _ (start B0)) B R Se Al) as W. apply drained_strong in W as (N & _ & L); [|done].
  unfold filter_height_of, height_of. by rewrite <- (ni_height _ _ N B).
Qed.
Lemma settled_known os s t o p : bounded (node_headers (os ++ [o])) -> nrun os s0 = Val (s, t) -> settled nstep os s0 -> all_reported nstep H os s0 ->
  (o = NNext \/ drained s) -> nstep o s = Panic p -> known_panic s o p.
Proof.
  rewrite node_headers_snoc. intros B R Se Al D E. assert (B1 : bounded (node_headers os)) by (by eapply bounded_prefix).
  assert (B0 : bounded []) by (by apply (bounded_prefix [] (node_headers os))).
  pose proof (run_settled os _ [] s t (strong_weak _ _ (start B0)) B1 R Se Al) as W. by eapply settled_panics.
Qed.
End Node.
