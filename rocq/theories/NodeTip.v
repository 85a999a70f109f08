(** The chain of a node in any run: it is a chain that the header cache reaches,
    and what is reported of it is true of the state of the node. *)
From Verif Require Import Base PowModel BlockModel BlockSpec BlockMain BlockFacts BlockOrigin UtilModel FeeModel AddrModel PeerModel
  DispModel DispSpec DispProofs LoadModel NodeModel NodeSpec NodeTold NodeLog NodeProofs.
From Verif Require SyncModel SyncSpec SyncMain SyncFacts CbfModel CbfSpec InvModel InvSpec.
Open Scope N_scope.

Section Mute.
Context (H : header -> N) (scf : SyncModel.sconf) (P : CbfModel.params) (sock : N -> sockaddr) (env : nat -> nenv) (magic : N).
Notation io := (DispModel.io nmsg nev).

(** Messages are passed on as they come, never queued. *)
Definition mute (x : io) : Prop := match x with IoEvent (EvMessage _ _) => False | _ => True end.
Definition all_mute (s : state) : Prop := forall c x, x ∈ f_box s c -> mute x.
Lemma outs_mute cs p : p ∈ outs sock cs -> mute p.2.
Proof.
  unfold outs. rewrite elem_of_list_In, in_flat_map. intros (k & _ & I). destruct k as [oe x|o x|i x]; cbn [call_out] in I; apply in_flat_map in I as (y & _ & I);
    destruct y; cbn in I; repeat (destruct I as [<-|I]; [exact Logic.I|]); by destruct I.
Qed.
Lemma peer_outs_mute o p : p ∈ peer_outs o -> mute p.2.
Proof. destruct o as [|e| | | | | | | | |]; cbn [peer_outs]; try (by intros ?%elem_of_nil). destruct e; intros ->%elem_of_list_singleton; exact I. Qed.
Lemma in_fqueued c x (l : list (comp * io)) : FQueued c x ∈ fqueued l -> (c, x) ∈ l.
Proof. unfold fqueued. intros ([c' y] & [= -> ->] & I)%elem_of_list_fmap. exact I. Qed.
Lemma in_queued_by c x (t : list (fitem nmsg nev)) : x ∈ queued_by c t -> FQueued c x ∈ t.
Proof.
  unfold queued_by. rewrite elem_of_list_In, in_flat_map. intros (i & I & J). destruct i as [c' y|c' y|e]; try done.
  destruct (decide (c' = c)) as [->|]; [|done]. destruct J as [->|[]]. by apply elem_of_list_In.
Qed.
Lemma wired_mute x y : wired (Msg:=nmsg) (Ev:=nev) magic x = wired magic y -> mute x -> mute y.
Proof. destruct x, y; cbn; try done. by intros [= ->]. Qed.

Lemma step_mute o s s' x : node_step H scf P sock env magic o s = Val (s', x) -> all_mute s -> all_mute s'.
Proof.
  intros E A c z I. destruct (step_told _ _ _ _ _ _ _ _ _ _ E) as (cs & y & _ & Ex & _ & Q & _).
  pose proof (fstep_order _ _ _ _ _ _ E c) as O. assert (J : wired magic z ∈ map (wired magic) (f_box s c ++ queued_by c x)).
  { rewrite O. apply elem_of_app. right. by apply elem_of_list_fmap_1. }
  apply elem_of_list_fmap in J as (z' & Ez & J). eapply wired_mute; [symmetry; exact Ez|]. apply elem_of_app in J as [J|J]; [by apply (A c)|].
  apply in_queued_by in J. rewrite Ex in J. apply elem_of_app in J as [J|J]; [|by apply Q in J]. apply in_fqueued in J.
  apply elem_of_app in J as [J|J]; [exact (peer_outs_mute _ _ J)|exact (outs_mute _ _ J)].
Qed.
Lemma next_mute s s' x e : node_step H scf P sock env magic NNext s = Val (s', x) -> all_mute s -> announced x = [e] -> forall a m, e <> EvMessage a m.
Proof.
  unfold node_step. cbn [nop_fop fstep]. destruct (next (on_event H scf P sock env) magic s) as [[[s1 l] o]|] eqn:E; [|done]. cbn [mbind_M]. intros [= <- <-] A.
  rewrite announced_app, announced_fqueued. apply next_box in E. destruct o as [[c y]|]; [|done]. destruct E as (z & rest & B & -> & _). cbn.
  intros Q a m ->. assert (M : mute z) by (apply (A c); rewrite B; by left). destruct z; try done. injection Q as ->. exact M.
Qed.

(** The headers that the sync manager is given in a step. *)
Lemma sync_calls_app a b : sync_calls (a ++ b) = sync_calls a ++ sync_calls b.
Proof. apply omap_app. Qed.
Lemma event_imports e n cs op : event_calls H scf P env e n cs -> op ∈ SyncSpec.imports (sync_calls cs) ->
  exists a hds n2 t, e = EvMessage a (MHeaders hds) /\ op = OImport (with_choices env n2 hds) t.
Proof.
  intros (a & b & d & n1 & n2 & -> & _ & _ & Pa & Pb & Pd). apply part_cbf in Pa as (_ & [A _] & _). apply part_inv in Pb as (_ & [B _] & _).
  rewrite !sync_calls_app, A, B. cbn [app]. unfold sync_part in Pd. destruct (sync_event env e n2) as [so|] eqn:E.
  - destruct Pd as (x & ->). cbn. rewrite app_nil_r. destruct e as [| |a' m| | |]; try done; cbn in E; try (injection E as <-; by intros ?%elem_of_nil).
    destruct m; try done; injection E as <-; cbn; try (by intros ?%elem_of_nil). intros ->%elem_of_list_singleton. by eexists _, _, _, _.
  - subst d. by intros ?%elem_of_nil.
Qed.
Lemma step_imports o s s' x cs op : node_step H scf P sock env magic o s = Val (s', x) -> all_mute s -> step_calls H scf P env o (announced x) (f_state s) cs ->
  op ∈ SyncSpec.imports (sync_calls cs) -> exists n t, op = OImport (with_choices env n (headers_of o)) t.
Proof.
  intros E A S I. destruct o; cbn [step_calls] in S.
  - destruct S as (_ & a & b & n1 & -> & _ & (y & ->) & Pb). apply part_cbf in Pb as (_ & [B _] & _). rewrite sync_calls_app, B in I. by apply elem_of_nil in I.
  - destruct S as [-> _]. by apply elem_of_nil in I.
  - destruct S as [_ S]. destruct (event_imports _ _ _ _ S I) as (a & hds & n2 & t & [= -> ->] & ->). by exists n2, t.
  - destruct S as (_ & a & b & d & n1 & n2 & -> & _ & _ & Pa & (y & ->) & Pd). apply part_inv in Pa as (_ & [B _] & _). apply part_cbf in Pd as (_ & [D _] & _).
    rewrite !sync_calls_app, B, D in I. by apply elem_of_nil in I.
  - destruct S as (_ & y & ->). cbn in I. apply elem_of_list_singleton in I as ->. by eexists _, _.
  - destruct S as (_ & S). apply part_cbf in S as (_ & [B _] & _). rewrite B in I. by apply elem_of_nil in I.
  - destruct S as (_ & S). apply part_cbf in S as (_ & [B _] & _). rewrite B in I. by apply elem_of_nil in I.
  - destruct S as (_ & S). apply part_cbf in S as (_ & [B _] & _). rewrite B in I. by apply elem_of_nil in I.
  - destruct S as (_ & S). apply part_inv in S as (_ & [B _] & _). rewrite B in I. by apply elem_of_nil in I.
  - destruct S as (_ & a & b & n1 & -> & _ & Pa & Pb). apply part_cbf in Pa as (_ & [A1 _] & _). apply part_inv in Pb as (_ & [B _] & _). rewrite sync_calls_app, A1, B in I. by apply elem_of_nil in I.
  - destruct S as [[_ ->]|(e & Ee & S)]; [by apply elem_of_nil in I|]. destruct (event_imports _ _ _ _ S I) as (a & hds & n2 & t & -> & _). by destruct (next_mute _ _ _ _ E A Ee a (MHeaders hds)).
Qed.

Definition given (hs : list header) (op : op) : Prop := exists n hds t, op = OImport (with_choices env n hds) t /\ forall hd, hd ∈ hds -> hd ∈ hs.
Lemma told_imports os s css xs s' : NodeTold.told H scf P sock env magic os s css xs s' -> all_mute s ->
  all_mute s' /\ Forall (given (node_headers os)) (SyncSpec.imports (sync_calls (concat css))).
Proof.
  induction 1 as [s|o os s cs y x s1 css xs s' E X Ex An Q S T IH]; intros A; [split; [done|apply Forall_nil; exact I]|].
  destruct (IH (step_mute _ _ _ _ E A)) as [A' F]. split; [done|]. cbn [concat]. rewrite sync_calls_app, SyncFacts.imports_app. apply Forall_app. split.
  - apply Forall_forall. intros op I. destruct (step_imports _ _ _ _ _ _ E A S I) as (n & t & ->). eexists _, _, _. split; [reflexivity|].
    intros hd Hh. unfold node_headers. cbn [map concat]. apply elem_of_app. by left.
  - eapply Forall_impl; [exact F|]. intros op (n & hds & t & -> & G). eexists _, _, _. split; [reflexivity|]. intros hd Hh. unfold node_headers. cbn [map concat]. apply elem_of_app. right. by apply G.
Qed.
End Mute.

Section Tip.
Context (H : header -> N) (ng : network -> N) (scf : SyncModel.sconf) (P : CbfModel.params) (sock : N -> sockaddr) (env : nat -> nenv) (magic : N).
Context (st : store) (ps : params) (cps : list (N * N)) (c0 : cache).
Context (Hps : params_ok ps) (E0 : from_store H ng st ps cps = Val (Ok c0)) (L0 : linked_from H (H (s_genesis st)) (s_tail st)) (Fenv : fair_node env).
Context (f0 : CbfModel.cbf).
Notation nrun := (node_run H scf P sock env magic).
Notation nstep := (node_step H scf P sock env magic).
Notation s0 := (node0 c0 f0).

Lemma sublist_elem {A} (l k : list A) x : l `sublist_of` k -> x ∈ l -> x ∈ k.
Proof. intros S I. induction S as [|y l k S IH|y l k S IH]; [done| |right; by apply IH]. apply elem_of_cons in I as [->|I]; [by left|right; by apply IH]. Qed.
Lemma start_mute : all_mute s0.
Proof. intros c x I. by apply elem_of_nil in I. Qed.
Lemma given_acyclic hs ops : Forall (given env hs) ops -> acyclic H (s_tail st ++ hs) -> acyclic H (s_tail st ++ presented ops).
Proof.
  intros G [rank A]. exists rank. apply Forall_app in A as [A B]. apply Forall_app. split; [done|]. rewrite Forall_forall in B |- *. intros hd I. apply B.
  unfold presented, inputs in I. apply elem_of_list_fmap in I as (y & -> & I). rewrite elem_of_list_In, in_concat in I. destruct I as (l & Il & Iy).
  apply in_map_iff in Il as (op & <- & Io). apply elem_of_list_In in Io. rewrite Forall_forall in G. destruct (G _ Io) as (n & hds & t & -> & K). apply K.
  cbn in Iy. rewrite <- (with_choices_fst env n hds). apply elem_of_list_In. by apply in_map.
Qed.
Lemma given_fair hs ops : Forall (given env hs) ops -> fair ops.
Proof.
  intros G. unfold fair, inputs. apply Forall_concat, Forall_map. eapply Forall_impl; [exact G|]. intros op (n & hds & t & -> & _). cbn. by apply with_choices_fair.
Qed.

Lemma run_sync os s t : nrun os s0 = Val (s, t) -> exists sops xs, SyncSpec.sync_run H scf sops (SyncModel.sync_init, c0) = Val (n_sync (f_state s), n_cache (f_state s), xs) /\
  Forall (given env (node_headers os)) (SyncSpec.imports sops) /\ all_mute s.
Proof.
  intros R. destruct (run_told _ _ _ _ _ _ _ _ _ _ R) as (css & xs & T & _). destruct (told_imports _ _ _ _ _ _ _ _ _ _ _ T start_mute) as [A F].
  pose proof (told_exec _ _ _ _ _ _ _ _ _ _ _ T) as X. apply nexec_sync in X. by eexists _, _.
Qed.
Lemma run_reach os s t : acyclic H (s_tail st ++ node_headers os) -> nrun os s0 = Val (s, t) ->
  exists hist outs, reachable H ng st ps cps hist (n_cache (f_state s)) outs /\ Forall (given env (node_headers os)) hist.
Proof.
  intros A R. destruct (run_sync _ _ _ R) as (sops & xs & Sr & G & _). destruct (SyncFacts.run_imports H scf _ _ _ _ _ _ Sr) as (hist & outs & Sub & Rh).
  exists hist, outs. split; [|apply Forall_forall; intros op I; rewrite Forall_forall in G; apply G; by eapply sublist_elem]. eapply (SyncFacts.hist_reachable H ng st ps cps c0); [done|done|exact Sub| | |done].
  - by eapply given_acyclic.
  - by eapply given_fair.
Qed.

(** What is reported is true of the state after the step that reports it. *)
Lemma sync_out_in c x cs : (c, IoEvent (EvSync x)) ∈ outs sock cs -> c = CSync /\ exists l, l ∈ sync_outs cs /\ x ∈ l.
Proof.
  unfold outs. rewrite elem_of_list_In, in_flat_map. intros (k & K & I). apply elem_of_list_In in K. destruct k as [oe y|o y|i y]; cbn [call_out] in I; apply in_flat_map in I as (z & Iz & I).
  - assert (c = CSync /\ x = z) as [-> ->] by (destruct z; cbn in I; repeat (destruct I as [I|I]; [by injection I as <- <-|]); by destruct I).
    split; [done|]. exists y. split; [|by apply elem_of_list_In]. apply elem_of_list_omap. by exists (KSync oe y).
  - destruct z; cbn in I; repeat (destruct I as [I|I]; [done|]); by destruct I.
  - destruct z; cbn in I; repeat (destruct I as [I|I]; [done|]); by destruct I.
Qed.
Lemma given_mono hs hs' op : (forall x, x ∈ hs -> x ∈ hs') -> given env hs op -> given env hs' op.
Proof. intros S (n & hds & t & -> & G). eexists _, _, _. split; [reflexivity|]. intros hd I. by apply S, G. Qed.

Lemma step_transition os o s t s' x c b k h rv cn : acyclic H (s_tail st ++ node_headers (os ++ [o])) -> nrun os s0 = Val (s, t) -> nstep o s = Val (s', x) ->
  FQueued c (IoEvent (EvSync (SyncModel.SoImported b k h rv cn))) ∈ x ->
  c = CSync /\ exists hist now tip n, transition H ng st ps cps hist (n_cache (f_state s)) (OImport (with_choices env n (headers_of o)) now) (n_cache (f_state s')) (Ok (TipChanged tip k h rv cn)).
Proof.
  intros A R E I. destruct (run_sync _ _ _ R) as (sops & xs & Sr & G & Mu). destruct (step_told _ _ _ _ _ _ _ _ _ _ E) as (cs & y & X & Ex & _ & Q & Sc).
  assert (J : (c, IoEvent (EvSync (SyncModel.SoImported b k h rv cn))) ∈ outs sock cs).
  { rewrite Ex in I. apply elem_of_app in I as [I|I]; [|by apply Q in I]. apply in_fqueued in I. apply elem_of_app in I as [I|I]; [|done].
    destruct o as [|e| | | | | | | | |]; cbn in I; try (by apply elem_of_nil in I). destruct e; by apply elem_of_list_singleton in I. }
  destruct (sync_out_in _ _ _ J) as (-> & l & Il & Ix). split; [done|]. pose proof (nexec_sync _ _ _ _ _ _ X) as Xs.
  assert (O1 : exists so, one_sync so cs). { apply step_shape in Sc as [(_ & _ & _ & so & _ & O)|(e & _ & _ & _ & n2 & O)]; by eexists. }
  destruct O1 as ([so|] & O1); [|destruct O1 as [_ O2]; rewrite O2 in Il; by apply elem_of_nil in Il]. destruct O1 as (e & l' & O1 & O2).
  rewrite O2 in Il. apply elem_of_list_singleton in Il as ->. rewrite O1, O2 in Xs. cbn [SyncSpec.sync_run] in Xs.
  destruct (SyncModel.sync_step H scf (so, e) _) as [[[s1 c1] x1]|] eqn:Es; [|done]. cbn [mbind_M] in Xs. injection Xs as E1 E2 E3. subst.
  assert (Gs : Forall (given env (node_headers (os ++ [o]))) (SyncSpec.imports (sops ++ [(so, e)]))).
  { rewrite SyncFacts.imports_app. apply Forall_app. split.
    - eapply Forall_impl; [exact G|]. intros op. apply given_mono. intros hd Hh. rewrite node_headers_snoc. apply elem_of_app. by left.
    - apply Forall_forall. intros op Io. rewrite <- O1 in Io. destruct (step_imports _ _ _ _ _ _ _ _ _ _ _ _ E Mu Sc Io) as (n & t' & ->). eexists _, _, _. split; [reflexivity|].
      intros hd Hh. rewrite node_headers_snoc. apply elem_of_app. by right. }
  apply SyncFacts.step_import in Es as [[_ Fx]|(hds & s1' & x1' & y' & r & Eo & Im & -> & _ & _ & Fy)].
  { rewrite Forall_forall in Fx. by specialize (Fx _ Ix). }
  apply elem_of_app in Ix as [Ix|Ix]; [|by apply Fy in Ix]. destruct (SyncMain.import_report H _ _ _ _ _ _ _ _ _ _ _ _ Im Ix) as [tip ->].
  edestruct (SyncFacts.step_transition H ng scf st ps cps c0) as [hist T]; [exact E0|exact L0|exact Sr| | |exact Eo|exact Im|].
  - eapply given_acyclic; [exact Gs|done].
  - by eapply given_fair.
  - assert (Io : OImport hds (SyncModel.se_block_time e) ∈ SyncSpec.imports (sync_calls cs)).
    { rewrite O1. unfold SyncSpec.imports. cbn [map concat]. rewrite Eo. by left. }
    destruct (step_imports _ _ _ _ _ _ _ _ _ _ _ _ E Mu Sc Io) as (n & t' & [= -> _]). by exists hist, (SyncModel.se_block_time e), tip, n.
Qed.
End Tip.
