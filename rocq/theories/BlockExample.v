(** Concrete histories that meet the hypotheses of the header-cache theorems,
    and counterexamples.  Hashes are chosen by hand: the hash of a header is
    its nonce placed in the first byte, so its proof-of-work value is the
    nonce itself. *)
From Verif Require Import Base PowModel BlockModel BlockSpec.
Open Scope N_scope.

Definition exH (h : header) : N := h_nonce h * 2 ^ 248.
Definition ex_bits : N := 0x207fffff.
Definition ex_params (n : network) : params :=
  mkParams n (target_of_bits ex_bits) 600 1209600 false true.
(** Header number [k] on top of header number [p]. *)
Definition ex_hd (p k time : N) : header := mkHeader (p * 2 ^ 248) time ex_bits k.
Definition ex_g : header := mkHeader 0 1 ex_bits 1.
Definition ex_ng (_ : network) : N := exH ex_g.
Definition ex_now : N := 1000000.
(** HashMap order is insertion order; the store never fails. *)
Definition ch0 : choice := mkChoice id true None.
Definition ch_rev : choice := mkChoice (fun l => rev l) true None.
Definition ch_noroll : choice := mkChoice id false None.
Definition imp (l : list header) : op := OImport (map (fun h => (h, ch0)) l) ex_now.

Lemma fair_ch0 : fair_choice ch0.
Proof. intros l. reflexivity. Qed.
Lemma fair_rev : fair_choice ch_rev.
Proof. intros l. cbn. symmetry. apply Permutation_rev. Qed.
Lemma fair_noroll : fair_choice ch_noroll.
Proof. intros l. reflexivity. Qed.

Definition ex_rank (k : N) : nat := N.to_nat (k / 2 ^ 248).

(** A re-org: branch a (2, 3) is overtaken by branch b (4, 5, 6). *)
Definition a1 := ex_hd 1 2 10.
Definition a2 := ex_hd 2 3 20.
Definition b1 := ex_hd 1 4 11.
Definition b2 := ex_hd 4 5 21.
Definition b3 := ex_hd 5 6 31.
Definition a3 := ex_hd 3 7 30.
Definition a4 := ex_hd 7 8 40.
Definition ex_store : store := mkStore ex_g [].


Lemma ex_params_ok n : params_ok (ex_params n).
Proof. split; cbn; lia. Qed.

(** State and last output after a concrete history. *)
Definition ex_run (ps : params) (cps : list (N * N)) (s : store) (os : list op)
    : option (cache * list (result import_result err)) :=
  match from_store exH ex_ng s ps cps with
  | Val (Ok c0) => match run exH c0 os with Val (c, outs) => Some (c, outs) | _ => None end
  | _ => None
  end.
Definition ex_step (ps : params) (cps : list (N * N)) (s : store) (os : list op) (o : op)
    : option (cache * cache * result import_result err) :=
  match ex_run ps cps s os with
  | Some (c, _) => match step exH c o with Val (c', r) => Some (c, c', r) | _ => None end
  | None => None
  end.

(** Decidable side conditions of a concrete history. *)
Definition ex_linked (s : store) : bool :=
  (fix go (b : N) (l : list header) : bool :=
     match l with [] => true | h :: t => (h_prev h =? b) && go (exH h) t end)
    (exH (s_genesis s)) (s_tail s).
Definition ex_ranked (s : store) (os : list op) : bool :=
  forallb (fun h => h_prev h <? exH h) (s_tail s ++ presented os).
Definition ex_side (s : store) (os : list op) : bool := ex_linked s && ex_ranked s os.

Lemma ex_side_spec s os : ex_side s os = true ->
  linked_from exH (exH (s_genesis s)) (s_tail s) /\ acyclic exH (s_tail s ++ presented os).
Proof.
  intros [L R]%andb_true_iff. split.
  - unfold ex_linked in L. revert L. generalize (exH (s_genesis s)).
    induction (s_tail s) as [|h t IH]; intros b L; [exact I|].
    apply andb_true_iff in L as [E L]. split; [lia|by apply IH].
  - exists N.to_nat. apply Forall_forall. intros h Hh. unfold ex_ranked in R.
    rewrite forallb_forall in R. specialize (R h). rewrite <- elem_of_list_In in R. specialize (R Hh). lia.
Qed.

(** Turns a computed run into a reachable state satisfying [P]. *)
Lemma ex_reach ps cps s os (P : cache -> list (result import_result err) -> Prop) :
  ex_side s os = true -> fair os ->
  match ex_run ps cps s os with Some (c, outs) => P c outs | None => False end ->
  exists c outs, reachable exH ex_ng s ps cps os c outs /\ P c outs.
Proof.
  intros [L A]%ex_side_spec F HP. unfold ex_run in HP.
  destruct (from_store exH ex_ng s ps cps) as [[c0|]|] eqn:E0; try done.
  destruct (run exH c0 os) as [[c outs]|] eqn:Er; try done.
  exists c, outs. split; [|done]. constructor; auto. by exists c0.
Qed.

Lemma ex_trans ps cps s os o (P : cache -> cache -> result import_result err -> Prop) :
  ex_side s (os ++ [o]) = true -> fair os -> fair [o] ->
  match ex_step ps cps s os o with Some (c, c', r) => P c c' r | None => False end ->
  exists c c' r, transition exH ex_ng s ps cps os c o c' r /\ P c c' r.
Proof.
  intros [L A]%ex_side_spec F Fo HP. unfold ex_step in HP.
  assert (acyclic exH (s_tail s ++ presented os)) as A'.
  { destruct A as [rank R]. exists rank. unfold presented, inputs in R.
    rewrite map_app, concat_app, map_app, app_assoc in R. by apply Forall_app in R as [? _]. }
  destruct (ex_run ps cps s os) as [[c outs]|] eqn:E; [|done].
  destruct (step exH c o) as [[c' r]|] eqn:Es; [|done].
  exists c, c', r. split; [|done]. constructor; auto.
  unfold ex_run in E. destruct (from_store exH ex_ng s ps cps) as [[c0|]|] eqn:E0; try done.
  destruct (run exH c0 os) as [[c1 outs1]|] eqn:Er; try done. injection E as <- <-.
  exists outs1. constructor; auto. by exists c0.
Qed.

Ltac ex_fair := apply Forall_forall; let x := fresh in let Hx := fresh in
    intros x Hx; cbn in Hx;
    repeat (apply elem_of_cons in Hx as [->|Hx]; [first [exact fair_ch0|exact fair_noroll|exact fair_rev]|]);
    by apply elem_of_nil in Hx.
Ltac ex_io := apply Forall_forall; let x := fresh in let Hx := fresh in
    intros x Hx; cbn in Hx; repeat (apply elem_of_cons in Hx as [->|Hx]; [split; reflexivity|]);
    by apply elem_of_nil in Hx.

(** A history with a re-org, used as the example of most theorems. *)
Definition ex_hist : list op := [imp [a1; a2]; imp [b1; b2; b3]].
Example ex_reorg_reach : exists c outs,
  reachable exH ex_ng ex_store (ex_params Regtest) [] ex_hist c outs /\
  (active c = [ex_g; b1; b2; b3] /\ stale exH c a1 /\ stale exH c a2).
Proof. apply ex_reach; [vm_compute; reflexivity|ex_fair|]. vm_compute. repeat split. Qed.
