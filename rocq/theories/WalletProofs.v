(** Proofs about the wallet's coins. *)
From Verif Require Import Base WalletModel WalletSpec.
Open Scope N_scope.

Lemma as_i64_u64 v : v < 2 ^ 64 -> as_u64 (as_i64 v) = v.
Proof.
  intros H. unfold as_u64, as_i64. change (2 ^ 64)%N with 18446744073709551616 in *.
  change (2 ^ 63)%N with 9223372036854775808. change (2 ^ 64)%Z with 18446744073709551616%Z.
  destruct (N.ltb_spec v 9223372036854775808).
  - rewrite Z.mod_small by lia. lia.
  - rewrite <- (Z_mod_plus_full _ 1), Z.mod_small by lia. lia.
Qed.
Lemma as_i64_small v : v < 2 ^ 63 -> as_i64 v = Z.of_N v.
Proof. intros H. unfold as_i64. by rewrite (proj2 (N.ltb_lt _ _) H). Qed.

(** The outpoints of a table. *)
Definition ops (t : table) : list (N * N) := map row_op t.

Lemma existsb_op (t : table) op : existsb (fun r => bool_decide (row_op r = op)) t = true <-> op ∈ ops t.
Proof.
  rewrite existsb_exists. unfold ops. rewrite elem_of_list_fmap. split.
  - intros (r & Hr & E%bool_decide_eq_true). exists r. split; [done|]. by apply elem_of_list_In.
  - intros (r & -> & Hr). exists r. split; [by apply elem_of_list_In|]. by apply bool_decide_eq_true.
Qed.
Lemma existsb_watch watch s : existsb (fun w => w =? s) watch = true <-> s ∈ watch.
Proof.
  rewrite existsb_exists. split.
  - intros (w & Hw & ->%N.eqb_eq). by apply elem_of_list_In.
  - intros H. exists s. split; [by apply elem_of_list_In|]. apply N.eqb_refl.
Qed.

Section Wallet.
Context (addr_of : N -> option N) (script_of : N -> N) (watch : list N).
Hypothesis WOK : watch_ok addr_of script_of watch.
Notation add := (add_utxo).
Notation rem t op := (remove_utxo script_of t op).1.

(** Row [r] holds output [out]. *)
Definition holds (r : row) (op out : N * N) : Prop :=
  row_op r = op /\ addr_of out.1 = Some (row_addr r) /\ row_val r = as_i64 out.2.

Lemma add_ops t op a v : forall o, o ∈ ops (add t op a v) <-> o = op \/ o ∈ ops t.
Proof.
  intros o. unfold add_utxo. destruct (existsb _ t) eqn:E.
  - apply existsb_op in E. naive_solver.
  - unfold ops. rewrite map_app. rewrite elem_of_app. cbn [map row_op]. rewrite elem_of_list_singleton. naive_solver.
Qed.
Lemma add_rows t op a v : forall r, r ∈ add t op a v <->
  r ∈ t \/ (op ∉ ops t /\ r = {| row_op := op; row_addr := a; row_val := as_i64 v |}).
Proof.
  intros r. unfold add_utxo. destruct (existsb _ t) eqn:E.
  - apply existsb_op in E. naive_solver.
  - rewrite elem_of_app, elem_of_list_singleton. split; [|naive_solver].
    intros [?| ->]; [by left|right]. split; [|done]. intros H%existsb_op. congruence.
Qed.
Lemma add_nodup t op a v : NoDup (ops t) -> NoDup (ops (add t op a v)).
Proof.
  intros ND. unfold add_utxo. destruct (existsb _ t) eqn:E; [done|].
  unfold ops. rewrite map_app. apply NoDup_app. split; [done|]. split; [|apply NoDup_singleton].
  intros o Ho ->%elem_of_list_singleton. apply existsb_op in Ho. cbn [row_op] in Ho. congruence.
Qed.
Lemma rem_rows t op : forall r, r ∈ rem t op <-> r ∈ t /\ row_op r <> op.
Proof.
  intros r. cbn [remove_utxo fst]. rewrite !elem_of_list_In, filter_In, negb_true_iff, bool_decide_eq_false. done.
Qed.
Lemma rem_nodup t op : NoDup (ops t) -> NoDup (ops (rem t op)).
Proof.
  cbn [remove_utxo fst]. unfold ops. induction t as [|r t IH]; cbn [List.filter map]; [done|].
  rewrite NoDup_cons. intros [H1 H2]. destruct (bool_decide (row_op r = op)); cbn [negb]; [by apply IH|].
  cbn [map]. rewrite NoDup_cons. split; [|by apply IH].
  intros (r' & E & Hr)%elem_of_list_fmap. apply H1. apply elem_of_list_fmap. exists r'. split; [done|].
  apply elem_of_list_In. apply elem_of_list_In, filter_In in Hr. tauto.
Qed.
Lemma rems_rows l : forall t r, r ∈ fold_left (fun t op => rem t op) l t <-> r ∈ t /\ row_op r ∉ l.
Proof.
  induction l as [|op l IH]; intros t r; cbn [fold_left].
  - split; [intros ?; split; [done|]; apply not_elem_of_nil|tauto].
  - rewrite IH, rem_rows, not_elem_of_cons. naive_solver.
Qed.
Lemma rems_nodup l : forall t, NoDup (ops t) -> NoDup (ops (fold_left (fun t op => rem t op) l t)).
Proof. induction l as [|op l IH]; intros t ND; cbn [fold_left]; [done|]. by apply IH, rem_nodup. Qed.

(** The outputs part: old rows stay, and each watched output has a row. *)
Lemma outputs_run id : forall outs k t, NoDup (ops t) -> k + lenN outs <= 2 ^ 32 ->
  exists t', apply_outputs addr_of watch id k outs t = Val t' /\ NoDup (ops t') /\
    (forall r, r ∈ t' <-> r ∈ t \/ row_op r ∉ ops t /\
       exists i out, outs !! i = Some out /\ out.1 ∈ watch /\ holds r (id, k + N.of_nat i) out).
Proof.
  induction outs as [|[s v] outs IH]; intros k t ND L; cbn [apply_outputs].
  { exists t. split; [done|]. split; [done|]. intros r. split; [by left|].
    intros [?|(_ & i & out & E & _)]; [done|]. by rewrite lookup_nil in E. }
  unfold lenN in *. cbn [length] in L.
  assert (wrap32 k = k) as Ek by (unfold wrap32, two32; change (2 ^ 32) with 4294967296 in L; apply N.mod_small; lia).
  destruct (existsb (fun w => w =? s) watch) eqn:W.
  - apply existsb_watch in W. destruct (WOK s W) as (a & Ea & Es). rewrite Ea.
    destruct (IH (k + 1) (add t (id, wrap32 k) a v)) as (t' & R & ND' & Rows); [by apply add_nodup|lia|].
    exists t'. split; [done|]. split; [done|]. rewrite Ek in *. intros r. rewrite Rows. rewrite add_rows, add_ops. split.
    + intros [[Hr|[Hn ->]]|(Hn & i & out & Eo & Wo & Hh)].
      * by left.
      * right. cbn [row_op]. split; [done|]. exists 0%nat, (s, v). split; [done|]. split; [done|].
        unfold holds. cbn. by rewrite N.add_0_r.
      * right. split; [tauto|]. exists (S i), out. split; [done|]. split; [done|].
        destruct Hh as (H1 & H2 & H3). unfold holds. rewrite H1. split; [f_equal; lia|done].
    + intros [Hr|(Hn & i & out & Eo & Wo & Hh)]; [by left; left|].
      destruct i as [|i].
      * injection Eo as <-. destruct Hh as (H1 & H2 & H3). cbn [fst snd] in *.
        replace (k + N.of_nat 0) with k in H1 by lia. left. right. rewrite <- H1. split; [done|].
        destruct r as [ro ra rv]. cbn [row_op row_addr row_val] in *. rewrite Ea in H2. injection H2 as ->. by subst.
      * right. split.
        { intros [E|]; [|done]. destruct Hh as (H1 & _). rewrite H1 in E. injection E as E. lia. }
        exists i, out. split; [done|]. split; [done|]. destruct Hh as (H1 & H2 & H3). unfold holds.
        rewrite H1. split; [f_equal; lia|done].
  - destruct (IH (k + 1) t) as (t' & R & ND' & Rows); [done|lia|]. exists t'. split; [done|]. split; [done|].
    intros r. rewrite Rows. split.
    + intros [Hr|(Hn & i & out & Eo & Wo & Hh)]; [by left|]. right. split; [done|]. exists (S i), out.
      split; [done|]. split; [done|]. destruct Hh as (H1 & H2 & H3). unfold holds. rewrite H1. split; [f_equal; lia|done].
    + intros [Hr|(Hn & i & out & Eo & Wo & Hh)]; [by left|]. right. split; [done|]. destruct i as [|i].
      { injection Eo as <-. cbn [fst] in Wo. apply existsb_watch in Wo. congruence. }
      exists i, out. split; [done|]. split; [done|]. destruct Hh as (H1 & H2 & H3). unfold holds. rewrite H1.
      split; [f_equal; lia|done].
Qed.

(** [x] creates [out] at [op]. *)
Definition makes (x : tx) (op out : N * N) : Prop :=
  tx_id x = op.1 /\ tx_out x !! N.to_nat op.2 = Some out /\ out.1 ∈ watch.

Lemma apply_run x t : NoDup (ops t) -> tx_fits x ->
  exists t', apply addr_of script_of watch t x = Val t' /\ NoDup (ops t') /\
    (forall r, r ∈ t' <-> (r ∈ t \/ row_op r ∉ ops t /\ exists out, makes x (row_op r) out /\ holds r (row_op r) out) /\
       row_op r ∉ tx_in x).
Proof.
  intros ND [F _]. unfold apply.
  destruct (outputs_run (tx_id x) (tx_out x) 0 t ND ltac:(lia)) as (t1 & -> & ND1 & Rows). cbn [mbind_M].
  eexists. split; [done|]. split; [by apply rems_nodup|]. intros r. rewrite rems_rows, Rows.
  apply and_iff_compat_r, or_iff_compat_l, and_iff_compat_l. split.
  - intros (i & out & Eo & Wo & H1 & H2 & H3). rewrite H1. exists out. unfold makes, holds. cbn [fst snd].
    rewrite N.add_0_l, Nat2N.id. by rewrite H1, N.add_0_l.
  - intros (out & (E1 & E2 & E3) & H1 & H2 & H3). exists (N.to_nat (row_op r).2), out. split; [done|].
    split; [done|]. unfold holds. rewrite N.add_0_l, N2Nat.id, E1. split; [by destruct (row_op r)|done].
Qed.

(** Transactions with the same id are the same. *)
Definition same_ids (l : list tx) : Prop := forall x y, x ∈ l -> y ∈ l -> tx_id x = tx_id y -> x = y.

(** Whether [op] is a coin after [l], if it was ([b]) before. *)
Fixpoint alive (l : list tx) (op : N * N) (b : Prop) : Prop :=
  match l with
  | [] => b
  | x :: l' => alive l' op ((b \/ exists out, makes x op out) /\ op ∉ tx_in x)
  end.
Lemma alive_iff l op : forall b b' : Prop, (b <-> b') -> (alive l op b <-> alive l op b').
Proof. induction l as [|x l IH]; intros b b' E; cbn [alive]; [done|]. apply IH. by rewrite E. Qed.

(** All rows hold outputs of the transactions [l]. *)
Definition sound (l : list tx) (t : table) : Prop :=
  forall r, r ∈ t -> exists x out, x ∈ l /\ makes x (row_op r) out /\ holds r (row_op r) out.

Lemma run_coins l0 l : forall t, Forall tx_fits l -> l ⊆ l0 -> same_ids l0 ->
  NoDup (ops t) -> sound l0 t ->
  exists t', apply_all addr_of script_of watch t l = Val t' /\ NoDup (ops t') /\ sound l0 t' /\
    (forall op, op ∈ ops t' <-> alive l op (op ∈ ops t)).
Proof.
  induction l as [|x l IH]; intros t F Sub Same ND Snd; cbn [apply_all alive].
  { exists t. done. }
  apply Forall_cons in F as [Fx F].
  destruct (apply_run x t ND Fx) as (t1 & -> & ND1 & Rows). cbn [mbind_M].
  assert (sound l0 t1) as Snd1.
  { intros r [[Hr|(_ & out & Mk & Hh)] _]%Rows; [by apply Snd|]. exists x, out. split; [|done]. set_solver. }
  destruct (IH t1 F ltac:(set_solver) Same ND1 Snd1) as (t' & R & ND' & Snd' & A).
  exists t'. split; [done|]. split; [done|]. split; [done|]. intros op. rewrite A. apply alive_iff.
  unfold ops. rewrite !elem_of_list_fmap. split.
  - intros (r & -> & [[Hr|(Hn & out & Mk & Hh)] Hi]%Rows); (split; [|done]).
    + left. by exists r.
    + right. by exists out.
  - intros [[(r & -> & Hr)|(out & Mk)] Hi].
    + exists r. split; [done|]. apply Rows. split; [by left|done].
    + destruct (decide (op ∈ ops t)) as [Ho|Ho].
      { apply elem_of_list_fmap in Ho as (r & -> & Hr). exists r. split; [done|]. apply Rows. split; [by left|done]. }
      destruct Mk as (E1 & E2 & E3). destruct (WOK _ E3) as (a & Ea & _).
      set (r := {| row_op := op; row_addr := a; row_val := as_i64 out.2 |}).
      exists r. split; [done|]. apply Rows. split; [|done]. right. split; [done|]. by exists out.
Qed.

(** In a chain-ordered list spending comes after creating. *)
Lemma alive_spent_later l op b : chain_ordered l -> op.1 ∉ map tx_id l ->
  alive l op b <-> b /\ ~ spent l op.
Proof.
  revert b. induction l as [|x l IH]; intros b C N; cbn [alive].
  { split; [|tauto]. intros ?. split; [done|]. by intros (? & ?%elem_of_nil & _). }
  cbn [map] in N. apply not_elem_of_cons in N as [N1 N2]. destruct C as (C1 & C2 & C3).
  rewrite IH by done. unfold spent. split.
  - intros [[[Hb|(out & E & _)] Hi] Hs]; [|congruence]. split; [done|].
    intros (y & [->|Hy]%elem_of_cons & Ho); [done|]. apply Hs. by exists y.
  - intros [Hb Hs]. split; [split; [by left|]|].
    + intros Ho. apply Hs. exists x. split; [by left|done].
    + intros (y & Hy & Ho). apply Hs. exists y. split; [by right|done].
Qed.
Lemma alive_chain l op b : chain_ordered l ->
  alive l op b <-> (b \/ exists out, created watch l op out) /\ ~ spent l op.
Proof.
  revert b. induction l as [|x l IH]; intros b C; cbn [alive].
  { unfold created, spent. split.
    - intros ?. split; [by left|]. by intros (? & ?%elem_of_nil & _).
    - intros [[?|(? & ? & ?%elem_of_nil & _)] _]; done. }
  pose proof C as (C1 & C2 & C3).
  destruct (decide (op.1 = tx_id x)) as [E|E].
  - (* created by [x] if at all *)
    rewrite alive_spent_later; [|done|by rewrite E].
    assert (op ∉ tx_in x) as Hi by (intros Hi; apply (C2 op Hi); rewrite E; by left).
    assert ((exists out, makes x op out) <-> exists out, created watch (x :: l) op out) as Hc.
    { split; intros (out & H); exists out.
      - exists x. split; [by left|done].
      - destruct H as (y & [->|Hy]%elem_of_cons & E1 & E2); [done|]. exfalso. apply C1.
        rewrite <- E, <- E1. apply elem_of_list_fmap. by exists y. }
    rewrite Hc. assert (spent (x :: l) op <-> spent l op) as ->; [|tauto].
    unfold spent. split.
    + intros (y & [->|Hy]%elem_of_cons & Ho); [done|]. by exists y.
    + intros (y & Hy & Ho). exists y. split; [by right|done].
  - rewrite IH by done.
    assert (~ exists out, makes x op out) as Hn by (intros (out & E1 & _); congruence).
    assert ((exists out, created watch (x :: l) op out) <-> exists out, created watch l op out) as ->.
    { split; intros (out & y & Hy & H); exists out.
      - apply elem_of_cons in Hy as [->|Hy]; [|by exists y]. destruct H as (E1 & _). congruence.
      - exists y. split; [by right|done]. }
    assert (~ spent (x :: l) op <-> op ∉ tx_in x /\ ~ spent l op) as ->.
    { unfold spent. split.
      - intros H. split; [intros ?; apply H; exists x; split; [by left|done]|].
        intros (y & Hy & Ho). apply H. exists y. split; [by right|done].
      - intros [H1 H2] (y & [->|Hy]%elem_of_cons & Ho); [done|]. apply H2. by exists y. }
    (* a coin that existed or is created later *)
    assert ((exists out, created watch l op out) -> op ∉ tx_in x) as Hl.
    { intros (out & y & Hy & E1 & _) Hi. apply (C2 op Hi). right. rewrite <- E1. apply elem_of_list_fmap. by exists y. }
    tauto.
Qed.

Lemma chain_ordered_app a b : chain_ordered (a ++ b) -> chain_ordered a /\ chain_ordered b /\
  (forall x op, x ∈ a -> op ∈ tx_in x -> op.1 ∉ map tx_id b) /\
  (forall x, x ∈ a -> tx_id x ∉ map tx_id b).
Proof.
  induction a as [|x a IH]; cbn [app chain_ordered].
  { intros C. split; [done|]. split; [done|]. split; intros ? *; set_solver. }
  rewrite map_app. intros (C1 & C2 & (A1 & A2 & A3 & A4)%IH).
  split; [split; [set_solver|split; [|done]]; intros op Ho; specialize (C2 op Ho); set_solver|].
  split; [done|]. split.
  - intros y op [->|Hy]%elem_of_cons Ho; [|by apply (A3 y)]. specialize (C2 op Ho). set_solver.
  - intros y [->|Hy]%elem_of_cons; [|by apply A4]. set_solver.
Qed.
Lemma chain_ordered_same l : chain_ordered l -> same_ids l.
Proof.
  induction l as [|z l IH]; [intros _ x y ?%elem_of_nil; done|]. intros (C1 & _ & C3) x y.
  intros [->|Hx]%elem_of_cons [->|Hy]%elem_of_cons E; [done| | |by apply IH].
  - exfalso. apply C1. rewrite E. apply elem_of_list_fmap. by exists y.
  - exfalso. apply C1. rewrite <- E. apply elem_of_list_fmap. by exists x.
Qed.

(** The coins as reported. *)
Lemma utxos_rows t l : sound l t -> same_ids l -> Forall tx_fits l ->
  forall op out, (op, out) ∈ utxos script_of t <-> op ∈ ops t /\ created watch l op out.
Proof.
  intros Snd Same F op out. unfold utxos, ops. rewrite !elem_of_list_fmap.
  assert (forall r x o, r ∈ t -> x ∈ l -> makes x (row_op r) o -> holds r (row_op r) o ->
    (script_of (row_addr r), as_u64 (row_val r)) = o) as K.
  { intros r x [s v] Hr Hx (E1 & E2 & E3) (_ & H2 & H3). cbn [fst snd] in *.
    destruct (WOK s E3) as (a & Ea & Es). rewrite Ea in H2. injection H2 as ->. rewrite Es, H3. f_equal.
    apply as_i64_u64. rewrite Forall_forall in F. destruct (F x Hx) as [_ Fv].
    rewrite Forall_lookup in Fv. by apply (Fv _ _ E2). }
  split.
  - intros (r & [= -> ->] & Hr). destruct (Snd r Hr) as (x & o & Hx & Mk & Hh).
    split; [by exists r|]. rewrite (K r x o Hr Hx Mk Hh). by exists x.
  - intros ((r & -> & Hr) & y & Hy & My). destruct (Snd r Hr) as (x & o & Hx & Mk & Hh).
    exists r. split; [|done]. f_equal. rewrite (K r x o Hr Hx Mk Hh).
    destruct Mk as (E1 & E2 & E3). destruct My as (F1 & F2 & F3).
    assert (x = y) as -> by (apply Same; congruence). congruence.
Qed.

Lemma sound_nil l : sound l [].
Proof. by intros r ?%elem_of_nil. Qed.

(** Coins of a chain-ordered history. *)
Lemma history_coins l : Forall tx_fits l -> chain_ordered l ->
  exists t, apply_all addr_of script_of watch [] l = Val t /\ NoDup (ops t) /\ sound l t /\
    forall op out, (op, out) ∈ utxos script_of t <-> created watch l op out /\ ~ spent l op.
Proof.
  intros F C. destruct (run_coins l l [] F ltac:(done) (chain_ordered_same l C)) as (t & R & ND & Snd & A).
  { constructor. } { apply sound_nil. }
  exists t. split; [done|]. split; [done|]. split; [done|]. intros op out.
  rewrite (utxos_rows t l Snd (chain_ordered_same l C) F), A, alive_chain by done. cbn [ops map].
  split.
  - intros [[_ Hs] Hc]. done.
  - intros [Hc Hs]. split; [|done]. split; [|done]. right. by exists out.
Qed.

(** Applying the last part of a history again. *)
Lemma again_coins p s : Forall tx_fits (p ++ s) -> chain_ordered (p ++ s) ->
  exists t t', apply_all addr_of script_of watch [] (p ++ s) = Val t /\
    apply_all addr_of script_of watch t s = Val t' /\ NoDup (ops t') /\
    forall c, c ∈ utxos script_of t' <-> c ∈ utxos script_of t.
Proof.
  intros F C. pose proof (chain_ordered_same _ C) as Same.
  destruct (run_coins (p ++ s) (p ++ s) [] F ltac:(done) Same) as (t & R & ND & Snd & A).
  { constructor. } { apply sound_nil. }
  destruct (run_coins (p ++ s) s t) as (t' & R' & ND' & Snd' & A'); [|set_solver|done|done|done|].
  { by apply Forall_app in F as [_ ?]. }
  exists t, t'. split; [done|]. split; [done|]. split; [done|]. intros [op out].
  rewrite (utxos_rows t' _ Snd' Same F), (utxos_rows t _ Snd Same F).
  apply and_iff_compat_r. rewrite A'. destruct (chain_ordered_app p s C) as (Cp & Cs & Ho & Hid).
  rewrite (alive_chain s) by done. rewrite A, alive_chain by done. cbn [ops map].
  assert (spent (p ++ s) op <-> spent p op \/ spent s op) as Sp.
  { unfold spent. split.
    - intros (x & [?|?]%elem_of_app & ?); [left|right]; by exists x.
    - intros [(x & ? & ?)|(x & ? & ?)]; exists x; (split; [apply elem_of_app; tauto|done]). }
  assert ((exists o, created watch s op o) -> exists o, created watch (p ++ s) op o) as Cr.
  { intros (o & x & Hx & H). exists o, x. split; [apply elem_of_app; by right|done]. }
  assert ((exists o, created watch s op o) -> ~ spent p op) as Cp'.
  { intros (o & x & Hx & E1 & _) (y & Hy & Hin). apply (Ho y op Hy Hin). rewrite <- E1.
    apply elem_of_list_fmap. by exists x. }
  assert (op ∉ ([] : list (N * N))) by apply not_elem_of_nil. tauto.
Qed.

(** The sum does not overflow while the total is small. *)
Lemma sum_total (t : table) acc : Forall (fun r => (0 <= row_val r)%Z) t ->
  (0 <= acc)%Z -> (acc + foldr Z.add 0 (map row_val t) < 2 ^ 63)%Z ->
  sum_i64 acc (map row_val t) = Ok (acc + foldr Z.add 0 (map row_val t))%Z.
Proof.
  revert acc. induction t as [|r t IH]; intros acc F A B; cbn [map sum_i64 foldr] in *.
  { f_equal. lia. }
  apply Forall_cons in F as [Fr F].
  assert (0 <= foldr Z.add 0 (map row_val t))%Z as P.
  { clear -F. induction F; cbn [map foldr]; [done|]. lia. }
  destruct (Z.leb_spec (- 2 ^ 63) (acc + row_val r)); [|lia].
  destruct (Z.ltb_spec (acc + row_val r) (2 ^ 63)); [|lia]. cbn [andb].
  rewrite IH; [f_equal; lia|done|lia|lia].
Qed.

Lemma balance_total t l : sound l t -> Forall tx_fits l -> total (utxos script_of t) < 2 ^ 63 ->
  balance t = Ok (total (utxos script_of t)).
Proof.
  intros Snd F T.
  assert (Forall (fun r => exists v, v < 2 ^ 64 /\ row_val r = as_i64 v) t) as V.
  { apply Forall_forall. intros r Hr. destruct (Snd r Hr) as (x & o & Hx & (_ & E2 & _) & (_ & _ & H3)).
    exists o.2. split; [|done]. rewrite Forall_forall in F. destruct (F x Hx) as [_ Fv].
    rewrite Forall_lookup in Fv. by apply (Fv _ _ E2). }
  assert (Forall (fun r => (0 <= row_val r)%Z) t /\
    foldr Z.add 0%Z (map row_val t) = Z.of_N (total (utxos script_of t))) as [F0 Es].
  { clear F Snd. unfold total in *. induction t as [|r t IH]; [by split|].
    apply Forall_cons in V as [(v & Hv & Ev) V]. cbn [utxos map foldr snd] in *.
    assert (as_u64 (row_val r) = v) as Eu by (rewrite Ev; by apply as_i64_u64). rewrite Eu in *.
    destruct IH as [F0 Es]; [|done|].
    { fold (utxos script_of t) in T |- *. lia. }
    fold (utxos script_of t) in *. rewrite as_i64_small in Ev by lia. split; [constructor; [lia|done]|].
    rewrite Es. lia. }
  unfold balance. rewrite sum_total; [|exact F0|lia|rewrite Es; change (2 ^ 63)%Z with (Z.of_N (2 ^ 63)); lia].
  f_equal. rewrite Es. unfold as_u64. rewrite Z.add_0_l, Z.mod_small, N2Z.id; [done|].
  split; [lia|]. change (2 ^ 63) with 9223372036854775808 in T. change (2 ^ 64)%Z with 18446744073709551616%Z. lia.
Qed.

Lemma events_matched es : forall t,
  handle_events addr_of script_of watch t es = apply_all addr_of script_of watch t (matched es).
Proof.
  assert (forall a b t, apply_all addr_of script_of watch t (a ++ b) =
    mbind_M (apply_all addr_of script_of watch t a) (fun t' => apply_all addr_of script_of watch t' b)) as App.
  { induction a as [|x a IH]; intros b t; cbn [app apply_all]; [done|].
    destruct (apply addr_of script_of watch t x) as [t1|]; cbn [mbind_M]; [apply IH|done]. }
  induction es as [|[txs| |] es IH]; intros t; cbn [handle_events handle_event matched mbind_M]; try done.
  rewrite App. destruct (apply_all addr_of script_of watch t txs); cbn [mbind_M]; [apply IH|done].
Qed.
End Wallet.
