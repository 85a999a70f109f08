(** Proofs about the header stores. *)
From Verif Require Import Base StoreModel StoreSpec.
Open Scope nat_scope.

Section Files.
Context {A : Type} (size : nat) (enc : A -> list N) (dec : list N -> option A)
  (Hc : codec size enc dec).
Notation encoded := (encoded enc).

Lemma size_pos : 0 < size.
Proof. apply Hc. Qed.

Lemma encoded_cons x l : encoded (x :: l) = enc x ++ encoded l.
Proof. done. Qed.

Lemma encoded_app l1 l2 : encoded (l1 ++ l2) = encoded l1 ++ encoded l2.
Proof. unfold StoreSpec.encoded. by rewrite map_app, concat_app. Qed.

Lemma encoded_length l : length (encoded l) = length l * size.
Proof.
  induction l as [|x l IH]; [done|]. rewrite encoded_cons, app_length, IH.
  destruct Hc as [_ H]. rewrite (proj1 (H x)). cbn. lia.
Qed.

Lemma encoded_take k l t : k <= length l -> take (k * size) (encoded l ++ t) = encoded (take k l).
Proof.
  intros Hk. rewrite <- (take_drop k l) at 1. rewrite encoded_app, <- app_assoc.
  apply take_app_alt. by rewrite encoded_length, take_length_le.
Qed.

Lemma encoded_drop k l t : k <= length l -> drop (k * size) (encoded l ++ t) = encoded (drop k l) ++ t.
Proof.
  intros Hk. rewrite <- (take_drop k l) at 1. rewrite encoded_app, <- app_assoc.
  apply drop_app_alt. by rewrite encoded_length, take_length_le.
Qed.

Lemma div_records l (t : list N) : length t < size -> length (encoded l ++ t) / size = length l.
Proof.
  intros Ht. rewrite app_length, encoded_length. symmetry. apply (Nat.div_unique _ _ _ (length t)); lia.
Qed.

Lemma mod_records l (t : list N) : length t < size -> length (encoded l ++ t) mod size = length t.
Proof.
  intros Ht. rewrite app_length, encoded_length. symmetry. apply (Nat.mod_unique _ _ (length l)); lia.
Qed.

Lemma decode_items_spec k l t q : k <= length l ->
  decode_items size dec k (encoded l ++ t) q = (q ++ take k l, None).
Proof.
  revert l q. induction k as [|k IH]; intros l q Hk; [by rewrite app_nil_r|].
  destruct l as [|x l]; cbn in Hk; [lia|]. cbn [decode_items take].
  destruct Hc as [_ H]. destruct (H x) as [Hl Hd]. rewrite encoded_cons, <- app_assoc.
  rewrite take_app_alt by done. rewrite Hd. rewrite drop_app_alt by done.
  rewrite IH by lia. by rewrite <- app_assoc.
Qed.

Context (leaves : list N -> nat -> list N) (Hk : keeps_partial leaves).

Definition nfrom (h : nat) (l : list A) : list (result (nat * A) serr) :=
  imap (fun i x => Ok (h + i, x)) l.

Lemma nfrom_cons h x l : nfrom h (x :: l) = Ok (h, x) :: nfrom (h + 1) l.
Proof.
  unfold nfrom. cbn. rewrite Nat.add_0_r. f_equal. apply imap_ext. intros i y _. cbn. do 2 f_equal. lia.
Qed.

Lemma read_batch_spec bs i r t : drop i bs = encoded r ++ t -> length t < size ->
  exists k r' t', drop (i + length (read_batch size leaves i bs)) bs = encoded r' ++ t' /\ length t' < size /\
    r = k ++ r' /\ (r <> [] -> k <> []) /\
    decode_items size dec (length (read_batch size leaves i bs) / size) (read_batch size leaves i bs) [] = (k, None).
Proof.
  intros Hd Ht. pose proof size_pos as Hsz. unfold read_batch. rewrite Hd. unfold batch_size.
  destruct (Nat.leb_spec (size * 16) (length (encoded r ++ t))) as [Hle|Hlt].
  - assert (H16 : 16 <= length r).
    { rewrite app_length, encoded_length in Hle. nia. }
    replace (size * 16) with (16 * size) by lia.
    rewrite (encoded_take 16 r t) by done.
    exists (take 16 r), (drop 16 r), t. rewrite <- drop_drop, Hd.
    rewrite encoded_length, take_length_le by done. rewrite Nat.div_mul by lia.
    rewrite encoded_drop by done. split; [done|]. split; [done|]. split; [by rewrite take_drop|].
    split; [by destruct r|].
    rewrite <- (app_nil_r (encoded (take 16 r))). rewrite decode_items_spec; [|rewrite take_length; lia].
    cbn [app]. f_equal. apply take_ge. rewrite take_length. lia.
  - rewrite take_app_le.
    2: { pose proof (f_equal length (Hk (encoded r ++ t) (size * 16) Hlt)) as Hl. rewrite take_length in Hl. lia. }
    rewrite Hk by done. exists r, [], []. rewrite <- drop_drop, Hd, drop_all.
    split; [done|]. split; [done|]. split; [by rewrite app_nil_r|]. split; [done|].
    rewrite div_records by done. rewrite decode_items_spec by done. by rewrite take_ge.
Qed.

Lemma iter_items_spec fuel bs h q i r t : drop i bs = encoded r ++ t -> length t < size ->
  length q + length r < fuel ->
  iter_items size dec leaves fuel bs h (Reader q i) = Some (nfrom h (q ++ r)).
Proof.
  revert h q i r t. induction fuel as [|fuel IH]; intros h q i r t Hd Ht Hf; [lia|].
  cbn [iter_items]. unfold reader_next. destruct q as [|x q].
  - cbn [rd_queue rd_index].
    destruct (read_batch_spec bs i r t Hd Ht) as (k & r' & t' & Hd' & Ht' & -> & Hne & ->).
    destruct k as [|x k].
    + destruct r' as [|y r']; [done|]. by specialize (Hne ltac:(done)).
    + rewrite (IH (h + 1) k _ r' t' Hd' Ht'); [|rewrite app_length in Hf; cbn in Hf; lia].
      cbn [app]. by rewrite nfrom_cons.
  - cbn [rd_queue rd_index]. rewrite (IH (h + 1) q i r t Hd Ht); [|cbn in Hf; lia]. cbn [app]. by rewrite nfrom_cons.
Qed.

Lemma f_iter_spec g l t : length t < size ->
  f_iter size dec leaves (File (encoded l ++ t) g) = Some (nfrom 0 (g :: l)).
Proof.
  intros Ht. unfold f_iter. cbn [f_bytes f_genesis].
  rewrite (iter_items_spec _ _ 1 [] 0 l t); [by rewrite nfrom_cons|done|done|].
  rewrite app_length, encoded_length. pose proof size_pos. cbn. nia.
Qed.

Lemma f_get_spec g l t h : length t < size ->
  f_get size dec h (File (encoded l ++ t) g) = match (g :: l) !! h with Some x => Ok x | None => Err SEof end.
Proof.
  intros Ht. destruct h as [|ix]; [done|]. cbn [f_get f_bytes]. change ((g :: l) !! S ix) with (l !! ix).
  destruct (decide (ix < length l)) as [Hlt|Hge].
  - rewrite encoded_drop by lia. destruct (lookup_lt_is_Some_2 l ix Hlt) as [x Hx]. rewrite Hx.
    rewrite (drop_S _ _ _ Hx), encoded_cons, <- app_assoc. destruct Hc as [_ H]. destruct (H x) as [Hl Hd].
    rewrite app_length, Hl. destruct (Nat.ltb_spec (size + length (encoded (drop (S ix) l) ++ t)) size); [lia|].
    rewrite take_app_alt by done. by rewrite Hd.
  - rewrite (lookup_ge_None_2 l ix) by lia.
    rewrite drop_length, app_length, encoded_length.
    destruct (Nat.ltb_spec (length l * size + length t - ix * size) size) as [|Hle]; [done|].
    assert (length l * size <= ix * size) by (apply Nat.mul_le_mono_r; lia). lia.
Qed.

(** The file holds exactly the headers of the in-memory store. *)
Definition holds (m : memory A) (f : file A) : Prop :=
  f_genesis f = m_first m /\ f_bytes f = encoded (m_tail m).

Lemma holds_shape m f : holds m f -> f = File (encoded (m_tail m) ++ []) (m_first m).
Proof. destruct f. intros [H1 H2]. cbn in *. subst. by rewrite app_nil_r. Qed.

Lemma sum_enc hs : sum_list_with (fun h => length (enc h)) hs = length hs * size.
Proof.
  induction hs as [|x hs IH]; cbn; [done|]. rewrite IH. destruct Hc as [_ H]. rewrite (proj1 (H x)). done.
Qed.

Lemma len_ok m f : holds m f -> f_len size f = Ok (length (m_all m)).
Proof.
  intros ->%holds_shape. pose proof size_pos. unfold f_len. cbn [f_bytes].
  rewrite mod_records, div_records by (cbn; lia). cbn. by rewrite Nat.add_1_r.
Qed.

Lemma step_simulates m f o : holds m f ->
  match o with SRollback h => h <= length (m_tail m) | _ => True end ->
  exists f', f_step size enc dec leaves f o = Some (f', (m_step m o).2) /\ holds (m_step m o).1 f'.
Proof.
  intros Hh Ho. pose proof size_pos as Hsz. pose proof (holds_shape _ _ Hh) as Hf. pose proof (len_ok _ _ Hh) as Hlen.
  destruct o as [hs|h|h| | | | | |]; cbn [f_step m_step].
  - unfold f_put, m_put. cbn [fst snd]. eexists. split.
    + do 4 f_equal. rewrite sum_enc. subst f. cbn [f_bytes]. rewrite app_nil_r, encoded_length, <- Nat.mul_add_distr_r.
      rewrite Nat.div_mul by lia. cbn. rewrite app_length. lia.
    + subst f. split; cbn; [done|]. rewrite app_nil_r. exact (eq_sym (encoded_app _ _)).
  - eexists. split; [done|]. subst f. split; cbn [fst f_rollback f_genesis f_bytes]; [by destruct h|].
    unfold set_len. rewrite app_nil_r, encoded_length.
    replace (h * size - length (m_tail m) * size) with 0 by nia. cbn [replicate]. rewrite app_nil_r.
    rewrite <- (app_nil_r (encoded (m_tail m))), encoded_take by done. by destruct h.
  - exists f. split; [|done]. subst f. rewrite f_get_spec by (cbn; lia). done.
  - exists f. by rewrite Hlen.
  - exists f. unfold f_height. by rewrite Hlen.
  - exists f. subst f. rewrite f_iter_spec by (cbn; lia). done.
  - exists f. unfold f_check. by rewrite Hlen.
  - exists f. split; [|done]. unfold f_heal. subst f. cbn [f_bytes]. rewrite mod_records by (cbn; lia). done.
  - by exists f.
Qed.

Lemma run_simulates os : forall m f, holds m f -> rollbacks_exist m os ->
  exists f', f_run size enc dec leaves f os = Some (f', (m_run m os).2) /\ holds (m_run m os).1 f'.
Proof.
  induction os as [|o os IH]; intros m f Hh Hr; cbn; [by exists f|]. destruct Hr as [Ho Hr].
  destruct (step_simulates m f o Hh Ho) as (f1 & -> & H1).
  destruct (m_step m o) as [m1 r]. cbn [fst snd] in *.
  destruct (IH m1 f1 H1 Hr) as (f2 & -> & H2). destruct (m_run m1 os) as [m2 rs]. cbn in *. by exists f2.
Qed.

(** Two stores that start with the same headers. *)
Lemma file_like_memory g l os : rollbacks_exist (Memory g l) os ->
  exists f', f_run size enc dec leaves (File (encoded l) g) os = Some (f', (m_run (Memory g l) os).2) /\
    f_genesis f' = m_first (m_run (Memory g l) os).1 /\
    f_bytes f' = encoded (m_tail (m_run (Memory g l) os).1).
Proof.
  intros Hr. destruct (run_simulates os (Memory g l) (File (encoded l) g)) as (f' & H1 & H2 & H3); [done|done|].
  by exists f'.
Qed.

Lemma set_len_records l t : set_len (length l * size) (encoded l ++ t) = encoded l.
Proof.
  unfold set_len. rewrite encoded_take by done. rewrite take_ge by done.
  rewrite app_length, encoded_length. replace (length l * size - _) with 0 by lia. by rewrite app_nil_r.
Qed.

Lemma heal_records (g : A) l t : length t < size -> f_heal size (File (encoded l ++ t) g) = File (encoded l) g.
Proof.
  intros Ht. unfold f_heal. cbn [f_bytes f_genesis]. rewrite mod_records by done.
  destruct (Nat.eqb_spec (length t) 0) as [E|E]; cbn [negb].
  - apply nil_length_inv in E as ->. by rewrite app_nil_r.
  - f_equal. replace (length (encoded l ++ t) - length t) with (length l * size);
      [apply set_len_records|]. rewrite app_length, encoded_length. lia.
Qed.
End Files.

(** ** Healing, for arbitrary file contents *)
Section Heal.
Context {A : Type} (size : nat) (Hs : 0 < size).
Implicit Types (f : file A).

Lemma heal_bytes f : f_bytes (f_heal size f) = take (length (f_bytes f) / size * size) (f_bytes f) /\
  f_genesis (f_heal size f) = f_genesis f.
Proof.
  unfold f_heal. pose proof (Nat.div_mod_eq (length (f_bytes f)) size) as Hd.
  destruct (Nat.eqb_spec (length (f_bytes f) mod size) 0) as [E|E]; cbn [negb].
  - split; [|done]. symmetry. apply take_ge. lia.
  - cbn. split; [|done]. unfold set_len. replace (_ - _ - _) with 0 by lia. rewrite app_nil_r.
    rewrite Hd at 1. rewrite (Nat.mul_comm _ size). by rewrite Nat.add_sub.
Qed.

Lemma heal_len f : length (f_bytes (f_heal size f)) = length (f_bytes f) / size * size.
Proof.
  destruct (heal_bytes f) as [-> _]. rewrite take_length.
  pose proof (Nat.div_mod_eq (length (f_bytes f)) size). lia.
Qed.

Lemma heal_facts (dec : list N -> option A) f :
  (* only an incomplete record is removed, and only at the end *)
  (exists torn, f_bytes f = f_bytes (f_heal size f) ++ torn /\ length torn < size /\
     f_genesis (f_heal size f) = f_genesis f) /\
  (* every record can still be read *)
  (forall h, f_get size dec h (f_heal size f) = f_get size dec h f) /\
  (* the healed file is well-formed and holds every complete record *)
  f_check size (f_heal size f) = Ok tt /\
  f_len size (f_heal size f) = Ok (length (f_bytes f) / size + 1) /\
  (* a well-formed file is left alone *)
  (f_check size f = Ok tt <-> length (f_bytes f) mod size = 0) /\
  (f_check size f = Ok tt -> f_heal size f = f).
Proof.
  pose proof (Nat.div_mod_eq (length (f_bytes f)) size) as Hd.
  pose proof (Nat.mod_upper_bound (length (f_bytes f)) size ltac:(lia)) as Hm.
  destruct (heal_bytes f) as [Hb Hg]. pose proof (heal_len f) as Hl.
  assert (Hlen : f_len size (f_heal size f) = Ok (length (f_bytes f) / size + 1)).
  { unfold f_len. rewrite Hl, Nat.mod_mul, Nat.div_mul by lia. done. }
  assert (Hcheck : f_check size f = Ok tt <-> length (f_bytes f) mod size = 0).
  { unfold f_check, f_len. destruct (Nat.eqb_spec (length (f_bytes f) mod size) 0); done. }
  split; [|split; [|split; [|split; [|split]]]].
  - exists (drop (length (f_bytes f) / size * size) (f_bytes f)). split; [by rewrite Hb, take_drop|].
    split; [|done]. rewrite drop_length. lia.
  - intros h. destruct h as [|ix]; [cbn; by rewrite Hg|]. cbn [f_get]. rewrite !drop_length, Hl.
    set (n := length (f_bytes f) / size) in *.
    destruct (decide (ix < n)) as [Hi|Hi].
    + assert (Hn : ix * size + size <= n * size) by nia.
      destruct (Nat.ltb_spec (n * size - ix * size) size); [lia|].
      destruct (Nat.ltb_spec (length (f_bytes f) - ix * size) size); [lia|].
      rewrite Hb. rewrite !take_drop_commute, take_take, Nat.min_l by lia. done.
    + assert (Hn : n * size <= ix * size) by nia.
      destruct (Nat.ltb_spec (n * size - ix * size) size); [|lia].
      destruct (Nat.ltb_spec (length (f_bytes f) - ix * size) size); [done|lia].
  - unfold f_check. by rewrite Hlen.
  - done.
  - done.
  - intros E%Hcheck. unfold f_heal. by rewrite E.
Qed.
End Heal.
