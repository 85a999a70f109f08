(** Crashes while the header cache updates its file store. *)
From Verif Require Import Base PowModel BlockModel BlockSpec BlockProofs BlockOps BlockImport
  BlockRun BlockHistory BlockFacts BlockMain StoreModel StoreSpec StoreProofs.
Open Scope N_scope.

Lemma prefix_take {A} (l : list A) k : take k l `prefix_of` l.
Proof. exists (drop k l). by rewrite take_drop. Qed.

Section Crash.
Context (H : header -> N) (ng : network -> N) (s : store) (ps : params) (cps : list (N * N))
  (Hps : params_ok ps).
Notation reachable := (reachable H ng s ps cps).
Notation transition := (transition H ng s ps cps).
Notation g := (s_genesis s).

(** One header handed to the cache. *)
Definition one_header (o : op) (ch : choice) : Prop :=
  match o with OImport l _ => exists hd, l = [(hd, ch)] | OExtend _ _ ch' => ch' = ch end.

Lemma prefix_of_inv rank c tl st : INV H rank g c tl -> st `prefix_of` tl ->
  linked_from H (H g) st /\ Forall (rk H rank) st.
Proof.
  intros I [k ->]. split.
  - pose proof (i_linked I) as L. by apply (linked_app H) in L as [? _].
  - pose proof (i_rk I) as R. by apply Forall_app in R as [? _].
Qed.

Lemma store_prefix rank c tl o ch c' r : INV H rank g c tl -> c_params c = ps ->
  fair [o] -> Forall (rk H rank) (presented [o]) ->
  s_tail (c_store c) = tl -> one_header o ch -> step H c o = Val (c', r) ->
  exists tl', INV H rank g c' tl' /\
    (s_tail (c_store c') `prefix_of` tl \/ s_tail (c_store c') `prefix_of` tl') /\
    c_params c' = ps.
Proof.
  intros I Hp Ff Fr Hst Ho E. destruct o as [l now|hd now ch'].
  - destruct Ho as [hd ->]. unfold fair, inputs in Ff. cbn in Ff, Fr. apply Forall_cons in Ff as [Hf _].
    apply Forall_cons in Fr as [Hr _].
    destruct (import_one_spec H rank g c tl hd now ch I) as (c1 & tl' & r0 & r1 & E0 & E1 & I' & S & O & _);
      [by rewrite Hp|done|done|].
    change (step H c (OImport [(hd, ch)] now)) with (import_blocks H c [(hd, ch)] now) in E.
    rewrite E1 in E. injection E as <- <-. exists tl'. split; [done|]. split; [|by destruct S as [-> _]].
    inversion O as [e Hne Hc|He Hk|He Hk Hb|cd c2 tl2 r2 He Hk Hv Hle Heq Hbest Etl Hsa Hkn Hfl Ht]; subst.
    + by left.
    + by left.
    + by left.
    + rewrite Hsa. unfold store_after. destruct (ch_rollback_ok ch); [|by left].
      right. unfold switched. destruct (ch_put ch) as [k|]; [|done].
      apply prefix_app. apply prefix_take.
  - cbn in Ho. subst ch'. unfold fair, inputs in Ff. cbn in Ff, Fr. apply Forall_cons in Fr as [Hr _].
    destruct (extend_tip_spec H rank g c tl hd now ch I) as (c1 & tl' & r0 & E0 & I' & S & O); [by rewrite Hp|done|].
    cbn in E. rewrite E0 in E. injection E as <- <-. exists tl'. split; [done|]. split; [|by destruct S as [-> _]].
    inversion O as [| |c2 r2 A B Es Ek Er]; subst.
    + by left.
    + by left.
    + rewrite Es. right. destruct (ch_put ch) as [k|]; [|done]. apply prefix_app. apply prefix_take.
Qed.

Context (size : nat) (enc : header -> list N) (dec : list N -> option header)
  (Hc : codec size enc dec) (leaves : list N -> nat -> list N) (Hkp : keeps_partial leaves).

Lemma crash_reload os c outs o ch c' r torn :
  reachable os c outs -> io_ok os -> transition os c o c' r -> one_header o ch ->
  ng (p_network ps) = H g -> (length torn < size)%nat ->
  let f := f_heal size (File (encoded enc (s_tail (c_store c')) ++ torn) g) in
  exists st c1,
    f_check size f = Ok tt /\
    f_iter size dec leaves f = Some (imap (fun i x => Ok (i, x)) (g :: st)) /\
    from_store H ng (mkStore g st) ps cps = Val (Ok c1) /\
    linked_from H (H g) st /\ active c1 = g :: st /\
    (active c1 `prefix_of` active c \/ active c1 `prefix_of` active c').
Proof.
  intros R Hio T Ho Hng Ht f.
  pose proof (store_mirror H ng s ps cps Hps os c outs R Hio) as Hm.
  destruct (trans_inv H ng s ps cps Hps os c o c' r T) as (rank & tl & tl0 & I & _ & Ep & _ & _ & Ff).
  rewrite (inv_active I), (i_sg I) in Hm. injection Hm as Hm.
  destruct (store_prefix rank c tl o ch c' r) as (tl' & I' & Hpre & Ep'); [done|done|apply T| |done|done|apply T|].
  { unfold presented, inputs. cbn. rewrite app_nil_r. apply Forall_fmap. eapply Forall_impl; [exact Ff|]. by intros x [_ ?]. }
  set (st := s_tail (c_store c')) in *. exists st.
  assert (Ef : f = File (encoded enc st) g) by (apply (heal_records size enc dec Hc g st torn Ht)).
  assert (HL : linked_from H (H g) st /\ Forall (rk H rank) st).
  { destruct Hpre as [Hpre|Hpre]; [by apply (prefix_of_inv rank c tl)|by apply (prefix_of_inv rank c' tl')]. }
  destruct HL as [L Rk].
  pose proof (from_store_spec H rank g ng (mkStore g st) ps cps eq_refl L Rk) as Hs.
  destruct (_ || _) eqn:E; [|apply orb_false_iff in E as [_ E]; lia].
  destruct Hs as (c1 & E1 & I1 & _). exists c1.
  assert (Hh : holds enc (Memory g st) (File (encoded enc st) g)) by done.
  split; [|split; [|split; [done|split; [done|split]]]].
  - rewrite Ef. unfold f_check. by rewrite (len_ok size enc dec Hc _ _ Hh).
  - rewrite Ef. rewrite <- (app_nil_r (encoded enc st)).
    rewrite (f_iter_spec size enc dec Hc leaves Hkp g st []) by (cbn; apply (size_pos size enc dec Hc)). done.
  - by rewrite (inv_active I1).
  - rewrite (inv_active I1), (inv_active I), (inv_active I'). cbn [s_tail].
    destruct Hpre as [Hpre|Hpre]; [left|right]; by apply prefix_cons.
Qed.
End Crash.
