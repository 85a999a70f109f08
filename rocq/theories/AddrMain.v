(** Steps of the address manager. *)
From Verif Require Import Base AddrModel AddrSpec AddrProofs.
Open Scope N_scope.

Lemma wf_dom (ranges : gmap N (gset ip)) (p p' : gmap ip known) (l : list ip) : (forall i, is_Some (p' !! i) <-> is_Some (p !! i)) -> wf ranges p l -> wf ranges p' l.
Proof. intros D W. split; [apply W|apply W|]. intros i. rewrite D. apply W. Qed.
Lemma alter_dom (f : known -> known) (j : ip) (p : gmap ip known) (i : ip) : is_Some (alter f j p !! i) <-> is_Some (p !! i).
Proof. destruct (decide (i = j)) as [->|]; [rewrite lookup_alter|by rewrite lookup_alter_ne]. by rewrite fmap_is_Some. Qed.
Lemma insert_dom (j : ip) (k : known) (p : gmap ip known) (i : ip) : is_Some (p !! j) -> is_Some (<[j := k]> p !! i) <-> is_Some (p !! i).
Proof. intros S. destruct (decide (i = j)) as [->|]; [rewrite lookup_insert; split; eauto|by rewrite lookup_insert_ne]. Qed.

(** ** Banning *)
Lemma ban_wf i s : wf (am_ranges s) (am_peers s) [] -> wf (am_ranges (ban i s)) (am_peers (ban i s)) [].
Proof.
  intros W. unfold ban. destruct (am_ranges s !! addr_key i) as [r|] eqn:E; [|done]. cbn [am_ranges am_peers].
  assert (forall j, is_Some (delete i (am_peers s) !! j) /\ j ∉ [] <-> is_Some (am_peers s !! j) /\ j <> i) as D.
  { intros j. destruct (decide (j = i)) as [->|]; [rewrite lookup_delete|rewrite lookup_delete_ne by done].
    - split; [by intros [[? [=]] _]|by intros [_ []]].
    - set_solver. }
  case_decide as Em.
  - split.
    + intros k r' [_ E']%lookup_delete_Some. by apply (wf_range _ _ _ W k).
    + intros k r' j [_ E']%lookup_delete_Some. by apply (wf_key _ _ _ W k).
    + intros j. rewrite D. destruct (decide (addr_key j = addr_key i)) as [Ej|Nj].
      * rewrite Ej, lookup_delete. split; [by intros (? & [=] & _)|]. intros [Pj Nji].
        assert (exists r0, am_ranges s !! addr_key j = Some r0 /\ j ∈ r0) as (r0 & E0 & I0) by (apply (wf_in _ _ _ W); split; [done|set_solver]).
        rewrite Ej, E in E0. injection E0 as <-. assert (j ∈ r ∖ {[i]}) by set_solver. set_solver.
      * rewrite lookup_delete_ne by done. rewrite (wf_in _ _ _ W j). assert (j <> i) by (intros ->; done). set_solver.
  - split.
    + intros k r'. destruct (decide (k = addr_key i)) as [->|Nk]; [rewrite lookup_insert; intros [= <-]|rewrite lookup_insert_ne by done; apply (wf_range _ _ _ W)].
      split; [done|]. destruct (wf_range _ _ _ W _ _ E) as [_ L]. destruct (decide (i ∈ r)) as [I|I].
      * rewrite size_remove by done. lia.
      * assert (r ∖ {[i]} = r) as -> by set_solver. done.
    + intros k r' j. destruct (decide (k = addr_key i)) as [->|Nk]; [rewrite lookup_insert; intros [= <-]|rewrite lookup_insert_ne by done; apply (wf_key _ _ _ W)].
      intros [I _]%elem_of_difference. by apply (wf_key _ _ _ W _ r).
    + intros j. rewrite D. destruct (decide (addr_key j = addr_key i)) as [Ej|Nj].
      * rewrite Ej, lookup_insert. split.
        -- intros (r' & [= <-] & [I N]%elem_of_difference). split; [|set_solver]. apply (wf_in _ _ _ W). exists r. by rewrite Ej.
        -- intros [Pj Nji]. eexists. split; [done|].
           assert (exists r0, am_ranges s !! addr_key j = Some r0 /\ j ∈ r0) as (r0 & E0 & I0) by (apply (wf_in _ _ _ W); split; [done|set_solver]).
           rewrite Ej, E in E0. injection E0 as <-. set_solver.
      * rewrite lookup_insert_ne by done. rewrite (wf_in _ _ _ W j). assert (j <> i) by (intros ->; done). set_solver.
Qed.
Lemma ban_facts i s : am_idle (ban i s) = am_idle s /\ am_connected (ban i s) = am_connected s /\ am_local (ban i s) = am_local s /\
  am_bans s ⊆ am_bans (ban i s) /\ (forall j, j ∈ am_bans (ban i s) -> j ∈ am_bans s \/ j = i /\ am_peers (ban i s) !! i = None) /\
  am_peers (ban i s) ⊆ am_peers s /\ (forall j, j <> i -> am_peers (ban i s) !! j = am_peers s !! j) /\
  (forall j, crowd j (ban i s) <= crowd j s).
Proof.
  unfold ban. destruct (am_ranges s !! addr_key i) as [r|] eqn:E; [|repeat split; auto; lia].
  cbn [am_idle am_connected am_local am_bans am_peers]. do 3 (split; [done|]). split; [set_solver|].
  split; [intros j [->%elem_of_singleton|]%elem_of_union; [right; by rewrite lookup_delete|by left]|].
  split; [apply delete_subseteq|]. split; [intros j Nj; by apply lookup_delete_ne|].
  intros j. unfold crowd. cbn [am_ranges]. destruct (decide (addr_key j = addr_key i)) as [->|Nj].
  - rewrite E. cbn [default from_option id]. case_decide as Em.
    + rewrite lookup_delete. cbn [default from_option id]. change (elements (∅ : gset ip)) with (@nil ip). unfold lenN. cbn [length]. lia.
    + rewrite lookup_insert. cbn [default from_option id]. destruct (decide (i ∈ r)) as [I|I].
      * rewrite size_remove by done. lia.
      * assert (r ∖ {[i]} = r) as -> by set_solver. lia.
  - case_decide; [rewrite lookup_delete_ne by done|rewrite lookup_insert_ne by done]; lia.
Qed.

(** ** Sampling *)
Section Sample.
Context (cf : aconf).
Lemma sample_range_spec (s : amgr) (time : N) (pred : known -> bool) ips : Forall (fun i => is_Some (am_peers s !! i)) ips ->
  exists o, sample_range cf s time pred ips = Val o /\
  match o with
  | Some (i, ka) => i ∈ ips /\ am_peers s !! i = Some ka /\ usable cf s time pred i ka = true
  | None => forall i ka, i ∈ ips -> am_peers s !! i = Some ka -> usable cf s time pred i ka = false
  end.
Proof.
  induction ips as [|i ips IH]; intros A; cbn [sample_range]; [exists None; split; [done|]; intros i ka []%elem_of_nil|].
  apply Forall_cons in A as [[ka Ei] A]. rewrite Ei. destruct (usable cf s time pred i ka) eqn:U.
  - exists (Some (i, ka)). split; [done|]. split; [by left|]. done.
  - destruct (IH A) as (o & -> & S). exists o. split; [done|]. destruct o as [[j kj]|].
    + destruct S as (I & S). split; [by right|done].
    + intros j kj [->|I]%elem_of_cons; [congruence|by apply S].
Qed.
Lemma sample_ranges_spec (e : aenv) (s : amgr) (time : N) (pred : known -> bool) (ranges : list (gset ip)) : fair_aenv e -> forall n,
  Forall (fun r => r <> ∅ /\ forall i, i ∈ r -> is_Some (am_peers s !! i)) ranges ->
  exists o, sample_ranges cf e s time pred n ranges = Val o /\
  match o with
  | Some (i, ka) => am_peers s !! i = Some ka /\ usable cf s time pred i ka = true
  | None => forall i ka r, r ∈ ranges -> i ∈ r -> am_peers s !! i = Some ka -> usable cf s time pred i ka = false
  end.
Proof.
  intros Fe. induction ranges as [|r ranges IH]; intros n A; cbn [sample_ranges]; [exists None; split; [done|]; intros i ka r []%elem_of_nil|].
  apply Forall_cons in A as [[Ne Ar] A]. rewrite bool_decide_eq_false_2 by done. cbn [negb assertM].
  destruct (sample_range_spec s time pred (ae_order e n (elements r))) as (o & -> & S).
  { apply Forall_forall. intros i I. apply Ar. apply elem_of_elements. by rewrite (proj1 Fe n _) in I. }
  cbn [mbind_M]. destruct o as [[i ka]|].
  - exists (Some (i, ka)). split; [done|]. apply S.
  - destruct (IH (n + 1) A) as (o & -> & S'). exists o. split; [done|]. destruct o as [[i ka]|]; [done|].
    intros i ka r' [->|I]%elem_of_cons Ii Pi; [|by apply (S' i ka r')]. apply S; [|done]. rewrite (proj1 Fe n _). by apply elem_of_elements.
Qed.
Lemma values_ok (s : amgr) (r : gset ip) : wf (am_ranges s) (am_peers s) [] -> r ∈ map snd (map_to_list (am_ranges s)) ->
  r <> ∅ /\ forall i, i ∈ r -> is_Some (am_peers s !! i).
Proof.
  intros W ([k r'] & -> & I%elem_of_map_to_list)%elem_of_list_fmap. cbn [snd]. split; [by apply (wf_range _ _ _ W k)|].
  intros i Ii. apply (wf_in _ _ _ W). exists r'. by rewrite (wf_key _ _ _ W _ _ _ I Ii).
Qed.
Definition marked (time : N) (ka : known) : known :=
  Known (ka_addr ka) (ka_source ka) (ka_success ka) (Some time) (ka_attempt ka) (ka_active ka).
Lemma sample_with_spec (e : aenv) (pred : known -> bool) (s : amgr) (time : N) : fair_aenv e -> wf (am_ranges s) (am_peers s) [] -> am_idle s = Some time ->
  exists s' o, sample_with cf e pred s = Val (s', o) /\
  match o with
  | Some (a, src) => exists i ka, am_peers s !! i = Some ka /\ a = ka_addr ka /\ src = ka_source ka /\ usable cf s time pred i ka = true /\
      s' = with_peers s (<[i := marked time ka]> (am_peers s))
  | None => s' = s /\ forall i ka, am_peers s !! i = Some ka -> usable cf s time pred i ka = false
  end.
Proof.
  intros Fe W It. unfold sample_with. destruct (bool_decide (am_peers s = ∅) || bool_decide (am_ranges s = ∅)) eqn:Em.
  - exists s, None. split; [done|]. split; [done|]. intros i ka E. exfalso. apply orb_true_iff in Em as [Em|Em]; apply bool_decide_eq_true in Em.
    + rewrite Em in E. by rewrite lookup_empty in E.
    + assert (exists r, am_ranges s !! addr_key i = Some r /\ i ∈ r) as (r & Er & _) by (apply (wf_in _ _ _ W); split; [by eexists|set_solver]).
      rewrite Em in Er. by rewrite lookup_empty in Er.
  - rewrite It. destruct (sample_ranges_spec e s time pred (ae_ranges e (map snd (map_to_list (am_ranges s)))) Fe 0) as (o & -> & S).
    { apply Forall_forall. intros r I. rewrite (proj1 (proj2 Fe) _) in I. by apply values_ok. }
    cbn [mbind_M]. destruct o as [[i ka]|].
    + eexists _, _. split; [done|]. cbn beta iota. exists i, ka. by destruct S.
    + eexists _, _. split; [done|]. cbn beta iota. split; [done|]. intros i ka E.
      assert (exists r, am_ranges s !! addr_key i = Some r /\ i ∈ r) as (r & Er & Ir) by (apply (wf_in _ _ _ W); split; [by eexists|set_solver]).
      apply (S i ka r); [|done|done]. rewrite (proj1 (proj2 Fe) _). apply elem_of_list_fmap. exists (addr_key i, r). split; [done|]. by apply elem_of_map_to_list.
Qed.
Lemma usable_spec (s : amgr) (time : N) (pred : known -> bool) i ka : usable cf s time pred i ka = true ->
  (exists na, socket_addr (ka_addr ka) = Some na /\ in_domains cf na = true) /\
  (ka_attempt ka <> None -> ka_success ka <> None) /\
  SAMPLE_TIMEOUT <= time - default 0 (ka_sampled ka) /\ i ∉ am_connected s /\ pred ka = true.
Proof.
  unfold usable, unusable. intros [[A B]%andb_true_iff C]%andb_true_iff. apply negb_true_iff, orb_false_iff in B as [[B1 B2]%orb_false_iff B3].
  split; [destruct (socket_addr (ka_addr ka)); [by eexists|done]|]. split.
  - intros X Y. apply andb_false_iff in B1 as [B1|B1]; apply bool_decide_eq_false in B1; [|done]. destruct B1. destruct (ka_attempt ka); [by eexists|done].
  - apply N.ltb_ge in B2. apply bool_decide_eq_false in B3. done.
Qed.

(** ** Replies *)
Lemma one_per_range_spec (e : aenv) (s : amgr) (ranges : list (gset ip)) : fair_aenv e -> forall n,
  Forall (fun r => r <> ∅ /\ forall i, i ∈ r -> is_Some (am_peers s !! i)) ranges ->
  exists l, one_per_range e s n ranges = Val l /\
    Forall2 (fun r p => exists i ka, i ∈ r /\ am_peers s !! i = Some ka /\ p = (stamp (ka_active ka), ka_addr ka)) ranges l.
Proof.
  intros Fe. induction ranges as [|r ranges IH]; intros n A; cbn [one_per_range]; [exists []; split; [done|constructor]|].
  apply Forall_cons in A as [[Ne Ar] A]. destruct (pick_some (ae_order e n) r (proj1 Fe n) Ne) as [i Ei]. rewrite Ei.
  apply (pick_in _ _ _ (proj1 Fe n)) in Ei. destruct (Ar i Ei) as [ka Ek]. rewrite Ek.
  destruct (IH (n + 1) A) as (l & -> & F2). cbn [mbind_M]. eexists. split; [done|]. constructor; [|done]. exists i, ka. done.
Qed.
End Sample.
