(** What the address manager asks for and when, and what it learns. *)
From Verif Require Import Base AddrModel AddrSpec AddrProofs AddrMain AddrStep AddrFacts.
Open Scope N_scope.

Section More.
Context (cf : aconf).

Lemma group_key i j : same_group i j -> addr_key i = addr_key j.
Proof. unfold same_group, addr_key. destruct i as [[|] x], j as [[|] y]; cbn [fst snd]; intros [? E]; try done; by rewrite E. Qed.

Lemma group_bound store t0 os s i (l : list ip) : addr_history cf store t0 os s -> NoDup l ->
  (forall j, j ∈ l -> is_Some (am_peers s !! j) /\ same_group i j) -> lenN l <= 256.
Proof.
  intros Hh%history_inv Nd A. eapply (class_bound s l (addr_key i)); [apply Hh|done|]. intros j Ij. destruct (A j Ij) as [P G]. split; [done|]. symmetry. by apply group_key.
Qed.
Lemma reply_groups store t0 os s from e s' x : addr_history cf store t0 os s -> fair_aenv e ->
  addr_step cf (AGetAddr from, e) s = Val (s', x) ->
  exists l ips, x = [AoAddr from l] /\ lenN l <= 255 /\ NoDup ips /\ (forall i j, i ∈ ips -> j ∈ ips -> same_group i j -> i = j) /\
    Forall2 (fun p i => exists ka, am_peers s' !! i = Some ka /\ p = (stamp (ka_active ka), ka_addr ka)) l ips.
Proof.
  intros Hh Fe E. destruct (getaddr_reply cf store t0 os s from e s' x Hh Fe E) as (l & ips & -> & L & Nd & F). exists l, ips.
  split; [done|]. split; [done|]. change (map addr_key ips) with (addr_key <$> ips) in Nd. split; [by apply NoDup_fmap_1 in Nd|]. split; [|done].
  intros i j Ii Ij G%group_key. apply elem_of_list_lookup in Ii as [n Ei]. apply elem_of_list_lookup in Ij as [m Ej].
  assert (n = m) as ->; [|congruence]. apply (NoDup_lookup (addr_key <$> ips) n m (addr_key i)); [done| |]; rewrite list_lookup_fmap; [by rewrite Ei|rewrite Ej; cbn; by rewrite G].
Qed.

(** ** Learning *)
Lemma acceptable_is time s active a i port : socket_addr a = Some (i, port) -> acceptable_addr cf time active a i -> (i, port) ∉ am_local s -> i ∉ am_bans s ->
  acceptable cf time s active a = Some i.
Proof.
  intros Ea (A1 & A2 & A3 & A4 & A5 & A6 & A7 & A8) Nl Nb. unfold acceptable. rewrite A1, A2, A3. cbn [negb orb].
  destruct (N.eqb_spec active 0); [lia|]. destruct (N.ltb_spec (time + 3600000) (active * 1000)); [lia|]. rewrite Ea. unfold in_domains. cbn [fst].
  rewrite A6. cbn [negb]. rewrite bool_decide_eq_false_2 by done. rewrite bool_decide_eq_false_2 by done. by rewrite A7, A8.
Qed.
Lemma insert_one_stored e n time src active a s s' i : fair_aenv e -> wf (am_ranges s) (am_peers s) [] ->
  acceptable cf time s active a = Some i -> insert_one cf e n time src active a s = Val s' -> is_Some (am_peers s' !! i).
Proof.
  intros Fe W Ac E. unfold insert_one in E. rewrite Ac in E. destruct (am_peers s !! i) as [ka0|] eqn:Pi; [injection E as <-; by eexists|].
  set (ka := new_known a src (Some (active * 1000))) in E. set (s0 := with_peers s (<[i:=ka]> (am_peers s))) in E.
  destruct (populate_wf (ae_order e n) i [] s0) as (s1 & E1 & _ & _ & _ & _ & _ & _ & Pi' & _).
  { exact (proj1 Fe n). }
  { split; [apply W|apply W|]. intros j. change (am_ranges s0) with (am_ranges s). rewrite (wf_in _ _ _ W j).
    change (am_peers s0) with (<[i:=ka]> (am_peers s)). destruct (decide (j = i)) as [->|Nj].
    - rewrite Pi. split; [by intros [[? [=]] _]|]. intros [_ A]. destruct A. by left.
    - rewrite lookup_insert_ne by done. set_solver. }
  { apply NoDup_singleton. }
  { change (am_peers s0) with (<[i:=ka]> (am_peers s)). by rewrite lookup_insert. }
  rewrite E in E1. by injection E1 as <-.
Qed.
Lemma insert_all_stored e time src i port l : fair_aenv e -> forall n s s', wf (am_ranges s) (am_peers s) [] ->
  (i, port) ∉ am_local s -> i ∉ am_bans s -> crowd i s + newcomers i l <= 256 ->
  (exists active a, (active, a) ∈ l /\ socket_addr a = Some (i, port) /\ acceptable_addr cf time active a i) ->
  insert_all cf e n time src l s = Val s' -> is_Some (am_peers s' !! i).
Proof.
  intros Fe. induction l as [|[ac b] l IH]; intros n s s' W Nl Nb Room (active & a & I & Ea & Ac) E; [by apply elem_of_nil in I|].
  cbn [insert_all] in E. destruct (insert_one_grown cf e n time src ac b s Fe W) as (s1 & E1 & G1). rewrite E1 in E. cbn [mbind_M] in E.
  pose proof (gr_crowd _ _ _ _ _ _ G1 i) as C1.
  assert (crowd i s1 + newcomers i l <= 256) as R1.
  { rewrite newcomers_cons in Room. rewrite newcomers_cons in C1. unfold newcomers at 1 in C1. unfold lenN in C1. cbn [List.filter length] in C1. lia. }
  apply elem_of_cons in I as [[= <- <-]|I].
  - destruct (insert_one_stored _ _ _ _ _ _ _ _ i Fe W (acceptable_is time s active a i port Ea Ac Nl Nb) E1) as [ka Ek].
    destruct (insert_all_grown cf e time src l Fe (n + 1) s1) as (s2 & E2 & G2); [apply G1|]. rewrite E in E2. injection E2 as <-.
    exists ka. by apply (gr_kept _ _ _ _ _ _ G2).
  - eapply (IH (n + 1) s1 s'); [apply G1|by rewrite (gr_local _ _ _ _ _ _ G1)|by rewrite (gr_bans _ _ _ _ _ _ G1)|done|by exists active, a|done].
Qed.

(** ** The fields that insertion leaves alone *)
Definition aside (s s' : amgr) : Prop :=
  am_sources s' = am_sources s /\ am_local s' = am_local s /\ am_bans s' = am_bans s /\ am_request s' = am_request s.
Lemma populate_aside f i s s' : populate f i s = Val s' -> aside s s'.
Proof. unfold populate. destruct (_ =? _); [destruct (pick _ _); [|done]|]; by intros [= <-]. Qed.
Lemma insert_one_aside e n time src active a s s' : insert_one cf e n time src active a s = Val s' -> aside s s'.
Proof.
  unfold insert_one. destruct (acceptable _ _ _ _ _) as [i|]; [|by intros [= <-]]. destruct (am_peers s !! i); [by intros [= <-]|].
  intros E%populate_aside. exact E.
Qed.
Lemma insert_all_aside e time src l : forall n s s', insert_all cf e n time src l s = Val s' -> aside s s'.
Proof.
  induction l as [|[ac a] l IH]; intros n s s' E; cbn [insert_all] in E; [by injection E as <-|].
  destruct (insert_one cf e n time src ac a s) as [s1|] eqn:E1; [|done]. cbn [mbind_M] in E.
  apply insert_one_aside in E1 as (? & ? & ? & ?). apply IH in E as (? & ? & ? & ?). unfold aside. intuition congruence.
Qed.
Lemma populate_all_aside e l : forall n s s', populate_all e n l s = Val s' -> aside s s'.
Proof.
  induction l as [|i l IH]; intros n s s' E; cbn [populate_all] in E; [by injection E as <-|].
  destruct (populate _ i s) as [s1|] eqn:E1; [|done]. cbn [mbind_M] in E.
  apply populate_aside in E1 as (? & ? & ? & ?). apply IH in E as (? & ? & ? & ?). unfold aside. intuition congruence.
Qed.

Record noted (oe : addr_op * aenv) (x : list aout) (s s' : amgr) : Prop := {
  no_source : forall a, a ∈ am_sources s' <-> source_step a oe.1 (bool_decide (a.1 ∈ am_connected s)) (bool_decide (a ∈ am_sources s)) = true;
  no_local : forall a, a ∈ am_local s' <-> a ∈ am_local s \/ told_own a oe.1;
  no_bans : forall i, i ∈ am_bans s' -> i ∈ am_bans s \/ faulted i oe.1;
  no_request : default 0 (am_request s') = if out_of_addresses x then ae_now oe.2 else default 0 (am_request s);
}.
Definition neutral (o : addr_op) : Prop := match o with ANegotiated _ _ _ _ | ADisconnected _ _ => False | _ => True end.
Lemma noted_aside oe x s s' : aside s s' -> neutral oe.1 -> out_of_addresses x = false -> noted oe x s s'.
Proof.
  destruct oe as [o e]. cbn [fst]. intros (E1 & E2 & E3 & E4) Nu Ex. split; cbn [fst].
  - intros a. rewrite E1. unfold source_step. destruct o; try done; by rewrite bool_decide_eq_true.
  - intros a. rewrite E2. unfold told_own. destruct o; try done; tauto.
  - intros i. rewrite E3. by left.
  - by rewrite E4, Ex.
Qed.
Lemma ban_aside i s : am_sources (ban i s) = am_sources s /\ am_local (ban i s) = am_local s /\ am_request (ban i s) = am_request s /\
  (forall j, j ∈ am_bans (ban i s) -> j ∈ am_bans s \/ j = i).
Proof. unfold ban. destruct (am_ranges s !! addr_key i); [|auto]. cbn. do 3 (split; [done|]). set_solver. Qed.
Lemma getaddrs_quiet l y : out_of_addresses (map AoGetAddr l ++ [AoTimer y]) = false.
Proof. induction l; done. Qed.
Lemma out_app x y : out_of_addresses (x ++ y) = out_of_addresses x || out_of_addresses y.
Proof. apply existsb_app. Qed.
Lemma out_idle e s : out_of_addresses (addr_idle e s).2 = false.
Proof. unfold addr_idle. cbn [snd]. by destruct (ae_flush e). Qed.
Lemma step_noted oe s s' x : addr_step cf oe s = Val (s', x) -> noted oe x s s'.
Proof.
  destruct oe as [o e]. intros E. destruct o as [|a|a sv ob rc|a|a r|from l|from|from| |l src|sv]; unfold addr_step in E; cbn [fst snd] in E.
  - injection E as <- <-. apply noted_aside; [done|done|apply (out_idle e s)].
  - injection E as <- <-. unfold addr_connected. destruct (_ || _); by apply noted_aside.
  - injection E as E. unfold addr_negotiated in E. cbn zeta in E.
    assert (am_sources s' = (if bool_decide (a.1 ∈ am_connected s) then if ob then {[a]} ∪ am_sources s else am_sources s else am_sources s) /\
      am_local s' = match socket_addr rc with Some r => {[r]} ∪ am_local s | None => am_local s end /\ am_bans s' = am_bans s /\ am_request s' = am_request s /\ out_of_addresses x = false)
      as (E1 & E2 & E3 & E4 & E5).
    { case_bool_decide; [|injection E as <- <-; done]. destruct (am_peers s !! a.1) as [k|]; injection E as <- <-; [|done]. do 4 (split; [done|]). by destruct (ka_success k). }
    split; cbn [fst snd].
    + intros b. rewrite E1. cbn [source_step]. destruct (decide (a = b)) as [D|D].
      * subst b. destruct (bool_decide (a.1 ∈ am_connected s)); [destruct ob|]; cbn [andb].
        -- rewrite orb_true_r. set_solver.
        -- by rewrite orb_false_r, bool_decide_eq_true.
        -- by rewrite orb_false_r, bool_decide_eq_true.
      * rewrite bool_decide_eq_true. destruct (bool_decide _); [destruct ob|]; set_solver.
    + intros b. rewrite E2. cbn [told_own]. destruct (socket_addr rc) as [r|]; [|naive_solver]. rewrite elem_of_union, elem_of_singleton. naive_solver.
    + rewrite E3. by left.
    + by rewrite E4, E5.
  - injection E as <- <-. by apply noted_aside.
  - injection E as <- <-. unfold addr_disconnected. case_bool_decide as Co.
    + set (s0 := AMgr (am_peers s) (am_bans s) (am_ranges s) (am_connected s ∖ {[a.1]}) (am_sources s ∖ {[a]}) (am_local s) (am_request s) (am_idle s)).
      destruct (ban_aside a.1 s0) as (B1 & B2 & B3 & B4).
      split; cbn [fst snd].
      * intros b. assert (am_sources (if bans_for r then ban a.1 s0 else s0) = am_sources s ∖ {[a]}) as -> by (destruct (bans_for r); [by rewrite B1|done]).
        cbn [source_step]. destruct (decide (a = b)) as [D|D]; [subst b; rewrite (bool_decide_eq_true_2 (a.1 ∈ am_connected s)) by done; cbn [negb]; rewrite andb_false_r; set_solver|].
        rewrite bool_decide_eq_true. set_solver.
      * intros b. assert (am_local (if bans_for r then ban a.1 s0 else s0) = am_local s) as -> by (destruct (bans_for r); [by rewrite B2|done]). cbn. tauto.
      * intros i. destruct (bans_for r) eqn:Br; [|by left]. intros [?| ->]%B4; [by left|right]. split; [done|]. by apply severe_bans.
      * assert (am_request (if bans_for r then ban a.1 s0 else s0) = am_request s) as -> by (destruct (bans_for r); [by rewrite B3|done]). done.
    + split; cbn [fst snd]; try done.
      * intros b. cbn [source_step]. destruct (decide (a = b)) as [D|D]; [subst b; rewrite (bool_decide_eq_false_2 (a.1 ∈ am_connected s)) by done; cbn [negb]; rewrite andb_true_r|]; by rewrite bool_decide_eq_true.
      * intros b. cbn. tauto.
      * by left.
  - destruct (received_addr cf e from l (heard_from (ae_now e) from s)) as [s1|] eqn:R; [|done]. injection E as <- <-.
    apply noted_aside; [|done|done]. unfold received_addr in R. destruct (_ || _); [by injection R as <-|]. unfold addr_insert in R.
    destruct (am_idle _); [|done]. apply insert_all_aside in R. exact R.
  - unfold received_getaddr in E. destruct (one_per_range _ _ _ _) as [l|]; [|done]. injection E as <- <-. by apply noted_aside.
  - injection E as <- <-. by apply noted_aside.
  - unfold addr_timer in E.
    set (c := (if REQUEST_TIMEOUT <=? ae_now e - default 0 (am_request s) then _ else _)) in E.
    assert (match c with Val (s1, x1) => am_sources s1 = am_sources s /\ am_local s1 = am_local s /\ am_bans s1 = am_bans s /\ am_connected s1 = am_connected s /\
      default 0 (am_request s1) = if out_of_addresses x1 then ae_now e else default 0 (am_request s) | Panic _ => True end) as A.
    { unfold c. destruct (_ <=? _); [|done]. destruct (is_exhausted s) as [[|]|]; cbn [mbind_M]; [|done|done]. done. }
    destruct c as [[s1 x1]|]; [|done]. cbn [mbind_M] in E. destruct A as (E1 & E2 & E3 & E4 & E5).
    destruct (_ <=? _).
    + destruct (addr_idle e s1) as [s2 y] eqn:Ei. injection E as <- <-. unfold addr_idle in Ei. injection Ei as <- <-. split; cbn [fst snd am_sources am_local am_bans am_request].
      * intros a. rewrite E1. cbn. by rewrite bool_decide_eq_true.
      * intros a. rewrite E2. cbn. tauto.
      * rewrite E3. by left.
      * rewrite out_app, E5. replace (out_of_addresses ((if ae_flush e then [] else [AoError]) ++ [AoTimer ADDR_IDLE_TIMEOUT])) with false by (by destruct (ae_flush e)). by rewrite orb_false_r.
    + injection E as <- <-. split; cbn [fst snd].
      * intros a. rewrite E1. cbn. by rewrite bool_decide_eq_true.
      * intros a. rewrite E2. cbn. tauto.
      * rewrite E3. by left.
      * exact E5.
  - destruct (addr_insert cf e l src s) as [s1|] eqn:R; [|done]. injection E as <- <-.
    apply noted_aside; [|done|done]. unfold addr_insert in R. destruct (am_idle _); [|done]. by apply insert_all_aside in R.
  - destruct (addr_sample cf e sv s) as [[s1 r]|] eqn:R; [|done]. injection E as <- <-. apply noted_aside; [|done|done].
    unfold addr_sample, sample_with in R. destruct (_ || _); [by injection R as <- <-|]. destruct (am_idle s); [|done].
    destruct (sample_ranges _ _ _ _ _ _ _) as [[[i ka]|]|]; [| |done]; by injection R as <- <-.
Qed.

(** ** Over a history *)
Record told (os : list (addr_op * aenv)) (xs : list (list aout)) (s : amgr) : Prop := {
  to_source : forall a, a ∈ am_sources s <-> source_of a os false false = true;
  to_local : forall a, a ∈ am_local s <-> Exists (fun oe => told_own a oe.1) os;
  to_bans : forall i, i ∈ am_bans s -> Exists (fun oe => faulted i oe.1) os;
  to_request : default 0 (am_request s) = ran_out os xs 0;
}.
Lemma source_of_app a os oe : forall on b, source_of a (os ++ [oe]) on b = source_step a oe.1 (online a.1 os on) (source_of a os on b).
Proof. induction os as [|o os IH]; intros on b; [done|]. cbn. apply IH. Qed.
Lemma ran_out_app os oe xs x : length xs = length os -> forall v, ran_out (os ++ [oe]) (xs ++ [x]) v = if out_of_addresses x then ae_now oe.2 else ran_out os xs v.
Proof. revert xs. induction os as [|o os IH]; intros [|y xs] L v; try done. cbn. apply IH. by injection L. Qed.
Lemma story_history store t0 os xs s : addr_story cf store t0 os xs s -> addr_history cf store t0 os s.
Proof. intros (e0 & e1 & s0 & s1 & x1 & R). by exists e0, e1, s0, s1, x1, xs. Qed.
Lemma history_story store t0 os s : addr_history cf store t0 os s -> exists xs, addr_story cf store t0 os xs s.
Proof. intros (e0 & e1 & s0 & s1 & x1 & xs & R). exists xs. by exists e0, e1, s0, s1, x1. Qed.
Lemma run_length os : forall s s' xs, addr_run cf os s = Val (s', xs) -> length xs = length os.
Proof.
  induction os as [|o os IH]; intros s s' xs R; cbn [addr_run] in R; [by injection R as <- <-|].
  destruct (addr_step cf o s) as [[s1 x]|]; [|done]. cbn [mbind_M] in R. destruct (addr_run cf os s1) as [[s2 ys]|] eqn:R1; [|done]. injection R as <- <-. cbn. f_equal. by eapply IH.
Qed.
Lemma story_told store t0 os xs s : addr_story cf store t0 os xs s -> told os xs s.
Proof.
  intros (e0 & e1 & s0 & s1 & x1 & F0 & Fs & E0 & Et & E1 & R). revert xs s R. induction os as [|oe os IH] using rev_ind; intros xs s R.
  - injection R as <- <-. unfold addr_new in E0. apply populate_all_aside in E0 as (A1 & A2 & A3 & A4). cbn in E1. injection E1 as <- <-.
    split; cbn [addr_idle fst am_sources am_local am_bans am_request].
    + intros a. rewrite A1. cbn. set_solver.
    + intros a. rewrite A2. rewrite Exists_nil. cbn. set_solver.
    + intros i. rewrite A3. cbn. set_solver.
    + by rewrite A4.
  - apply Forall_app in Fs as [Fs [Fe _]%Forall_cons]. rewrite addr_run_snoc in R. destruct (addr_run cf os s1) as [[s2 ys]|] eqn:R1; [|done].
    cbn [mbind_M] in R. destruct (addr_step cf oe s2) as [[s3 y]|] eqn:E; [|done]. injection R as <- <-.
    destruct (IH Fs ys s2 eq_refl) as [I1 I2 I3 I4]. destruct (step_noted _ _ _ _ E) as [N1 N2 N3 N4].
    assert (inv cf store t0 os s2) as Iv by (eapply history_inv; by exists e0, e1, s0, s1, x1, ys). split.
    + intros a. rewrite N1, source_of_app.
      assert (bool_decide (a.1 ∈ am_connected s2) = online a.1 os false) as ->.
      { pose proof (iv_online _ _ _ _ _ Iv a.1). destruct (online a.1 os false); [apply bool_decide_eq_true|apply bool_decide_eq_false]; intuition congruence. }
      assert (bool_decide (a ∈ am_sources s2) = source_of a os false false) as ->; [|done].
      specialize (I1 a). destruct (source_of a os false false); [apply bool_decide_eq_true|apply bool_decide_eq_false]; intuition congruence.
    + intros a. rewrite N2, I2, Exists_app, Exists_cons, Exists_nil. tauto.
    + intros i Ib. rewrite Exists_app, Exists_cons. apply N3 in Ib as [Ib|Ib]; [left; by apply I3|by right; left].
    + rewrite N4, ran_out_app by (by eapply run_length). by rewrite I4.
Qed.

Lemma oversized e from l s s' x i : lenN l = 0 \/ 1000 < lenN l -> addr_step cf (AAddr from l, e) s = Val (s', x) ->
  is_Some (am_peers s' !! i) <-> is_Some (am_peers s !! i).
Proof.
  intros L E. unfold addr_step in E. cbn [fst snd] in E. unfold received_addr in E.
  assert ((lenN l =? 0) || (MAX_ADDR_ADDRESSES <? lenN l) = true) as X.
  { apply orb_true_iff. rewrite N.eqb_eq, N.ltb_lt. exact L. }
  rewrite X in E. injection E as <- <-. unfold heard_from, with_peers. cbn [am_peers]. apply alter_dom.
Qed.
Lemma stored store t0 os s from l e s' x active a i port : addr_history cf store t0 os s -> fair_aenv e ->
  addr_step cf (AAddr from l, e) s = Val (s', x) -> lenN l <= 1000 -> (active, a) ∈ l -> socket_addr a = Some (i, port) ->
  acceptable_addr cf (idled os t0) active a i -> Forall (fun oe => ~ told_own (i, port) oe.1) os -> Forall (fun oe => ~ faulted i oe.1) os ->
  crowd i s + newcomers i l <= 256 -> is_Some (am_peers s' !! i).
Proof.
  intros Hh Fe E L I Ea Ac Nt Nf Room. pose proof (history_inv _ _ _ _ _ Hh) as Iv. destruct (history_story _ _ _ _ Hh) as [xs St]. apply story_told in St as [_ T2 T3 _].
  unfold addr_step in E. cbn [fst snd] in E. unfold received_addr in E.
  assert ((lenN l =? 0) || (MAX_ADDR_ADDRESSES <? lenN l) = false) as X.
  { apply orb_false_iff. rewrite N.eqb_neq, N.ltb_ge. split; [|exact L]. intros Z. destruct l; [by apply elem_of_nil in I|]. unfold lenN in Z. cbn [length] in Z. lia. }
  rewrite X in E. unfold addr_insert in E. pose proof (touch_heard (ae_now e) from s) as T. set (h := heard_from (ae_now e) from s) in *.
  assert (am_idle h = Some (idled os t0)) as Ih by apply Iv. rewrite Ih in E.
  destruct (insert_all cf e 0 (idled os t0) (FromPeer from) l h) as [s1|] eqn:R; [|done]. injection E as <- <-.
  eapply (insert_all_stored e (idled os t0) (FromPeer from) i port l Fe 0 h); [eapply touch_wf; [exact T|apply Iv]| | | |by exists active, a|exact R].
  - change (am_local h) with (am_local s). rewrite T2. by rewrite <- Forall_Exists_neg in Nt || (intros X'; apply Exists_exists in X' as (oe & I' & P); rewrite Forall_forall in Nt; exact (Nt oe I' P)).
  - change (am_bans h) with (am_bans s). intros X'%T3. apply Exists_exists in X' as (oe & I' & P). rewrite Forall_forall in Nf. exact (Nf oe I' P).
  - by rewrite (touch_crowd s h i T).
Qed.

(** ** Asking for addresses *)
Lemma getaddr_in_map a l y : AoGetAddr a ∈ map AoGetAddr l ++ [AoTimer y] <-> a ∈ l.
Proof.
  change (map AoGetAddr l) with (AoGetAddr <$> l). rewrite elem_of_app, elem_of_list_fmap, elem_of_list_singleton. split.
  - intros [(b & [= ->] & I)|[=]]. done.
  - intros I. left. by exists a.
Qed.
Lemma timer_shape e s t s' x : am_idle s = Some t -> addr_step cf (ATimer, e) s = Val (s', x) ->
  let out := (60000 <=? ae_now e - default 0 (am_request s)) && forallb (fun p => unusable s t p.1 p.2) (map_to_list (am_peers s)) in
  exists y, (forall a, AoGetAddr a ∉ y) /\ AoExhausted ∉ y /\
    x = (if out then AoExhausted :: map AoGetAddr (ae_sources e (elements (am_sources s))) ++ [AoTimer REQUEST_TIMEOUT] else []) ++ y.
Proof.
  intros It E. cbn zeta. unfold addr_step in E. cbn [fst snd] in E. unfold addr_timer, is_exhausted in E. rewrite It in E. change REQUEST_TIMEOUT with 60000 in *.
  assert (forall a, AoGetAddr a ∉ (if ae_flush e then [] else [AoError]) ++ [AoTimer ADDR_IDLE_TIMEOUT]) as Y1 by (intros a; destruct (ae_flush e); set_solver).
  assert (AoExhausted ∉ (if ae_flush e then [] else [AoError]) ++ [AoTimer ADDR_IDLE_TIMEOUT]) as Y2 by (destruct (ae_flush e); set_solver).
  destruct (60000 <=? _); cbn [andb mbind_M] in *; [destruct (forallb _ _)|]; cbn [mbind_M am_idle] in E; rewrite ?It in E; destruct (ADDR_IDLE_TIMEOUT <=? _); injection E as <- <-;
    first [exists ((if ae_flush e then [] else [AoError]) ++ [AoTimer ADDR_IDLE_TIMEOUT]); done|exists []; split; [set_solver|]; split; [set_solver|]; by rewrite app_nil_r].
Qed.
Lemma exhausted_iff store t0 os xs s o e s' x : addr_story cf store t0 os xs s -> fair_aenv e -> addr_step cf (o, e) s = Val (s', x) ->
  (AoExhausted ∈ x <-> o = ATimer /\ 60000 <= ae_now e - ran_out os xs 0 /\
    forall i ka, am_peers s !! i = Some ka -> (ka_attempt ka <> None /\ ka_success ka = None) \/ idled os t0 - default 0 (ka_sampled ka) < 180000 \/ online i os false = true) /\
  forall a, AoGetAddr a ∈ x <-> (exists sv ob rc ka, o = ANegotiated a sv ob rc /\ online a.1 os false = true /\ am_peers s !! a.1 = Some ka /\ ka_success ka = None) \/
    (o = ATimer /\ AoExhausted ∈ x /\ source_of a os false false = true).
Proof.
  intros St Fe E. pose proof (story_told _ _ _ _ _ St) as [T1 _ _ T4]. pose proof (history_inv _ _ _ _ _ (story_history _ _ _ _ _ St)) as Iv.
  assert (o = ATimer \/ o <> ATimer) as [->|No] by (destruct o; auto).
  - destruct (timer_shape e s (idled os t0) s' x (iv_idle _ _ _ _ _ Iv) E) as (y & Y1 & Y2 & ->). rewrite T4.
    set (out := (60000 <=? ae_now e - ran_out os xs 0) && _).
    assert (AoExhausted ∈ (if out then AoExhausted :: map AoGetAddr (ae_sources e (elements (am_sources s))) ++ [AoTimer REQUEST_TIMEOUT] else []) ++ y <-> out = true) as X.
    { destruct out; [split; [done|intros _; left]|]. cbn [app]. split; [intros I; by destruct (Y2 I)|done]. }
    split.
    + rewrite X. unfold out. rewrite andb_true_iff, N.leb_le, forallb_forall. split.
      * intros [L A]. split; [done|]. split; [done|]. intros i ka Ei. specialize (A (i, ka)). cbn [fst snd] in A.
        rewrite <- elem_of_list_In, elem_of_map_to_list in A. specialize (A Ei). unfold unusable, SAMPLE_TIMEOUT in A. apply orb_true_iff in A as [[A|A]%orb_true_iff|A].
        -- left. apply andb_true_iff in A as [[? B]%bool_decide_eq_true C%bool_decide_eq_true]. by rewrite B.
        -- right. left. by apply N.ltb_lt.
        -- right. right. apply bool_decide_eq_true in A. by apply (iv_online _ _ _ _ _ Iv).
      * intros (_ & L & A). split; [done|]. intros [i ka] I%elem_of_list_In%elem_of_map_to_list. cbn [fst snd]. unfold unusable, SAMPLE_TIMEOUT. apply orb_true_iff. rewrite orb_true_iff.
        destruct (A i ka I) as [[B C]|[B|B]].
        -- left. left. apply andb_true_iff. split; apply bool_decide_eq_true; [|done]. destruct (ka_attempt ka); [by eexists|done].
        -- left. right. by apply N.ltb_lt.
        -- right. apply bool_decide_eq_true. by apply (iv_online _ _ _ _ _ Iv).
    + intros a. rewrite X. destruct out.
      * rewrite elem_of_app, elem_of_cons, getaddr_in_map. rewrite (proj2 (proj2 Fe) _), elem_of_elements, T1. split.
        -- intros [[[=]|I]|I]; [by right|by destruct (Y1 a I)].
        -- intros [(? & ? & ? & ? & [=] & _)|(_ & _ & I)]. left. by right.
      * cbn [app]. split; [intros I; by destruct (Y1 a I)|]. intros [(? & ? & ? & ? & [=] & _)|(_ & [=] & _)].
  - split.
    { split; [|by intros [? _]]. intros I. exfalso. unfold addr_step in E. cbn [fst snd] in E. destruct o as [|a|a sv ob rc|a|a r|from l|from|from| |l src|sv]; cbn [fst snd] in E.
      - injection E as <- <-. unfold addr_idle in I. cbn [snd] in I. destruct (ae_flush e); set_solver.
      - injection E as <- <-. set_solver.
      - injection E as E. unfold addr_negotiated in E. cbn zeta in E. case_bool_decide; [destruct (am_peers s !! a.1) as [k|]|]; injection E as <- <-; [destruct (ka_success k)| |]; set_solver.
      - injection E as <- <-. set_solver.
      - injection E as <- <-. set_solver.
      - destruct (received_addr _ _ _ _ _); [|done]. injection E as <- <-. set_solver.
      - unfold received_getaddr in E. destruct (one_per_range _ _ _ _); [|done]. injection E as <- <-. set_solver.
      - injection E as <- <-. set_solver.
      - done.
      - destruct (addr_insert _ _ _ _ _); [|done]. injection E as <- <-. set_solver.
      - destruct (addr_sample _ _ _ _) as [[? ?]|]; [|done]. injection E as <- <-. set_solver. }
    intros b. split.
    + intros I. left. unfold addr_step in E. cbn [fst snd] in E. destruct o as [|a|a sv ob rc|a|a r|from l|from|from| |l src|sv]; cbn [fst snd] in E.
      * injection E as <- <-. exfalso. unfold addr_idle in I. cbn [snd] in I. destruct (ae_flush e); set_solver.
      * injection E as <- <-. set_solver.
      * injection E as E. unfold addr_negotiated in E. cbn zeta in E. case_bool_decide as Co; [|injection E as <- <-; set_solver]. destruct (am_peers s !! a.1) as [k|] eqn:Ek; [|injection E as <- <-; set_solver].
        injection E as <- <-. destruct (ka_success k) eqn:Su; [set_solver|]. apply elem_of_list_singleton in I. injection I as ->. exists sv, ob, rc, k.
        split; [done|]. split; [by apply (iv_online _ _ _ _ _ Iv)|]. done.
      * injection E as <- <-. set_solver.
      * injection E as <- <-. set_solver.
      * destruct (received_addr _ _ _ _ _); [|done]. injection E as <- <-. set_solver.
      * unfold received_getaddr in E. destruct (one_per_range _ _ _ _); [|done]. injection E as <- <-. set_solver.
      * injection E as <- <-. set_solver.
      * done.
      * destruct (addr_insert _ _ _ _ _); [|done]. injection E as <- <-. set_solver.
      * destruct (addr_sample _ _ _ _) as [[? ?]|]; [|done]. injection E as <- <-. set_solver.
    + intros [(sv & ob & rc & ka & -> & On & Ek & Su)|[? _]]; [|done]. unfold addr_step in E. cbn [fst snd] in E. injection E as E. unfold addr_negotiated in E. cbn zeta in E.
      rewrite bool_decide_eq_true_2 in E by (by apply (iv_online _ _ _ _ _ Iv)). rewrite Ek in E. injection E as <- <-. rewrite Su. by left.
Qed.
End More.
