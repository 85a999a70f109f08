(** Invariants of the address manager. *)
From Verif Require Import Base AddrModel AddrSpec.
Open Scope N_scope.

(** ** Routability *)
Lemma octet_div i a : i <= 3 -> octet i a = a / 2 ^ (8 * (3 - i)) mod 256.
Proof. done. Qed.
Lemma octets a : a < 2 ^ 32 -> a = octet 0 a * 2 ^ 24 + octet 1 a * 2 ^ 16 + octet 2 a * 2 ^ 8 + octet 3 a /\
  octet 0 a < 256 /\ octet 1 a < 256 /\ octet 2 a < 256 /\ octet 3 a < 256.
Proof.
  intros L. unfold octet.
  change (8 * (3 - 0)) with 24. change (8 * (3 - 1)) with 16. change (8 * (3 - 2)) with 8. change (8 * (3 - 3)) with 0.
  change (2 ^ 32) with 4294967296 in L. change (2 ^ 24) with 16777216. change (2 ^ 16) with 65536. change (2 ^ 8) with 256. change (2 ^ 0) with 1.
  rewrite N.div_1_r.
  pose proof (N.mod_lt (a / 16777216) 256 ltac:(lia)). pose proof (N.mod_lt (a / 65536) 256 ltac:(lia)).
  pose proof (N.mod_lt (a / 256) 256 ltac:(lia)). pose proof (N.mod_lt a 256 ltac:(lia)).
  split; [|done].
  assert (a / 16777216 < 256) by (apply N.div_lt_upper_bound; lia).
  assert ((a / 16777216) mod 256 = a / 16777216) as -> by (by apply N.mod_small).
  assert (a / 65536 / 256 = a / 16777216) as E1 by (rewrite N.div_div by lia; done).
  assert (a / 256 / 256 = a / 65536) as E2 by (rewrite N.div_div by lia; done).
  pose proof (N.div_mod a 256 ltac:(lia)) as D1. pose proof (N.div_mod (a / 256) 256 ltac:(lia)) as D2.
  pose proof (N.div_mod (a / 65536) 256 ltac:(lia)) as D3. rewrite E2 in D2. rewrite E1 in D3. lia.
Qed.
Section Nets.
Context (a : N) (L : a < 2 ^ 32).
Lemma net8 x : octet 0 a = x <-> net x 0 0 0 8 a.
Proof.
  destruct (octets a L) as (E & L0 & L1 & L2 & L3). unfold net. cbn zeta. change (2 ^ (32 - 8)) with (2 ^ 24).
  generalize dependent (octet 0 a). generalize dependent (octet 1 a). generalize dependent (octet 2 a). generalize dependent (octet 3 a).
  change (2 ^ 24) with 16777216. change (2 ^ 16) with 65536. change (2 ^ 8) with 256. intros. lia.
Qed.
Lemma net16 x y : y < 256 -> octet 0 a = x /\ octet 1 a = y <-> net x y 0 0 16 a.
Proof.
  destruct (octets a L) as (E & L0 & L1 & L2 & L3). unfold net. cbn zeta. change (2 ^ (32 - 16)) with (2 ^ 16).
  generalize dependent (octet 0 a). generalize dependent (octet 1 a). generalize dependent (octet 2 a). generalize dependent (octet 3 a).
  change (2 ^ 24) with 16777216. change (2 ^ 16) with 65536. change (2 ^ 8) with 256. intros. lia.
Qed.
Lemma net24 x y z : y < 256 -> z < 256 -> (octet 0 a = x /\ octet 1 a = y) /\ octet 2 a = z <-> net x y z 0 24 a.
Proof.
  destruct (octets a L) as (E & L0 & L1 & L2 & L3). unfold net. cbn zeta. change (2 ^ (32 - 24)) with (2 ^ 8).
  generalize dependent (octet 0 a). generalize dependent (octet 1 a). generalize dependent (octet 2 a). generalize dependent (octet 3 a).
  change (2 ^ 24) with 16777216. change (2 ^ 16) with 65536. change (2 ^ 8) with 256. intros. lia.
Qed.
Lemma net32 : ((octet 0 a = 255 /\ octet 1 a = 255) /\ octet 2 a = 255) /\ octet 3 a = 255 <-> net 255 255 255 255 32 a.
Proof.
  destruct (octets a L) as (E & L0 & L1 & L2 & L3). unfold net. cbn zeta. change (2 ^ (32 - 32)) with 1.
  generalize dependent (octet 0 a). generalize dependent (octet 1 a). generalize dependent (octet 2 a). generalize dependent (octet 3 a).
  change (2 ^ 24) with 16777216. change (2 ^ 16) with 65536. change (2 ^ 8) with 256. intros. lia.
Qed.
Lemma net12 : (octet 0 a = 172 /\ 16 <= octet 1 a) /\ octet 1 a <= 31 <-> net 172 16 0 0 12 a.
Proof.
  destruct (octets a L) as (E & L0 & L1 & L2 & L3). unfold net. cbn zeta. change (2 ^ (32 - 12)) with 1048576.
  generalize dependent (octet 0 a). generalize dependent (octet 1 a). generalize dependent (octet 2 a). generalize dependent (octet 3 a).
  change (2 ^ 24) with 16777216. change (2 ^ 16) with 65536. change (2 ^ 8) with 256. intros. lia.
Qed.
End Nets.
Lemma not_true_negb b : negb b = true <-> ~ b = true.
Proof. by destruct b. Qed.
Lemma routable_spec a : a < 2 ^ 32 ->
  is_routable (true, a) = true <-> a = 0xc0000009 \/ a = 0xc000000a \/ ~ reserved a.
Proof.
  intros L. unfold is_routable. cbn [fst snd].
  unfold ipv4_is_routable, is_private, is_loopback, is_link_local, is_broadcast, is_documentation, reserved.
  destruct (N.eqb_spec a 0xc0000009); [tauto|]. destruct (N.eqb_spec a 0xc000000a); [tauto|]. cbn [orb].
  rewrite !andb_true_iff, !not_true_negb, !orb_true_iff, !andb_true_iff, !N.eqb_eq, !N.leb_le.
  rewrite (net32 a L), (net24 a L 192 0 2), (net24 a L 198 51 100), (net24 a L 203 0 113) by done.
  rewrite (net12 a L), (net16 a L 192 168), (net16 a L 169 254) by done. rewrite !(net8 a L). tauto.
Qed.
Lemma local_unroutable i : is_local i = true -> is_routable i = false.
Proof.
  unfold is_local, is_routable, ipv4_is_routable. destruct i as [[|] a]; cbn [fst snd]; [|done].
  destruct (N.eqb_spec a 0xc0000009) as [->|_]; [by intros ?%Is_true_true; vm_compute in *|].
  destruct (N.eqb_spec a 0xc000000a) as [->|_]; [by intros ?%Is_true_true; vm_compute in *|]. cbn [orb].
  unfold is_unspecified. destruct (is_private a), (is_loopback a), (is_link_local a); try done. cbn [orb negb andb].
  intros [[[-> _]%andb_true_iff _]%andb_true_iff _]%andb_true_iff. cbn [negb]. by rewrite !andb_false_r.
Qed.

(** ** The range index *)
Record wf (ranges : gmap N (gset ip)) (peers : gmap ip known) (pending : list ip) : Prop := {
  wf_range : forall k r, ranges !! k = Some r -> r <> ∅ /\ lenN (elements r) <= 256;
  wf_key : forall k r i, ranges !! k = Some r -> i ∈ r -> addr_key i = k;
  wf_in : forall i, (exists r, ranges !! addr_key i = Some r /\ i ∈ r) <-> is_Some (peers !! i) /\ i ∉ pending;
}.
Lemma key_lt i : addr_key i < 255.
Proof. unfold addr_key. case_match; apply N.mod_lt; lia. Qed.

Lemma size_insert (r : gset ip) i : i ∉ r -> lenN (elements ({[i]} ∪ r)) = lenN (elements r) + 1.
Proof.
  intros A. unfold lenN. change (length (elements ({[i]} ∪ r))) with (size ({[i]} ∪ r)). change (length (elements r)) with (size r).
  rewrite size_union by set_solver. rewrite size_singleton. lia.
Qed.
Lemma size_remove (r : gset ip) i : i ∈ r -> lenN (elements (r ∖ {[i]})) = lenN (elements r) - 1.
Proof.
  intros A. unfold lenN. change (length (elements (r ∖ {[i]}))) with (size (r ∖ {[i]})). change (length (elements r)) with (size r).
  rewrite size_difference by set_solver. rewrite size_singleton. lia.
Qed.
Lemma size_pos (r : gset ip) i : i ∈ r -> 1 <= lenN (elements r).
Proof.
  intros A. unfold lenN. apply elem_of_elements in A. destruct (elements r); [by apply elem_of_nil in A|cbn [length]; lia].
Qed.

Definition order_ok (f : list ip -> list ip) : Prop := forall l, f l ≡ₚ l.
Lemma pick_in f r i : order_ok f -> pick f r = Some i -> i ∈ r.
Proof.
  unfold pick. intros F E. apply elem_of_elements. rewrite <- (F (elements r)). destruct (f (elements r)) as [|j l]; [done|].
  injection E as ->. by left.
Qed.
Lemma pick_some f r : order_ok f -> r <> ∅ -> exists i, pick f r = Some i.
Proof.
  unfold pick. intros F Ne. pose proof (F (elements r)) as P. destruct (f (elements r)) as [|j l]; [|by exists j].
  apply Permutation_nil in P. apply elements_empty_inv in P. apply leibniz_equiv in P. done.
Qed.

Lemma populate_wf f i l s : order_ok f -> wf (am_ranges s) (am_peers s) (i :: l) -> NoDup (i :: l) -> is_Some (am_peers s !! i) ->
  exists s', populate f i s = Val s' /\ wf (am_ranges s') (am_peers s') l /\
    am_bans s' = am_bans s /\ am_connected s' = am_connected s /\ am_idle s' = am_idle s /\ am_local s' = am_local s /\
    am_peers s' ⊆ am_peers s /\ is_Some (am_peers s' !! i) /\
    (forall j, j ∈ l -> am_peers s' !! j = am_peers s !! j) /\
    (crowd i s < 256 -> am_peers s' = am_peers s) /\
    (forall j, addr_key j <> addr_key i -> am_ranges s' !! addr_key j = am_ranges s !! addr_key j /\ am_peers s' !! j = am_peers s !! j) /\
    (crowd i s' <= crowd i s + 1).
Proof.
  intros F W [Ni Nd]%NoDup_cons Pi. unfold populate. set (k := addr_key i). set (r := default ∅ (am_ranges s !! k)).
  assert (i ∉ r) as Ir.
  { intros I. assert (exists r0, am_ranges s !! addr_key i = Some r0 /\ i ∈ r0) as [_ A]%(wf_in _ _ _ W); [|by destruct A; left].
    fold k. unfold r in I. destruct (am_ranges s !! k); [by eexists|set_solver]. }
  assert (forall j, j ∈ r -> addr_key j = k /\ is_Some (am_peers s !! j) /\ j ∉ i :: l) as Rj.
  { intros j I. unfold r in I. destruct (am_ranges s !! k) as [r0|] eqn:E; [|set_solver]. cbn in I.
    pose proof (wf_key _ _ _ W _ _ _ E I) as K. split; [done|]. apply (wf_in _ _ _ W). exists r0. by rewrite K. }
  assert (lenN (elements r) <= 256) as Lr.
  { unfold r. destruct (am_ranges s !! k) as [r0|] eqn:E; [by destruct (wf_range _ _ _ W _ _ E)|cbn; done]. }
  assert (crowd i s = lenN (elements r)) as Cr by done.
  unfold MAX_RANGE_SIZE. destruct (N.eqb_spec (lenN (elements r)) 256) as [Full|NFull].
  - destruct (pick_some f r F) as [v Ev]; [intros Er; rewrite Er in Full; by vm_compute in Full|]. rewrite Ev.
    apply (pick_in _ _ _ F) in Ev as Iv. destruct (Rj v Iv) as (Kv & Pv & Nv). apply not_elem_of_cons in Nv as [Nvi Nvl].
    eexists. split; [done|]. cbn [am_peers am_bans am_ranges am_connected am_sources am_local am_request am_idle].
    assert (i ∉ r ∖ {[v]}) as Irv by set_solver.
    split; [|do 4 (split; [done|]); split; [apply delete_subseteq|]].
    + split.
      * intros k' r'. destruct (decide (k' = k)) as [->|Nk]; [rewrite lookup_insert; intros [= <-]|rewrite lookup_insert_ne by done; apply (wf_range _ _ _ W)].
        split; [set_solver|]. rewrite size_insert by done. rewrite size_remove by done. lia.
      * intros k' r' j. destruct (decide (k' = k)) as [->|Nk]; [rewrite lookup_insert; intros [= <-]|rewrite lookup_insert_ne by done; apply (wf_key _ _ _ W)].
        intros [->%elem_of_singleton|[Ij _]%elem_of_difference]%elem_of_union; [done|]. by apply Rj.
      * intros j. destruct (decide (addr_key j = k)) as [Kj|Nk].
        -- rewrite Kj, lookup_insert. split.
           ++ intros (r' & [= <-] & [->%elem_of_singleton|[Ij Njv]%elem_of_difference]%elem_of_union).
              ** rewrite lookup_delete_ne by done. done.
              ** rewrite lookup_delete_ne by set_solver. destruct (Rj j Ij) as (_ & A & B). split; [done|]. set_solver.
           ++ intros [Pj Nj]. eexists. split; [done|]. apply elem_of_union.
              destruct (decide (j = i)) as [->|Nji]; [left; set_solver|right]. assert (j <> v) by (intros ->; by rewrite lookup_delete in Pj; destruct Pj).
              rewrite lookup_delete_ne in Pj by done.
              assert (exists r0, am_ranges s !! addr_key j = Some r0 /\ j ∈ r0) as (r0 & E0 & I0) by (apply (wf_in _ _ _ W); split; [done|set_solver]).
              rewrite Kj in E0. unfold r. rewrite E0. cbn. set_solver.
        -- rewrite lookup_insert_ne by done. assert (j <> v) by (intros ->; done). rewrite lookup_delete_ne by done.
           rewrite (wf_in _ _ _ W j). assert (j <> i) by (intros ->; done). set_solver.
    + split; [by rewrite lookup_delete_ne|]. split; [intros j Ij; apply lookup_delete_ne; set_solver|]. split; [rewrite Cr; lia|].
      split; [|].
      * intros j Nk. split; [by rewrite lookup_insert_ne|]. apply lookup_delete_ne. intros ->. done.
      * unfold crowd at 1. cbn [am_ranges]. fold k. rewrite lookup_insert. cbn [default from_option id]. rewrite size_insert, size_remove by done. rewrite Cr. lia.
  - eexists. split; [done|]. cbn [am_peers am_bans am_ranges am_connected am_sources am_local am_request am_idle].
    split; [|do 4 (split; [done|]); split; [done|]].
    + split.
      * intros k' r'. destruct (decide (k' = k)) as [->|Nk]; [rewrite lookup_insert; intros [= <-]|rewrite lookup_insert_ne by done; apply (wf_range _ _ _ W)].
        split; [set_solver|]. rewrite size_insert by done. lia.
      * intros k' r' j. destruct (decide (k' = k)) as [->|Nk]; [rewrite lookup_insert; intros [= <-]|rewrite lookup_insert_ne by done; apply (wf_key _ _ _ W)].
        intros [->%elem_of_singleton|Ij]%elem_of_union; [done|]. by apply Rj.
      * intros j. destruct (decide (addr_key j = k)) as [Kj|Nk].
        -- rewrite Kj, lookup_insert. split.
           ++ intros (r' & [= <-] & [->%elem_of_singleton|Ij]%elem_of_union); [done|].
              destruct (Rj j Ij) as (_ & A & B). split; [done|]. set_solver.
           ++ intros [Pj Nj]. eexists. split; [done|]. apply elem_of_union.
              destruct (decide (j = i)) as [->|Nji]; [left; set_solver|right].
              assert (exists r0, am_ranges s !! addr_key j = Some r0 /\ j ∈ r0) as (r0 & E0 & I0) by (apply (wf_in _ _ _ W); split; [done|set_solver]).
              rewrite Kj in E0. unfold r. by rewrite E0.
        -- rewrite lookup_insert_ne by done. rewrite (wf_in _ _ _ W j). assert (j <> i) by (intros ->; done). set_solver.
    + split; [done|]. split; [done|]. split; [done|]. split; [|].
      * intros j Nk. split; [by rewrite lookup_insert_ne|done].
      * unfold crowd at 1. cbn [am_ranges]. fold k. rewrite lookup_insert. cbn [default from_option id]. rewrite size_insert by done. rewrite Cr. lia.
Qed.

Lemma populate_all_wf e l : fair_aenv e -> forall n s, wf (am_ranges s) (am_peers s) l -> NoDup l -> Forall (fun i => is_Some (am_peers s !! i)) l ->
  exists s', populate_all e n l s = Val s' /\ wf (am_ranges s') (am_peers s') [] /\
    am_bans s' = am_bans s /\ am_connected s' = am_connected s /\ am_idle s' = am_idle s /\ am_local s' = am_local s /\ am_peers s' ⊆ am_peers s.
Proof.
  intros Fe. induction l as [|i l IH]; intros n s W Nd Al; cbn [populate_all].
  - exists s. do 6 (split; [done|]). done.
  - apply Forall_cons in Al as [Pi Al].
    destruct (populate_wf (ae_order e n) i l s) as (s1 & -> & W1 & B1 & C1 & I1 & L1 & P1 & _ & Pl & _); [exact (proj1 Fe n)|done|done|done|].
    cbn [mbind_M]. destruct (IH (n + 1) s1) as (s2 & E2 & W2 & B2 & C2 & I2 & L2 & P2); [done|by apply NoDup_cons in Nd as [_ Nd]| |].
    { rewrite Forall_forall in *. intros j Ij. rewrite Pl by done. auto. }
    exists s2. split; [done|]. split; [done|]. rewrite B2, C2, I2, L2. do 4 (split; [done|]). by etrans.
Qed.

(** ** Insertion *)
Section Insert.
Context (cf : aconf).
Lemma acceptable_some time s active a i : acceptable cf time s active a = Some i ->
  exists port, socket_addr a = Some (i, port) /\ acceptable_addr cf time active a i /\ (i, port) ∉ am_local s /\ i ∉ am_bans s.
Proof.
  unfold acceptable, acceptable_addr. intros E.
  destruct (has_services _ (ac_required cf)) eqn:E1; [cbn [negb] in E|done].
  destruct (has_services _ GETUTXO) eqn:E2; [done|]. destruct (has_services _ BLOOM) eqn:E3; [done|]. cbn [orb] in E.
  destruct (N.eqb_spec active 0); [done|]. destruct (N.ltb_spec (time + 3600000) (active * 1000)); [done|].
  destruct (socket_addr a) as [[j port]|]; [|done]. destruct (in_domains cf (j, port)) eqn:E4; [cbn [negb] in E|done].
  case_bool_decide; [done|]. case_bool_decide; [done|]. cbn [fst] in *.
  destruct (is_routable j) eqn:E5; [cbn [negb] in E|done]. destruct (is_local j) eqn:E6; [done|]. injection E as ->.
  exists port. split; [done|]. split; [|done]. split; [done|]. split; [done|]. split; [done|]. split; [lia|]. split; [lia|]. done.
Qed.

(** What an insertion may change. *)
Record grown (l : list (N * address)) (time : N) (src : source) (s s' : amgr) : Prop := {
  gr_wf : wf (am_ranges s') (am_peers s') [];
  gr_bans : am_bans s' = am_bans s;
  gr_connected : am_connected s' = am_connected s;
  gr_idle : am_idle s' = am_idle s;
  gr_local : am_local s' = am_local s;
  gr_peers : forall i ka, am_peers s' !! i = Some ka -> am_peers s !! i = Some ka \/
    exists active a port, (active, a) ∈ l /\ ka = new_known a src (Some (active * 1000)) /\
      socket_addr a = Some (i, port) /\ acceptable_addr cf time active a i /\ (i, port) ∉ am_local s /\ i ∉ am_bans s;
  gr_crowd : forall i, crowd i s' <= crowd i s + newcomers i l;
  gr_kept : forall i ka, am_peers s !! i = Some ka -> crowd i s + newcomers i l <= 256 -> am_peers s' !! i = Some ka;
}.
Lemma newcomers_cons i active a l : newcomers i ((active, a) :: l) =
  (match socket_addr a with Some na => if addr_key na.1 =? addr_key i then 1 else 0 | None => 0 end) + newcomers i l.
Proof.
  unfold newcomers, lenN. cbn [List.filter snd]. destruct (socket_addr a) as [na|]; [|lia]. destruct (addr_key na.1 =? addr_key i); cbn [length]; lia.
Qed.
Lemma grown_refl l time src s : wf (am_ranges s) (am_peers s) [] -> grown l time src s s.
Proof. intros W. split; try done; [auto|intros; lia]. Qed.
Lemma insert_one_grown e n time src active a s : fair_aenv e -> wf (am_ranges s) (am_peers s) [] ->
  exists s', insert_one cf e n time src active a s = Val s' /\ grown [(active, a)] time src s s'.
Proof.
  intros Fe W. unfold insert_one. destruct (acceptable cf time s active a) as [i|] eqn:Ac; [|exists s; split; [done|by apply grown_refl]].
  destruct (am_peers s !! i) as [ka0|] eqn:Pi; [exists s; split; [done|by apply grown_refl]|].
  apply acceptable_some in Ac as (port & Ea & Ok & Nl & Nb).
  set (ka := new_known a src (Some (active * 1000))). set (s0 := with_peers s (<[i:=ka]> (am_peers s))).
  assert (crowd i s0 = crowd i s) as C0 by done.
  destruct (populate_wf (ae_order e n) i [] s0) as (s' & E & W' & B & C & I & L & Sub & Pi' & _ & Room & Other & Cr).
  { exact (proj1 Fe n). }
  { split; [apply W|apply W|]. intros j. change (am_ranges s0) with (am_ranges s). rewrite (wf_in _ _ _ W j).
    change (am_peers s0) with (<[i:=ka]> (am_peers s)). destruct (decide (j = i)) as [->|Nj].
    - rewrite Pi. split; [by intros [[? [=]] _]|]. intros [_ A]. destruct A. by left.
    - rewrite lookup_insert_ne by done. set_solver. }
  { apply NoDup_singleton. }
  { change (am_peers s0) with (<[i:=ka]> (am_peers s)). by rewrite lookup_insert. }
  exists s'. split; [exact E|]. split; try done.
  - intros j kj Ej. assert (am_peers s0 !! j = Some kj) as E0 by (by eapply lookup_weaken).
    change (am_peers s0) with (<[i:=ka]> (am_peers s)) in E0. destruct (decide (j = i)) as [->|Nj].
    + rewrite lookup_insert in E0. injection E0 as <-. right. exists active, a, port. split; [by left|]. done.
    + rewrite lookup_insert_ne in E0 by done. by left.
  - intros j. rewrite newcomers_cons, Ea. cbn [fst]. destruct (N.eqb_spec (addr_key i) (addr_key j)) as [Ek|Nk].
    + unfold crowd in *. rewrite <- Ek. change (am_ranges s0) with (am_ranges s) in Cr. unfold newcomers, lenN in *. cbn [List.filter length]. lia.
    + unfold crowd. destruct (Other j ltac:(done)) as [-> _]. change (am_ranges s0) with (am_ranges s). lia.
  - intros j kj Ej. rewrite newcomers_cons, Ea. cbn [fst]. assert (j <> i) as Nj by (intros ->; congruence).
    assert (am_peers s0 !! j = Some kj) as E0 by (change (am_peers s0) with (<[i:=ka]> (am_peers s)); by rewrite lookup_insert_ne).
    destruct (N.eqb_spec (addr_key i) (addr_key j)) as [Ek|Nk].
    + intros Le. rewrite Room; [done|]. rewrite C0. unfold crowd in *. rewrite Ek. unfold newcomers, lenN in Le. cbn [List.filter length] in Le. unfold lenN. lia.
    + intros _. by destruct (Other j ltac:(done)) as [_ ->].
Qed.
Lemma grown_trans p l time src s s1 s2 : grown [p] time src s s1 -> grown l time src s1 s2 -> grown (p :: l) time src s s2.
Proof.
  intros G1 G2. destruct p as [active a].
  assert (forall i, newcomers i ((active, a) :: l) = newcomers i [(active, a)] + newcomers i l) as Nc.
  { intros i. rewrite !newcomers_cons. unfold newcomers at 2. unfold lenN. cbn [List.filter length]. lia. }
  split.
  - apply G2.
  - by rewrite (gr_bans _ _ _ _ _ G2), (gr_bans _ _ _ _ _ G1).
  - by rewrite (gr_connected _ _ _ _ _ G2), (gr_connected _ _ _ _ _ G1).
  - by rewrite (gr_idle _ _ _ _ _ G2), (gr_idle _ _ _ _ _ G1).
  - by rewrite (gr_local _ _ _ _ _ G2), (gr_local _ _ _ _ _ G1).
  - intros i ka [E|(ac & b & port & I & E & R)]%(gr_peers _ _ _ _ _ G2).
    + apply (gr_peers _ _ _ _ _ G1) in E as [E|(ac & b & port & I & R)]; [by left|right]. exists ac, b, port. split; [set_solver|done].
    + right. exists ac, b, port. split; [by right|]. rewrite (gr_local _ _ _ _ _ G1), (gr_bans _ _ _ _ _ G1) in R. done.
  - intros i. rewrite Nc. pose proof (gr_crowd _ _ _ _ _ G1 i). pose proof (gr_crowd _ _ _ _ _ G2 i). lia.
  - intros i ka E. rewrite Nc. intros Le. apply (gr_kept _ _ _ _ _ G2); [apply (gr_kept _ _ _ _ _ G1); [done|lia]|]. pose proof (gr_crowd _ _ _ _ _ G1 i). lia.
Qed.
Lemma insert_all_grown e time src l : fair_aenv e -> forall n s, wf (am_ranges s) (am_peers s) [] ->
  exists s', insert_all cf e n time src l s = Val s' /\ grown l time src s s'.
Proof.
  intros Fe. induction l as [|[active a] l IH]; intros n s W; cbn [insert_all]; [exists s; split; [done|by apply grown_refl]|].
  destruct (insert_one_grown e n time src active a s Fe W) as (s1 & -> & G1). cbn [mbind_M].
  destruct (IH (n + 1) s1) as (s2 & E2 & G2); [apply G1|]. exists s2. split; [done|]. by eapply grown_trans.
Qed.
End Insert.
