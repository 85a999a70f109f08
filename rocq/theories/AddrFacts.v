(** Histories of the address manager. *)
From Verif Require Import Base AddrModel AddrSpec AddrProofs AddrMain AddrStep.
Open Scope N_scope.

Section Facts.
Context (cf : aconf).

Lemma addr_run_snoc os oe : forall s, addr_run cf (os ++ [oe]) s =
  ('(s, xs) <-- addr_run cf os s ;; '(s, x) <-- addr_step cf oe s ;; Val (s, xs ++ [x])).
Proof.
  induction os as [|o os IH]; intros s; cbn [addr_run app].
  - cbn [mbind_M]. by destruct (addr_step cf oe s) as [[? ?]|].
  - destruct (addr_step cf o s) as [[s1 x]|]; [cbn [mbind_M]|done]. rewrite IH.
    destruct (addr_run cf os s1) as [[s2 xs]|]; [cbn [mbind_M]|done]. by destruct (addr_step cf oe s2) as [[? ?]|].
Qed.

Lemma new_ok e store : fair_aenv e -> exists s, addr_new e store = Val s /\ wf (am_ranges s) (am_peers s) [] /\
  am_bans s = ∅ /\ am_connected s = ∅ /\ am_peers s ⊆ store.
Proof.
  intros Fe. unfold addr_new. set (s := AMgr store ∅ ∅ ∅ ∅ ∅ None None).
  assert (ae_order e 0 (map fst (map_to_list store)) ≡ₚ map fst (map_to_list store)) as P by apply Fe.
  change (map fst (map_to_list store)) with ((map_to_list store).*1) in *.
  assert (forall i, i ∈ ae_order e 0 (map_to_list store).*1 <-> is_Some (store !! i)) as In.
  { intros i. rewrite P, elem_of_list_fmap. split.
    - intros ([j k] & -> & I%elem_of_map_to_list). by eexists.
    - intros [k I]. exists (i, k). split; [done|]. by apply elem_of_map_to_list. }
  destruct (populate_all_wf e (ae_order e 0 (map_to_list store).*1) Fe 1 s) as (s' & -> & W & B & C & _ & _ & Sub).
  - split; cbn [am_ranges am_peers s].
    + intros k r E. by rewrite lookup_empty in E.
    + intros k r i E. by rewrite lookup_empty in E.
    + intros i. rewrite lookup_empty. rewrite In. split; [by intros (? & [=] & _)|]. intros [? []]. done.
  - rewrite P. apply NoDup_fst_map_to_list.
  - apply Forall_forall. intros i I. by apply In.
  - exists s'. do 4 (split; [done|]). done.
Qed.

Record inv (store : gmap ip known) (t0 : N) (os : list (addr_op * aenv)) (s : amgr) : Prop := {
  iv_wf : wf (am_ranges s) (am_peers s) [];
  iv_idle : am_idle s = Some (idled os t0);
  iv_bans : forall i, i ∈ am_bans s -> am_peers s !! i = None;
  iv_online : forall i, i ∈ am_connected s <-> online i os false = true;
  iv_origin : forall i ka, am_peers s !! i = Some ka ->
    (exists ks, store !! i = Some ks /\ ad_bits (ka_addr ka) = ad_bits (ka_addr ks) /\ ad_port (ka_addr ka) = ad_port (ka_addr ks)) \/
    exists os1 o e os2 active a port, os = os1 ++ (o, e) :: os2 /\ (active, a) ∈ op_addrs o /\
      ad_bits (ka_addr ka) = ad_bits a /\ ad_port (ka_addr ka) = ad_port a /\ socket_addr a = Some (i, port) /\
      acceptable_addr cf (idled os1 t0) active a i;
}.
Lemma idled_app os oe : forall t, idled (os ++ [oe]) t = idled_step oe (idled os t).
Proof. induction os as [|o os IH]; intros t; [done|]. cbn. apply IH. Qed.
Lemma online_app i os oe : forall b, online i (os ++ [oe]) b = online_step i oe.1 (online i os b).
Proof. induction os as [|o os IH]; intros t; [done|]. cbn. apply IH. Qed.
Lemma inv_step store t0 os s oe s' : inv store t0 os s -> moved cf oe (idled os t0) s s' -> inv store t0 (os ++ [oe]) s'.
Proof.
  intros I Mv. split.
  - apply Mv.
  - rewrite idled_app. apply Mv.
  - intros i Ib. destruct (mv_banned _ _ _ _ _ Mv i Ib) as [B|B]; [|done]. destruct (am_peers s' !! i) as [ka|] eqn:E; [|done].
    apply (mv_peers _ _ _ _ _ Mv) in E as [(k & E & _)|(ac & a & port & _ & _ & _ & _ & _ & Nb)]; [|done].
    rewrite (iv_bans _ _ _ _ I) in E; done.
  - intros i. rewrite (mv_connected _ _ _ _ _ Mv), online_app.
    assert (bool_decide (i ∈ am_connected s) = online i os false) as ->; [|done].
    pose proof (iv_online _ _ _ _ I i). destruct (online i os false); [apply bool_decide_eq_true|apply bool_decide_eq_false]; intuition congruence.
  - intros i ka E. destruct oe as [o e]. apply (mv_peers _ _ _ _ _ Mv) in E as [(k & E & Eb & Ep)|(ac & a & port & Ia & Ea & Es & Ac & _)].
    + apply (iv_origin _ _ _ _ I) in E as [(ks & ? & ? & ?)|(os1 & o' & e' & os2 & ac & a & port & -> & R)].
      * left. exists ks. rewrite Eb, Ep. done.
      * right. exists os1, o', e', (os2 ++ [(o, e)]), ac, a, port. rewrite Eb, Ep. split; [by rewrite <- app_assoc|done].
    + right. exists os, o, e, [], ac, a, port. rewrite Ea. done.
Qed.

Lemma run_inv store e0 e1 os : fair_aenv e0 -> fair_aenvs os ->
  exists s0 s1 x1, addr_new e0 store = Val s0 /\ addr_step cf (AInitialize, e1) s0 = Val (s1, x1) /\
  exists s xs, addr_run cf os s1 = Val (s, xs) /\ inv store (ae_now e1) os s.
Proof.
  intros F0 Fs. destruct (new_ok e0 store F0) as (s0 & E0 & W0 & B0 & C0 & Sub). exists s0.
  eexists _, _. split; [done|]. split; [done|]. induction os as [|oe os IH] using rev_ind.
  - eexists _, _. split; [done|]. split; cbn [addr_idle fst snd am_ranges am_peers am_bans am_connected am_idle].
    + done.
    + done.
    + rewrite B0. set_solver.
    + rewrite C0. intros i. split; [set_solver|by intros [=]].
    + intros i ka E. left. exists ka. split; [by eapply lookup_weaken|done].
  - apply Forall_app in Fs as [Fs [Fe _]%Forall_cons]. destruct (IH Fs) as (s & xs & R & I). clear IH.
    destruct (step_moved cf oe s (idled os (ae_now e1)) Fe) as (s' & x & E & Mv); [apply I|apply I|].
    rewrite addr_run_snoc, R. cbn [mbind_M]. rewrite E. cbn [mbind_M]. eexists _, _. split; [done|]. by eapply inv_step.
Qed.
Lemma history_inv store t0 os s : addr_history cf store t0 os s -> inv store t0 os s.
Proof.
  intros (e0 & e1 & s0 & s1 & x1 & xs & F0 & Fs & E0 & Et & E1 & R).
  destruct (run_inv store e0 e1 os F0 Fs) as (s0' & s1' & x1' & E0' & E1' & s' & xs' & R' & I).
  rewrite E0 in E0'. injection E0' as <-. rewrite E1 in E1'. injection E1' as <- <-. rewrite R in R'. injection R' as <- <-. by rewrite <- Et.
Qed.

Lemma origin_keyed store t0 os s : keyed store -> inv store t0 os s -> keyed (am_peers s).
Proof.
  intros K I i ka na E S. destruct (iv_origin _ _ _ _ I _ _ E) as [(ks & Es & Eb & Ep)|(os1 & o & e & os2 & ac & a & port & _ & _ & Eb & Ep & Ea & _)].
  - apply (K i ks na Es). unfold socket_addr in *. by rewrite <- Eb, <- Ep.
  - unfold socket_addr in *. rewrite Eb, Ep in S. rewrite S in Ea. by injection Ea as ->.
Qed.

(** ** C41 *)
Lemma index_agree store t0 os s : addr_history cf store t0 os s ->
  (forall k r, am_ranges s !! k = Some r -> r <> ∅ /\ lenN (elements r) <= 256 /\ forall i, i ∈ r -> is_Some (am_peers s !! i)) /\
  (forall i, is_Some (am_peers s !! i) -> exists k r, am_ranges s !! k = Some r /\ i ∈ r /\
     forall k' r', am_ranges s !! k' = Some r' -> i ∈ r' -> k' = k).
Proof.
  intros Hh%history_inv. destruct Hh as [W _ _ _ _]. split.
  - intros k r E. destruct (wf_range _ _ _ W k r E) as [A B]. split; [done|]. split; [done|]. intros i I. apply (wf_in _ _ _ W). exists r.
    by rewrite (wf_key _ _ _ W _ _ _ E I).
  - intros i P. assert (exists r, am_ranges s !! addr_key i = Some r /\ i ∈ r) as (r & E & I) by (apply (wf_in _ _ _ W); split; [done|set_solver]).
    exists (addr_key i), r. split; [done|]. split; [done|]. intros k' r' E' I'. symmetry. by apply (wf_key _ _ _ W k' r').
Qed.
Lemma class_bound s (l : list ip) k : wf (am_ranges s) (am_peers s) [] -> NoDup l -> (forall i, i ∈ l -> is_Some (am_peers s !! i) /\ addr_key i = k) ->
  lenN l <= 256.
Proof.
  intros W Nd A. destruct l as [|i l']; [unfold lenN; cbn; lia|]. destruct (A i ltac:(by left)) as [Pi Ki].
  assert (exists r, am_ranges s !! addr_key i = Some r /\ i ∈ r) as (r & E & I) by (apply (wf_in _ _ _ W); split; [done|set_solver]).
  destruct (wf_range _ _ _ W _ _ E) as [_ L]. enough (length (i :: l') <= length (elements r))%nat by (unfold lenN in *; lia).
  apply submseteq_length, NoDup_submseteq; [done|]. intros j Ij. apply elem_of_elements. destruct (A j Ij) as [Pj Kj].
  assert (exists r, am_ranges s !! addr_key j = Some r /\ j ∈ r) as (r' & E' & I') by (apply (wf_in _ _ _ W); split; [done|set_solver]).
  rewrite Kj, <- Ki, E in E'. by injection E' as <-.
Qed.
Lemma filter_key_split (l : list ip) (n : N) :
  length (filter (fun i => addr_key i < n + 1) l) =
  Nat.add (length (filter (fun i => addr_key i < n) l)) (length (filter (fun i => addr_key i = n) l)).
Proof.
  induction l as [|i l IH]; [done|]. rewrite !filter_cons. repeat case_decide; cbn [length]; lia.
Qed.
Lemma book_bounded store t0 os s : addr_history cf store t0 os s -> N.of_nat (size (am_peers s)) <= 255 * 256.
Proof.
  intros Hh%history_inv. destruct Hh as [W _ _ _ _].
  set (l := (map_to_list (am_peers s)).*1). assert (NoDup l) as Nd by apply NoDup_fst_map_to_list.
  assert (forall i, i ∈ l -> is_Some (am_peers s !! i)) as Al by (intros i ([j k] & -> & I%elem_of_map_to_list)%elem_of_list_fmap; by eexists).
  assert (size (am_peers s) = length l) as -> by (unfold l; by rewrite fmap_length).
  assert (forall m : nat, N.of_nat (length (filter (fun i => addr_key i < N.of_nat m) l)) <= N.of_nat m * 256) as B.
  { induction m as [|m IH].
    - assert (filter (fun i => addr_key i < N.of_nat 0) l = []) as ->; [|done]. clear. induction l as [|i l IH]; [done|]. rewrite filter_cons_False; [done|lia].
    - assert (N.of_nat (S m) = N.of_nat m + 1) as -> by lia. rewrite filter_key_split.
      pose proof (class_bound s (filter (fun i => addr_key i = N.of_nat m) l) (N.of_nat m) W) as C. unfold lenN in C.
      specialize (C ltac:(by apply NoDup_filter) ltac:(intros i [? ?]%elem_of_list_filter; auto)). lia. }
  specialize (B 255%nat). replace (filter (fun i => addr_key i < N.of_nat 255) l) with l in B; [exact B|].
  clear. induction l as [|i l IH]; [done|]. rewrite filter_cons_True by (pose proof (key_lt i); lia). by rewrite <- IH.
Qed.

(** ** Sampling *)
Lemma step_sample e sv s s' x : addr_step cf (ASample sv, e) s = Val (s', x) ->
  exists r, x = [AoSample r] /\ addr_sample cf e sv s = Val (s', r).
Proof.
  unfold addr_step. cbn [fst snd]. destruct (addr_sample cf e sv s) as [[s1 r]|]; [|done]. intros [= <- <-]. by exists r.
Qed.
Lemma sampled_inv e sv s t s' a src : fair_aenv e -> wf (am_ranges s) (am_peers s) [] -> am_idle s = Some t ->
  addr_step cf (ASample sv, e) s = Val (s', [AoSample (Some (a, src))]) ->
  exists i ka, am_peers s !! i = Some ka /\ a = ka_addr ka /\ src = ka_source ka /\
    usable cf s t (fun ka => has_services (ad_services (ka_addr ka)) sv) i ka = true /\
    s' = with_peers s (<[i := marked t ka]> (am_peers s)).
Proof.
  intros Fe W It (r & [= <-] & E)%step_sample. unfold addr_sample in E.
  destruct (sample_with_spec cf e (fun ka => has_services (ad_services (ka_addr ka)) sv) s t Fe W It) as (s1 & r & E' & S).
  rewrite E in E'. injection E' as <- <-. exact S.
Qed.
Lemma sampled_none e sv s t s' : fair_aenv e -> wf (am_ranges s) (am_peers s) [] -> am_idle s = Some t ->
  addr_step cf (ASample sv, e) s = Val (s', [AoSample None]) ->
  forall i ka, am_peers s !! i = Some ka -> usable cf s t (fun ka => has_services (ad_services (ka_addr ka)) sv) i ka = false.
Proof.
  intros Fe W It (r & [= <-] & E)%step_sample. unfold addr_sample in E.
  destruct (sample_with_spec cf e (fun ka => has_services (ad_services (ka_addr ka)) sv) s t Fe W It) as (s1 & r & E' & S).
  rewrite E in E'. injection E' as <- <-. apply S.
Qed.
Lemma sample_usable store t0 os s e sv s' a src : keyed store -> addr_history cf store t0 os s -> fair_aenv e ->
  addr_step cf (ASample sv, e) s = Val (s', [AoSample (Some (a, src))]) ->
  exists i port ka, socket_addr a = Some (i, port) /\ am_peers s !! i = Some ka /\ ka_addr ka = a /\ ka_source ka = src /\
    (if i.1 then ac_ipv4 cf else ac_ipv6 cf) = true /\ has_services (ad_services a) sv = true /\
    online i os false = false /\
    (store !! i = None -> is_routable i = true /\ is_local i = false) /\
    (ka_attempt ka = None \/ ka_success ka <> None) /\
    (forall t, ka_sampled ka = Some t -> 180000 <= idled os t0 - t).
Proof.
  intros K Hh%history_inv Fe E.
  destruct (sampled_inv e sv s _ s' a src Fe (iv_wf _ _ _ _ Hh) (iv_idle _ _ _ _ Hh) E) as (i & ka & Ei & -> & -> & U & _).
  apply usable_spec in U as ((na & Sa & Dom) & Att & Gap & Con & Sv).
  assert (na.1 = i) as <- by (by eapply (origin_keyed _ _ _ _ K Hh)). destruct na as [i port]. cbn [fst] in *.
  exists i, port, ka. do 4 (split; [done|]). split; [done|]. split; [done|].
  split; [pose proof (iv_online _ _ _ _ Hh i); destruct (online i os false); [intuition|done]|].
  split; [|split].
  - intros Ns. destruct (iv_origin _ _ _ _ Hh _ _ Ei) as [(ks & Es & _)|(os1 & o & e' & os2 & ac & b & p & _ & _ & _ & _ & _ & Ac)]; [congruence|].
    destruct Ac as (_ & _ & _ & _ & _ & _ & ? & ?). done.
  - destruct (ka_attempt ka); [right; by apply Att|by left].
  - intros t Et. rewrite Et in Gap. exact Gap.
Qed.
Lemma sample_complete store t0 os s e sv s' : addr_history cf store t0 os s -> fair_aenv e ->
  addr_step cf (ASample sv, e) s = Val (s', [AoSample None]) ->
  forall i ka, am_peers s !! i = Some ka ->
    socket_addr (ka_addr ka) = None \/ (exists na, socket_addr (ka_addr ka) = Some na /\ (if na.1.1 then ac_ipv4 cf else ac_ipv6 cf) = false) \/
    has_services (ad_services (ka_addr ka)) sv = false \/ online i os false = true \/
    (ka_attempt ka <> None /\ ka_success ka = None) \/ idled os t0 - default 0 (ka_sampled ka) < 180000.
Proof.
  intros Hh%history_inv Fe E i ka Ei.
  pose proof (sampled_none e sv s _ s' Fe (iv_wf _ _ _ _ Hh) (iv_idle _ _ _ _ Hh) E i ka Ei) as U. unfold usable, unusable, SAMPLE_TIMEOUT in U.
  destruct (socket_addr (ka_addr ka)) as [na|]; [|by left]. right. unfold in_domains in U.
  destruct (if na.1.1 then ac_ipv4 cf else ac_ipv6 cf) eqn:D; [|left; exists na; done]. right. cbn [andb] in U.
  destruct (has_services _ sv); [right|by left]. rewrite andb_true_r in U. apply negb_false_iff in U.
  apply orb_true_iff in U as [[U|U]%orb_true_iff|U].
  - right. left. apply andb_true_iff in U as [A%bool_decide_eq_true B%bool_decide_eq_true]. split; [|done]. intros N. rewrite N in A. by destruct A.
  - right. right. by apply N.ltb_lt.
  - left. apply bool_decide_eq_true in U. by apply (iv_online _ _ _ _ Hh).
Qed.

(** ** Following one address *)
Lemma newcomers_app i l1 l2 : newcomers i (l1 ++ l2) = newcomers i l1 + newcomers i l2.
Proof.
  induction l1 as [|[ac a] l1 IH]; [done|]. cbn [app]. rewrite !newcomers_cons, IH. lia.
Qed.
Lemma track i (ok : addr_op -> Prop) (P : known -> Prop) :
  (forall o ka ka', ok o -> P ka ->
     (forall t, ka_sampled ka = Some t -> exists t', ka_sampled ka' = Some t' /\ t <= t') ->
     (~ handshake i o -> ka_attempt ka <> None -> ka_success ka = None -> ka_attempt ka' <> None /\ ka_success ka' = None) -> P ka') ->
  forall os s t s' xs, fair_aenvs os -> wf (am_ranges s) (am_peers s) [] -> am_idle s = Some t -> addr_run cf os s = Val (s', xs) ->
  Forall (fun oe => ok oe.1) os -> crowd i s + newcomers i (heard os) <= 256 ->
  (i ∈ am_bans s \/ exists ka, am_peers s !! i = Some ka /\ P ka) ->
  i ∈ am_bans s' \/ exists ka, am_peers s' !! i = Some ka /\ P ka.
Proof.
  intros Step. induction os as [|oe os IH]; intros s t s' xs F W It R Ok Room Pi; cbn [addr_run] in R.
  { by injection R as <- <-. }
  apply Forall_cons in F as [Fe F]. apply Forall_cons in Ok as [Oke Ok].
  destruct (step_moved cf oe s t Fe W It) as (s1 & x & E & Mv). rewrite E in R. cbn [mbind_M] in R.
  destruct (addr_run cf os s1) as [[s2 ys]|] eqn:R1; [|done]. injection R as <- <-.
  change (heard (oe :: os)) with (op_addrs oe.1 ++ heard os) in Room. rewrite newcomers_app in Room.
  eapply (IH s1); [done|apply Mv|apply Mv|exact R1|done| |].
  - pose proof (mv_crowd _ _ _ _ _ Mv i). lia.
  - destruct Pi as [Ib|(ka & Ei & Pk)]; [left; by apply (mv_bans _ _ _ _ _ Mv)|].
    destruct (mv_kept _ _ _ _ _ Mv i ka Ei ltac:(lia)) as [Ib|(ka' & Ei' & K1 & K2)]; [by left|right]. exists ka'. split; [done|]. by eapply Step.
Qed.
Lemma history_app store t0 os1 s os2 s' xs : addr_history cf store t0 os1 s -> fair_aenvs os2 -> addr_run cf os2 s = Val (s', xs) ->
  addr_history cf store t0 (os1 ++ os2) s'.
Proof.
  intros (e0 & e1 & s0 & s1 & x1 & ys & F0 & Fs & E0 & Et & E1 & R) F2 R2.
  assert (exists zs, addr_run cf (os1 ++ os2) s1 = Val (s', zs)) as [zs Rz].
  { clear E1 E0. revert s1 ys R. induction os1 as [|o os1 IH]; intros s1 ys R; cbn [addr_run app] in *.
    - injection R as -> _. eauto.
    - destruct (addr_step cf o s1) as [[s3 x]|]; [cbn [mbind_M] in *|done].
      destruct (addr_run cf os1 s3) as [[s4 xs']|] eqn:R4; [|done]. cbn [mbind_M] in R. injection R as -> <-.
      apply Forall_cons in Fs as [_ Fs]. destruct (IH Fs s3 xs' R4) as [zs ->]. cbn [mbind_M]. eauto. }
  exists e0, e1, s0, s1, x1, zs. split; [done|]. split; [by apply Forall_app|]. repeat (split; [done|]). exact Rz.
Qed.
Lemma history_step store t0 os s o e s' x : addr_history cf store t0 os s -> fair_aenv e -> addr_step cf (o, e) s = Val (s', x) ->
  addr_history cf store t0 (os ++ [(o, e)]) s'.
Proof.
  intros Hh F E. eapply (history_app _ _ _ _ _ _ [x]); [done|by constructor|]. cbn [addr_run]. by rewrite E.
Qed.
Lemma idled_app2 os1 os2 : forall t, idled (os1 ++ os2) t = idled os2 (idled os1 t).
Proof. induction os1 as [|o os IH]; intros t; [done|]. cbn. apply IH. Qed.

Lemma failed_not_sampled store t0 os1 s1 i port e s2 x2 os2 s3 xs sv e' s4 a src ka : keyed store ->
  addr_history cf store t0 os1 s1 -> am_peers s1 !! i = Some ka -> ka_success ka = None ->
  addr_step cf (AConnecting (i, port), e) s1 = Val (s2, x2) -> addr_run cf os2 s2 = Val (s3, xs) -> fair_aenv e -> fair_aenvs os2 -> fair_aenv e' ->
  Forall (fun oe => ~ handshake i oe.1) os2 -> crowd i s1 + newcomers i (heard os2) <= 256 ->
  addr_step cf (ASample sv, e') s3 = Val (s4, [AoSample (Some (a, src))]) -> forall p, socket_addr a <> Some (i, p).
Proof.
  intros K Hh Ei Su E R Fe F2 Fe' No Room Es p Ea.
  pose proof (history_step _ _ _ _ _ _ _ _ Hh Fe E) as H2. pose proof (history_inv _ _ _ _ H2) as I2.
  pose proof (history_app _ _ _ _ _ _ _ H2 F2 R) as H3.
  destruct (sample_usable _ _ _ _ _ _ _ _ _ K H3 Fe' Es) as (j & q & kj & Ej & Pj & _ & _ & _ & _ & _ & _ & At & _).
  rewrite Ea in Ej. injection Ej as <- <-. cbn in E. injection E as <- <-.
  destruct (track i (fun o => ~ handshake i o) (fun ka => ka_attempt ka <> None /\ ka_success ka = None)) with (os := os2) (s := addr_attempted (ae_now e) (i, port) s1)
    (t := idled (os1 ++ [(AConnecting (i, port), e)]) t0) (s' := s3) (xs := xs) as [Ib|(k & Ek & A1 & A2)]; try done.
  - intros o k k' No' [A B] _ X. by apply X.
  - apply I2.
  - apply I2.
  - right. unfold addr_attempted, with_peers. cbn [am_peers fst]. rewrite lookup_alter, Ei. cbn. eexists. split; [done|]. done.
  - rewrite (iv_bans _ _ _ _ (history_inv _ _ _ _ H3) i Ib) in Pj. done.
  - rewrite Pj in Ek. injection Ek as <-. destruct At; congruence.
Qed.
Lemma sample_gap store t0 os1 s1 sv e s2 a1 src1 os2 s3 xs sv' e' s4 a2 src2 i p1 p2 : keyed store ->
  addr_history cf store t0 os1 s1 -> fair_aenv e -> fair_aenvs os2 -> fair_aenv e' ->
  addr_step cf (ASample sv, e) s1 = Val (s2, [AoSample (Some (a1, src1))]) -> socket_addr a1 = Some (i, p1) ->
  addr_run cf os2 s2 = Val (s3, xs) -> crowd i s1 + newcomers i (heard os2) <= 256 ->
  addr_step cf (ASample sv', e') s3 = Val (s4, [AoSample (Some (a2, src2))]) -> socket_addr a2 = Some (i, p2) ->
  180000 <= idled (os1 ++ os2) t0 - idled os1 t0.
Proof.
  intros K Hh Fe F2 Fe' E Ea R Room E' Ea'. pose proof (history_inv _ _ _ _ Hh) as I1.
  destruct (sampled_inv e sv s1 _ s2 a1 src1 Fe (iv_wf _ _ _ _ I1) (iv_idle _ _ _ _ I1) E) as (j & ka & Ej & -> & -> & _ & S2).
  assert (i = j) as <- by (exact (origin_keyed _ _ _ _ K I1 j ka _ Ej Ea)).
  pose proof (history_step _ _ _ _ _ _ _ _ Hh Fe E) as H2. pose proof (history_inv _ _ _ _ H2) as I2.
  pose proof (history_app _ _ _ _ _ _ _ H2 F2 R) as H3.
  destruct (sample_usable _ _ _ _ _ _ _ _ _ K H3 Fe' E') as (j & q & kj & Ej' & Pj & _ & _ & _ & _ & _ & _ & _ & Gap).
  rewrite Ea' in Ej'. injection Ej' as <- <-.
  destruct (track i (fun o => True) (fun ka => exists t, ka_sampled ka = Some t /\ idled os1 t0 <= t)) with (os := os2) (s := s2)
    (t := idled (os1 ++ [(ASample sv, e)]) t0) (s' := s3) (xs := xs) as [Ib|(k & Ek & t & Et & Lt)]; try done.
  - intros o k k' _ (t & Et & L) X _. destruct (X t Et) as (t' & Et' & L'). exists t'. split; [done|lia].
  - apply I2.
  - apply I2.
  - by apply Forall_forall.
  - subst s2. exact Room.
  - right. subst s2. unfold with_peers. cbn [am_peers]. rewrite lookup_insert. eexists. split; [done|]. cbn. eexists. split; [done|lia].
  - rewrite (iv_bans _ _ _ _ (history_inv _ _ _ _ H3) i Ib) in Pj. done.
  - rewrite Pj in Ek. injection Ek as <-. specialize (Gap t Et). rewrite <- app_assoc in Gap. rewrite !idled_app2 in *. cbn [idled app idled_step fst] in Gap. lia.
Qed.

(** ** Banned addresses *)
Lemma bans_kept os : forall s t s' xs, fair_aenvs os -> wf (am_ranges s) (am_peers s) [] -> am_idle s = Some t -> addr_run cf os s = Val (s', xs) ->
  am_bans s ⊆ am_bans s'.
Proof.
  induction os as [|oe os IH]; intros s t s' xs F W It R; cbn [addr_run] in R; [by injection R as <- <-|].
  apply Forall_cons in F as [Fe F]. destruct (step_moved cf oe s t Fe W It) as (s1 & x & E & Mv). rewrite E in R. cbn [mbind_M] in R.
  destruct (addr_run cf os s1) as [[s2 ys]|] eqn:R1; [|done]. injection R as <- <-.
  etrans; [apply (mv_bans _ _ _ _ _ Mv)|]. eapply IH; [done|apply Mv|apply Mv|exact R1].
Qed.
Lemma severe_bans r : severe r <-> bans_for r = true.
Proof.
  unfold severe. split.
  - intros [->|(m & -> & I)]; [done|]. cbn. repeat (apply elem_of_cons in I as [->|I]; [done|]). by apply elem_of_nil in I.
  - destruct r as [| |m]; [by left|done|right]. exists m. split; [done|]. destruct m; try done; set_solver.
Qed.
Lemma banned_gone store t0 os1 s1 i port r e s2 x os2 s3 xs : addr_history cf store t0 os1 s1 ->
  online i os1 false = true -> severe r -> is_Some (am_peers s1 !! i) -> fair_aenv e -> fair_aenvs os2 ->
  addr_step cf (ADisconnected (i, port) r, e) s1 = Val (s2, x) -> addr_run cf os2 s2 = Val (s3, xs) ->
  am_peers s3 !! i = None.
Proof.
  intros Hh On Sv [ka Ei] Fe F2 E R. pose proof (history_inv _ _ _ _ Hh) as I1.
  pose proof (history_step _ _ _ _ _ _ _ _ Hh Fe E) as H2. pose proof (history_inv _ _ _ _ H2) as I2.
  pose proof (history_app _ _ _ _ _ _ _ H2 F2 R) as H3. apply (iv_bans _ _ _ _ (history_inv _ _ _ _ H3)).
  eapply (bans_kept os2 s2); [done|apply I2|apply I2|exact R|]. cbn in E. injection E as <- <-. unfold addr_disconnected. cbn [fst].
  rewrite bool_decide_eq_true_2 by (by apply (iv_online _ _ _ _ I1)). apply severe_bans in Sv as ->. unfold ban. cbn [am_ranges].
  assert (exists r0, am_ranges s1 !! addr_key i = Some r0 /\ i ∈ r0) as (r0 & E0 & _) by (apply (wf_in _ _ _ (iv_wf _ _ _ _ I1)); split; [by eexists|set_solver]).
  rewrite E0. cbn [am_bans]. set_solver.
Qed.
Lemma banned_not_sampled store t0 os1 s1 i port r e s2 x os2 s3 xs sv e' s4 a src : keyed store -> addr_history cf store t0 os1 s1 ->
  online i os1 false = true -> severe r -> is_Some (am_peers s1 !! i) -> fair_aenv e -> fair_aenvs os2 -> fair_aenv e' ->
  addr_step cf (ADisconnected (i, port) r, e) s1 = Val (s2, x) -> addr_run cf os2 s2 = Val (s3, xs) ->
  addr_step cf (ASample sv, e') s3 = Val (s4, [AoSample (Some (a, src))]) -> forall p, socket_addr a <> Some (i, p).
Proof.
  intros K Hh On Sv Ei Fe F2 Fe' E R Es p Ea. pose proof (banned_gone _ _ _ _ _ _ _ _ _ _ _ _ _ Hh On Sv Ei Fe F2 E R) as G.
  pose proof (history_app _ _ _ _ _ _ _ (history_step _ _ _ _ _ _ _ _ Hh Fe E) F2 R) as H3.
  destruct (sample_usable _ _ _ _ _ _ _ _ _ K H3 Fe' Es) as (j & q & kj & Ej & Pj & _). rewrite Ea in Ej. injection Ej as <- <-. congruence.
Qed.

(** ** Replies *)
Lemma getaddr_reply store t0 os s from e s' x : addr_history cf store t0 os s -> fair_aenv e ->
  addr_step cf (AGetAddr from, e) s = Val (s', x) ->
  exists l ips, x = [AoAddr from l] /\ lenN l <= 255 /\ NoDup (map addr_key ips) /\
    Forall2 (fun p i => exists ka, am_peers s' !! i = Some ka /\ p = (stamp (ka_active ka), ka_addr ka)) l ips.
Proof.
  intros Hh Fe E. pose proof (history_inv _ _ _ _ Hh) as I. unfold addr_step in E. cbn [fst snd] in E. unfold received_getaddr in E.
  pose proof (touch_heard (ae_now e) from s) as T. set (h := heard_from (ae_now e) from s) in *. pose proof (touch_wf s h T (iv_wf _ _ _ _ I)) as Wh.
  destruct (one_per_range_spec e h (ae_ranges e (map snd (map_to_list (am_ranges h)))) Fe 0) as (l & El & F2).
  { apply Forall_forall. intros r Ir. rewrite (proj1 (proj2 Fe) _) in Ir. by apply values_ok. }
  rewrite El in E. cbn [mbind_M] in E. injection E as <- <-. exists l.
  destruct (Permutation_map_inv _ _ (proj1 (proj2 Fe) (map snd (map_to_list (am_ranges h))))) as (kl & Ek & Pk).
  rewrite Ek in F2.
  assert (forall (kl' : list (N * gset ip)) (l' : list (N * address)), Forall (fun p => am_ranges h !! p.1 = Some p.2) kl' ->
    Forall2 (fun (r : gset ip) (p : N * address) => exists i ka, i ∈ r /\ am_peers h !! i = Some ka /\ p = (stamp (ka_active ka), ka_addr ka)) (map snd kl') l' ->
    exists ips, map addr_key ips = map fst kl' /\ Forall2 (fun p i => exists ka, am_peers h !! i = Some ka /\ p = (stamp (ka_active ka), ka_addr ka)) l' ips) as G.
  { induction kl' as [|[k r] kl' IH]; intros l' Al F; cbn [map] in F.
    - apply Forall2_nil_inv_l in F as ->. exists []. done.
    - apply Forall2_cons_inv_l in F as (p & l'' & (i & ka & Ii & Ei & Ep) & F & ->). apply Forall_cons in Al as [Ak Al]. cbn [fst snd] in Ak.
      destruct (IH l'' Al F) as (ips & Ei' & F'). exists (i :: ips). cbn [map fst]. rewrite (wf_key _ _ _ Wh k r i Ak Ii), Ei'. split; [done|].
      constructor; [|done]. exists ka. done. }
  destruct (G kl l) as (ips & Ei & F).
  { apply Forall_forall. intros [k r] Ikr. rewrite <- Pk in Ikr. by apply elem_of_map_to_list in Ikr. }
  { exact F2. }
  exists ips. split; [done|].
  assert (NoDup (map addr_key ips)) as Nd.
  { rewrite Ei. change (map fst kl) with (kl.*1). rewrite <- Pk. apply NoDup_fst_map_to_list. }
  split; [|done]. apply Forall2_length in F. unfold lenN. rewrite F, <- (map_length addr_key ips).
  assert (length (map addr_key ips) <= length (map N.of_nat (seq 0 255)))%nat as L.
  { apply submseteq_length, NoDup_submseteq; [done|]. intros k Ik. change (map addr_key ips) with (addr_key <$> ips) in Ik.
    apply elem_of_list_fmap in Ik as (i & -> & _). pose proof (key_lt i). apply elem_of_list_fmap. exists (N.to_nat (addr_key i)). split; [lia|].
    apply elem_of_seq. lia. }
  rewrite (map_length N.of_nat) in L. rewrite seq_length in L. lia.
Qed.

Lemma learned store t0 os s i ka : addr_history cf store t0 os s -> am_peers s !! i = Some ka -> store !! i = None ->
  exists os1 o e os2 active a port, os = os1 ++ (o, e) :: os2 /\ (active, a) ∈ op_addrs o /\
    ad_bits (ka_addr ka) = ad_bits a /\ ad_port (ka_addr ka) = ad_port a /\ socket_addr a = Some (i, port) /\
    acceptable_addr cf (idled os1 t0) active a i.
Proof.
  intros Hh%history_inv Ei Ns. destruct (iv_origin _ _ _ _ Hh _ _ Ei) as [(ks & Es & _)|R]; [congruence|exact R].
Qed.
Lemma total store e0 e1 os : fair_aenv e0 -> fair_aenvs os ->
  exists s0 s1 x1 s xs, addr_new e0 store = Val s0 /\ addr_step cf (AInitialize, e1) s0 = Val (s1, x1) /\ addr_run cf os s1 = Val (s, xs).
Proof.
  intros F0 Fs. destruct (run_inv store e0 e1 os F0 Fs) as (s0 & s1 & x1 & E0 & E1 & s & xs & R & _). exists s0, s1, x1, s, xs. done.
Qed.
Lemma import_ignored e s s' x l : addr_step cf (AInsert (map (fun a => (0, a)) l) FromImport, e) s = Val (s', x) -> s' = s.
Proof.
  unfold addr_step, addr_insert. cbn [fst snd]. destruct (am_idle s) as [t|]; [|done].
  assert (forall n, insert_all cf e n t FromImport (map (fun a => (0, a)) l) s = Val s) as A.
  { induction l as [|a l IH]; intros n; [done|]. cbn [map insert_all]. unfold insert_one.
    assert (acceptable cf t s 0 a = None) as ->; [|cbn [mbind_M]; apply IH].
    unfold acceptable. destruct (negb _); [done|]. by destruct (_ || _). }
  rewrite A. by intros [= <- <-].
Qed.
End Facts.
