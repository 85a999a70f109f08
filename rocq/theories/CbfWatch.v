(** Requests for filter headers, seen from outside. *)
From Verif Require Import Base UtilModel CbfModel CbfSpec CbfProofs CbfStep CbfMain CbfFacts.
Open Scope N_scope.

Section Watch.
Context (P : params) (i : input).
Notation now := (i_now i).
Notation t := (i_tree i).

Definition agrees (s : cbf) (w : watch) : Prop :=
  dom (c_peers s) = w_peers w /\
  forall stop, (fun q : N * N * N => (q.1.1, q.2)) <$> c_inflight s !! stop = (fun q : N * N => (q.1, q.2 + p_timeout P)) <$> w_asked w !! stop.
(** A request for filter headers is in order. *)
Definition proper (fh : N) (w : watch) (o : cout) : Prop :=
  match o with
  | CoGetCFHeaders p start stop => p ∈ w_peers w /\
      ((w_asked w !! stop = None /\ start = fh + 1 /\ start <= tr_height t /\ next_stop t fh = Some stop /\ past_checkpoints t) \/
       (exists t0, w_asked w !! stop = Some (start, t0) /\ t0 + p_timeout P <= now /\ i_op i = CTimer))
  | CoGetCFilters p _ _ => complete i -> p ∈ w_peers w
  | CoCFHeaders p stop _ _ => exists ty start, i_op i = CGetCFHeaders p ty start stop
  | _ => True
  end.
Fixpoint propers (fh : N) (w : watch) (x : list cout) : Prop :=
  match x with [] => True | o :: x' => proper fh w o /\ propers fh (watch_out i w o) x' end.
Lemma propers_app fh x : forall w y, propers fh w x -> propers fh (foldl (watch_out i) w x) y -> propers fh w (x ++ y).
Proof. induction x as [|o x IH]; intros w y; cbn; [done|]. intros [A B] C. split; [done|by apply IH]. Qed.
Lemma propers_split fh x : forall w x1 o x2, propers fh w x -> x = x1 ++ o :: x2 -> proper fh (foldl (watch_out i) w x1) o.
Proof. intros w x1. revert w x. induction x1 as [|o1 x1 IH]; intros w x o x2 A ->; [apply A|]. cbn. eapply IH; [apply A|reflexivity]. Qed.

Definition other (o : cout) : Prop := match o with CoGetCFHeaders _ _ _ | CoGetCFilters _ _ _ | CoDisconnect _ | CoCFHeaders _ _ _ _ => False | _ => True end.
Lemma others fh x : Forall other x -> forall w, foldl (watch_out i) w x = w /\ propers fh w x.
Proof. induction 1 as [|o x O _ IH]; intros w; cbn; [done|]. assert (watch_out i w o = w) as -> by (by destruct o). destruct (IH w) as [-> B]. split; [done|]. split; [by destruct o|done]. Qed.

(** [fine]: the step keeps the agreement and its requests are in order. *)
Definition fine (s s' : cbf) (x : list cout) : Prop :=
  c_filters s' = c_filters s /\
  forall w, agrees s w -> agrees s' (foldl (watch_out i) w x) /\ propers (f_height s) w x.
Lemma fine_same s s' x : c_filters s' = c_filters s -> c_peers s' = c_peers s -> c_inflight s' = c_inflight s -> Forall other x -> fine s s' x.
Proof.
  intros E1 E2 E3 F. split; [done|]. intros w A. destruct (others (f_height s) x F w) as [-> B]. split; [|done].
  unfold agrees. by rewrite E2, E3.
Qed.
Lemma fine_trans s s1 s' x y : fine s s1 x -> fine s1 s' y -> fine s s' (x ++ y).
Proof.
  intros [A1 A2] [B1 B2]. split; [congruence|]. intros w W. destruct (A2 w W) as [A3 A4]. destruct (B2 _ A3) as [B3 B4].
  rewrite foldl_app. split; [done|]. apply propers_app; [done|]. unfold f_height in *. by rewrite A1 in B4.
Qed.

Lemma sample_in n (m : gmap N bool) p b : sample_peer n m = Some (p, b) -> p ∈ dom m.
Proof. unfold sample_peer. intros E%elem_of_list_lookup_2%elem_of_map_to_list. by eapply elem_of_dom_2. Qed.
Lemma sample_some n (m : gmap N bool) : m <> ∅ -> exists p b, sample_peer n m = Some (p, b).
Proof.
  unfold sample_peer. intros NE. destruct (map_to_list m) as [|q l] eqn:E; [by apply map_to_list_empty_iff in E|].
  destruct (lookup_lt_is_Some_2 (q :: l) (n mod Nat.max 1 (length (q :: l)))) as [[p b] X].
  - replace (Nat.max 1 (length (q :: l))) with (length (q :: l)) by (cbn; lia). apply Nat.mod_upper_bound. cbn. lia.
  - by exists p, b.
Qed.

Lemma agrees_set s w stop start p : agrees s w ->
  agrees (set_inflight (<[stop := (start, p, now + p_timeout P)]> (c_inflight s)) s) (watch_out i w (CoGetCFHeaders p start stop)).
Proof.
  intros [A B]. split; [exact A|]. intros st. cbn. destruct (decide (stop = st)) as [->|NE]; [by rewrite !lookup_insert|].
  by rewrite !lookup_insert_ne.
Qed.

Lemma ask_peers n peers rs : forall m y, y ∈ (ask_ranges (k_order (i_k i) n) t peers m rs).1 ->
  exists p a h, y = CoGetCFilters p a h /\ (complete i -> p ∈ dom peers).
Proof.
  induction rs as [|[a b] rs IH]; intros m y; cbn [ask_ranges]; [by intros ?%elem_of_nil|].
  destruct (cycle_peer _ _ m) as [p|] eqn:Cy; [|by intros ?%elem_of_nil]. destruct (tr_at t b) as [hash|]; [|by intros ?%elem_of_nil].
  specialize (IH (Datatypes.S m) y). destruct (ask_ranges _ _ _ _ rs) as [os e]. cbn [fst] in *. intros [->|I]%elem_of_cons; [|by apply IH].
  exists p, a, hash. split; [done|]. intros Co. unfold cycle_peer in Cy. apply elem_of_list_lookup_2 in Cy. rewrite (Co n) in Cy.
  apply elem_of_list_fmap in Cy as ([q v] & -> & Q%elem_of_map_to_list). by eapply elem_of_dom_2.
Qed.
Lemma cfilters_fine n a b s s' x e : get_cfilters (k_order (i_k i) n) a b t s = Val (s', x, e) -> fine s s' x.
Proof.
  intros E. assert (X : c_filters s' = c_filters s /\ c_peers s' = c_peers s /\ c_inflight s' = c_inflight s /\
    forall y, y ∈ x -> exists p a h, y = CoGetCFilters p a h /\ (complete i -> p ∈ dom (c_peers s))).
  { unfold get_cfilters, assertM in E. destruct (decide _); [injection E as <- <- <-; repeat split; by intros ? ?%elem_of_nil|].
    destruct (_ <? _); [injection E as <- <- <-; repeat split; by intros ? ?%elem_of_nil|]. destruct (_ <=? _); [|done].
    destruct (r_requests _ _ _ _) as [[r rs]|]; [cbn [mbind_M] in E|done]. pose proof (ask_peers n (c_peers s) rs 0) as F.
    destruct (ask_ranges _ _ _ 0 rs) as [os e0]. injection E as <- <- <-. cbn [fst] in F. do 3 (split; [done|]). exact F. }
  destruct X as (X1 & X2 & X3 & X4). split; [done|]. intros w A. destruct A as [A B].
  assert (Y : forall x w', w_peers w' = dom (c_peers s) -> (forall y, y ∈ x -> exists p a h, y = CoGetCFilters p a h /\ (complete i -> p ∈ dom (c_peers s))) ->
    foldl (watch_out i) w' x = w' /\ propers (f_height s) w' x).
  { clear -i. intros x. induction x as [|y x IH]; intros w' W F; cbn [foldl propers]; [done|]. destruct (F y) as (p & a & h & -> & Q); [by left|]. cbn [watch_out proper].
    destruct (IH w' W) as [-> I2]; [intros z Hz; apply F; by right|]. split; [done|]. split; [by rewrite W|done]. }
  destruct (Y x w (eq_sym A) X4) as [-> Y2]. split; [|done]. split; [by rewrite X2|]. by rewrite X3.
Qed.
Lemma sync_fine n s s' x : sync P (i_k i) n now t s = Val (s', x) ->
  fine s s' x /\ (past_checkpoints t -> f_height s < tr_height t -> c_peers s <> ∅ ->
    exists stop, next_stop t (f_height s) = Some stop /\ is_Some (c_inflight s' !! stop)).
Proof.
  unfold sync, assertM. destruct (N.leb_spec (f_height s) (tr_height t)); [|done].
  destruct (match tr_checkpoint t with Some _ => _ | None => _ end) eqn:Cp.
  { intros [= <- <-]. split; [by apply fine_same|]. unfold past_checkpoints. destruct (tr_checkpoint t) as [cp|]; [|done]. apply N.ltb_lt in Cp. intros. lia. }
  match goal with |- mbind_M ?m _ = _ -> _ => destruct m as [[s1 o1]|] eqn:E1; [|done] end. cbn [mbind_M].
  assert (X : fine s s1 o1 /\ (f_height s < tr_height t -> c_peers s <> ∅ -> exists stop, next_stop t (f_height s) = Some stop /\ is_Some (c_inflight s1 !! stop))).
  { destruct (N.ltb_spec (f_height s) (tr_height t)); [|injection E1 as <- <-; split; [by apply fine_same|intros; lia]].
    unfold send_getcfheaders in E1. destruct (N.ltb_spec (tr_height t) (f_height s + 1)); [lia|].
    replace (f_height s + 1 + N.min max_cfheaders (tr_height t - (f_height s + 1) + 1) - 1) with (N.min (f_height s + 2000) (tr_height t)) in E1
      by (unfold max_cfheaders; lia).
    fold (next_stop t (f_height s)) in E1. destruct (next_stop t (f_height s)) as [stop|] eqn:St; [|done].
    unfold get_cfheaders in E1. destruct (c_inflight s !! stop) as [q|] eqn:Q.
    { injection E1 as <- <-. split; [by apply fine_same|]. intros _ _. exists stop. split; [done|]. by rewrite Q. }
    destruct (sample_peer _ _) as [[p b]|] eqn:Sa.
    - injection E1 as <- <-. split.
      + split; [done|]. intros w A. split; [by apply agrees_set|]. split; [|done].
        cbn [proper]. destruct A as [A B]. split; [rewrite <- A; by eapply sample_in|]. left. specialize (B stop). rewrite Q in B.
        destruct (w_asked w !! stop); [done|]. split; [done|]. split; [done|]. split; [lia|]. split; [done|].
        unfold past_checkpoints. destruct (tr_checkpoint t); [by apply N.ltb_ge in Cp|done].
      + intros _ _. exists stop. split; [done|]. cbn. rewrite lookup_insert. done.
    - injection E1 as <- <-. split; [by apply fine_same|]. intros _ NE. destruct (sample_some (k_sync (i_k i)) _ NE) as (p & b & S'). congruence. }
  destruct X as [X1 X2]; destruct (r_active (c_rescan s1)); [|intros [= <- <-]; split; [done|]; intros _; exact X2].
  destruct (get_cfilters _ _ _ _ _) as [[[s2 o2] e]|] eqn:G; [cbn [mbind_M]|done]; intros [= <- <-].
  split; [eapply fine_trans; [exact X1|by eapply cfilters_fine]|]; intros _ L NE; destruct (X2 L NE) as (stop & Y1 & Y2); exists stop; split; [done|].
  destruct (get_cfilters_spec (k_order (i_k i) n) (r_current (c_rescan s1)) (f_height s1) t s1) as [[E' _]|(r & o' & e' & E' & _)]; rewrite E' in G; [done|].
  injection G as <- <- <-; exact Y2.
Qed.
Lemma set_idle_fine s s' x v : fine s s' x -> fine s (set_idle v s') x.
Proof. intros [A B]. split; [exact A|]. intros w W. exact (B w W). Qed.
Lemma idle_fine s s' x : idle P (i_k i) now t s = Val (s', x) -> fine s s' x.
Proof.
  unfold idle. destruct (_ <=? _); [|intros [= <- <-]; by apply fine_same].
  destruct (sync _ _ _ _ _ _) as [[s1 o]|] eqn:E; [cbn [mbind_M]|done]. intros [= <- <-]. apply sync_fine in E as [E _].
  apply set_idle_fine. eapply fine_trans; [exact E|]. apply fine_same; try done. by repeat constructor.
Qed.

Lemma expire_fine hs : i_op i = CTimer -> forall n s, fine s (expire P (i_k i) now n hs s).1 (expire P (i_k i) now n hs s).2.
Proof.
  intros Ti. induction hs as [|h hs IH]; intros n s; cbn [expire]; [by apply fine_same; try constructor|].
  set (m := match c_inflight s !! h with Some _ => _ | None => _ end).
  assert (X : fine s m.1 m.2).
  { unfold m. destruct (c_inflight s !! h) as [[[start addr] e]|] eqn:E; [|by apply fine_same; try constructor].
    destruct (N.leb_spec e now) as [L|L]; [|by apply fine_same; try constructor].
    destruct (sample_peer _ _) as [[a b]|] eqn:Sa; [|by apply fine_same; try constructor]. cbn [fst snd]. pose proof (sample_in _ _ _ _ Sa) as Da.
    split; [by destruct (_ && _)|]. intros w A.
    assert (W : exists t0, w_asked w !! h = Some (start, t0) /\ t0 + p_timeout P <= now).
    { destruct A as [_ B]. specialize (B h). rewrite E in B. cbn in B. destruct (w_asked w !! h) as [[s0 t0]|]; [|done].
      cbn in B. injection B as -> ->. by exists t0. }
    destruct W as (t0 & W1 & W2).
    destruct (negb (a =? addr) && negb b) eqn:D.
    - apply andb_true_iff in D as [D _]. apply negb_true_iff, N.eqb_neq in D. cbn [app foldl propers].
      assert (A' : agrees (set_cpeers (delete addr (c_peers s)) s) (watch_out i w (CoDisconnect addr))).
      { destruct A as [A B]. split; [|exact B]. cbn. rewrite dom_delete_L. by rewrite A. }
      split; [by apply (agrees_set (set_cpeers (delete addr (c_peers s)) s))|]. split; [done|]. split; [|done]. split.
      + cbn. destruct A as [<- _]. set_solver.
      + right. exists t0. done.
    - cbn [app foldl propers]. split; [by apply agrees_set|]. split; [|done]. split; [destruct A as [<- _]; done|]. right. by exists t0. }
  destruct m as [s1 o1]. cbn [fst snd] in X. specialize (IH (Datatypes.S n) s1).
  destruct (expire _ _ _ _ hs s1) as [s2 o2]. cbn [fst snd] in *. by eapply fine_trans.
Qed.
Lemma expire_asks hs h start p e : e <= now -> h ∈ hs -> forall n s, c_inflight s !! h = Some (start, p, e) -> c_peers s <> ∅ ->
  exists a, CoGetCFHeaders a start h ∈ (expire P (i_k i) now n hs s).2.
Proof.
  intros L. induction hs as [|h' hs IH]; intros I n s E NE; [by apply elem_of_nil in I|]. cbn [expire].
  destruct (decide (h' = h)) as [->|NH].
  - rewrite E. destruct (N.leb_spec e now); [|lia]. destruct (sample_some (k_sample (i_k i) n) _ NE) as (a & b & ->).
    destruct (expire _ _ _ _ hs _) as [s2 o2]. exists a. cbn [snd]. apply elem_of_app. left. apply elem_of_app. right. by left.
  - apply elem_of_cons in I as [->|I]; [done|]. specialize (IH I (Datatypes.S n)).
    destruct (c_inflight s !! h') as [[[st' ad] e']|] eqn:E'.
    2: { specialize (IH s E NE). destruct (expire _ _ _ _ hs s) as [s2 o2]. cbn [fst snd] in *. destruct IH as [a IH]. exists a. done. }
    destruct (e' <=? now).
    2: { specialize (IH s E NE). destruct (expire _ _ _ _ hs s) as [s2 o2]. cbn [fst snd] in *. destruct IH as [a IH]. exists a. done. }
    destruct (sample_peer _ _) as [[a b]|] eqn:Sa.
    2: { specialize (IH s E NE). destruct (expire _ _ _ _ hs s) as [s2 o2]. cbn [fst snd] in *. destruct IH as [a IH]. exists a. done. }
    match goal with |- context[expire P (i_k i) now (Datatypes.S n) hs ?s0] => specialize (IH s0) end.
    destruct IH as [a' IH].
    + cbn. rewrite lookup_insert_ne by done. by destruct (_ && _).
    + cbn. destruct (negb (a =? ad) && negb b) eqn:D; [|done]. apply andb_true_iff in D as [D _]. apply negb_true_iff, N.eqb_neq in D.
      cbn. intros Em. assert (X : a ∈ dom (delete ad (c_peers s))) by (rewrite dom_delete_L; apply sample_in in Sa; set_solver).
      rewrite Em in X. set_solver.
    + match type of IH with context[expire ?a1 ?a2 ?a3 ?a4 ?a5 ?a6] => destruct (expire a1 a2 a3 a4 a5 a6) as [s2 o2] end. cbn [fst snd] in *. exists a'. apply elem_of_app. by right.
Qed.

Lemma timer_fine s s' x : i_op i = CTimer -> cbf_timer P (i_k i) now t s = Val (s', x) -> fine s s' x.
Proof.
  intros Ti. unfold cbf_timer. destruct (idle _ _ _ _ _) as [[s1 o1]|] eqn:E1; [cbn [mbind_M]|done]. apply idle_fine in E1.
  destruct (expire _ _ _ _ _ _) as [s2 o2] eqn:E2.
  pose proof (expire_fine (k_order (i_k i) 3 (map_to_list (c_inflight s1)).*1) Ti 0 s1) as X. rewrite E2 in X. cbn [fst snd] in X.
  destruct (_ && _); [|intros [= <- <-]; by eapply fine_trans].
  destruct (get_cfilters _ _ _ _ _) as [[[s3 o3] e]|] eqn:E3; [cbn [mbind_M]|done]. intros [= <- <-]. apply cfilters_fine in E3.
  eapply fine_trans; [exact E1|]. eapply fine_trans; [exact X|]. destruct E3 as [A B]. split; [exact A|]. intros w W. exact (B w W).
Qed.
Lemma timer_asks s s' x stop start p e : i_op i = CTimer -> complete i -> cbf_timer P (i_k i) now t s = Val (s', x) ->
  c_inflight s !! stop = Some (start, p, e) -> e <= now -> c_peers s <> ∅ -> exists a, CoGetCFHeaders a start stop ∈ x.
Proof.
  intros Ti Co. unfold cbf_timer. destruct (idle_spec P (i_k i) now t s) as [[_ ->]|(s1 & o1 & E1 & _ & Pe)]; [done|].
  intros E F L NE. rewrite E1 in E. cbn [mbind_M] in E.
  assert (F1 : c_inflight s1 !! stop = Some (start, p, e)).
  { clear -E1 F. unfold idle in E1. destruct (_ <=? _); [|by injection E1 as <- <-].
    unfold sync, assertM in E1. destruct (_ <=? _); [|done]. destruct (match tr_checkpoint t with Some _ => _ | None => _ end); [by injection E1 as <- <-|].
    match type of E1 with context[if f_height s <? tr_height t then ?m else ?m'] =>
      assert (X : forall s2 o2, (if f_height s <? tr_height t then m else m') = Val (s2, o2) -> c_inflight s2 !! stop = Some (start, p, e)) end.
    { intros s2 o2. destruct (_ <? _); [|by intros [= <- <-]]. unfold send_getcfheaders. destruct (_ <? _); [by intros [= <- <-]|].
      destruct (tr_at _ _) as [hash|]; [|done]. unfold get_cfheaders. destruct (c_inflight s !! hash) eqn:Eh; [by intros [= <- <-]|].
      destruct (sample_peer _ _) as [[q b]|]; [|by intros [= <- <-]]. intros [= <- <-]. cbn. rewrite lookup_insert_ne; [done|]. intros ->. congruence. }
    destruct (if f_height s <? tr_height t then _ else _) as [[s2 o2]|]; [|done]. specialize (X _ _ eq_refl). cbn [mbind_M] in E1.
    destruct (r_active _).
    - destruct (get_cfilters_spec (k_order (i_k i) 0) (r_current (c_rescan s2)) (f_height s2) t s2) as [[E' _]|(r & o' & e' & E' & _)]; rewrite E' in E1; [done|].
      cbn [mbind_M] in E1. by injection E1 as <- <-.
    - cbn [mbind_M] in E1. by injection E1 as <- <-. }
  destruct (expire _ _ _ _ _ _) as [s2 o2] eqn:E2.
  destruct (expire_asks (k_order (i_k i) 3 (map_to_list (c_inflight s1)).*1) stop start p e L) with (n := 0%nat) (s := s1) as [a X]; [|done|by rewrite Pe|].
  { rewrite (Co 3%nat). apply elem_of_list_fmap. exists (stop, (start, p, e)). split; [done|]. by apply elem_of_map_to_list. }
  rewrite E2 in X. cbn [snd] in X. exists a.
  destruct (_ && _).
  - destruct (get_cfilters _ _ _ _ _) as [[[s3 o3] e3]|]; [cbn [mbind_M] in E|done]. injection E as <- <-. apply elem_of_app. right. apply elem_of_app. by left.
  - injection E as <- <-. apply elem_of_app. by right.
Qed.

Lemma processes_outs r r' ms es o : processes P r r' ms es -> o ∈ es -> other o.
Proof.
  intros [_ _ _ _ _ (l & _ & _ & ->) _] I. apply elem_of_app in I as [I|I].
  - apply elem_of_lookup_imap in I as (k & [[f hash] c] & -> & _). done.
  - destruct (bool_decide _); [apply elem_of_list_singleton in I as ->; done|by apply elem_of_nil in I].
Qed.
(** One step. *)
Definition stepped (s s' : cbf) (x : list cout) : Prop :=
  forall w, agrees s w -> agrees s' (foldl (watch_out i) (watch_in w i) x) /\ propers (f_height s') (watch_in w i) x.
Lemma fine_stepped s s' x : (forall w, watch_in w i = w) -> fine s s' x -> stepped s s' x.
Proof. intros W [A B] w Ag. rewrite W. destruct (B w Ag) as [B1 B2]. split; [done|]. unfold f_height in *. by rewrite A. Qed.
Lemma agrees_delete s w stop : agrees s w -> agrees (set_inflight (delete stop (c_inflight s)) s) (Watch (w_peers w) (delete stop (w_asked w))).
Proof.
  intros [A B]. split; [exact A|]. intros st. cbn. destruct (decide (stop = st)) as [->|NE]; [by rewrite !lookup_delete|]. by rewrite !lookup_delete_ne.
Qed.
Lemma cfheaders_stepped from ftype stop prev hashes s s' x : i_op i = CCFHeaders from ftype stop prev hashes ->
  received_cfheaders P (i_k i) now t from ftype stop prev hashes s = Val (s', x) -> stepped s s' x.
Proof.
  intros Op E w Ag. unfold watch_in. rewrite Op. set (w1 := Watch _ _). unfold received_cfheaders in E.
  destruct (c_inflight s !! stop) as [q|] eqn:Q.
  2: { injection E as <- <-. cbn. split; [|done]. destruct Ag as [A B]. split; [exact A|]. intros st. cbn. specialize (B st).
       destruct (decide (stop = st)) as [->|NE]; [by rewrite lookup_delete, Q|by rewrite lookup_delete_ne]. }
  pose proof (agrees_delete s w stop Ag) as Ag1. fold w1 in Ag1. set (s1 := set_inflight _ s) in *. clearbody s1 w1.
  assert (G : forall s2 s3 y, fine s1 s2 y -> s3 = s2 -> x = y -> s' = s3 -> agrees s' (foldl (watch_out i) w1 x) /\ propers (f_height s') w1 x).
  { intros s2 s3 y [F1 F2] -> -> ->. destruct (F2 w1 Ag1) as [G1 G2]. split; [done|]. unfold f_height in *. by rewrite F1. }
  destruct (negb _). { injection E as <- <-. eapply G; [|reflexivity..]. apply fine_same; try done. by repeat constructor. }
  destruct (tr_get t stop) as [sh|]; [|injection E as <- <-; eapply G; [|reflexivity..]; apply fine_same; try done; by repeat constructor].
  destruct (_ <=? _); [injection E as <- <-; eapply G; [|reflexivity..]; by apply fine_same|].
  destruct (negb _). { injection E as <- <-. eapply G; [|reflexivity..]. apply set_idle_fine, fine_same; try done; by repeat constructor. }
  destruct (_ <? _). { injection E as <- <-. eapply G; [|reflexivity..]. apply fine_same; try done. by repeat constructor. }
  destruct (_ =? _). { injection E as <- <-. eapply G; [|reflexivity..]. apply fine_same; try done. by repeat constructor. }
  destruct (negb _). { injection E as <- <-. eapply G; [|reflexivity..]. apply fine_same; try done. by repeat constructor. }
  destruct (f_import _ _ s1) as [s2 oh] eqn:Im.
  assert (Ag2 : agrees s2 w1). { unfold f_import in Im. destruct (k_put _); injection Im as <- <-; exact Ag1. }
  clear G Ag1.
  assert (G : forall y, fine s2 s' y -> x = y -> agrees s' (foldl (watch_out i) w1 x) /\ propers (f_height s') w1 x).
  { intros y [F1 F2] ->. destruct (F2 w1 Ag2) as [G1 G2]. split; [done|]. unfold f_height in *. by rewrite F1. }
  destruct oh as [height|]; [|injection E as <- <-; eapply G; [|reflexivity]; apply fine_same; try done; by repeat constructor].
  destruct (headers_imported _ _ _ _ _) as [[[s3 o] e]|] eqn:Hi; [cbn [mbind_M] in E|done].
  assert (F3 : fine s2 s3 o).
  { unfold headers_imported in Hi. destruct (r_active _); [|injection Hi as <- <- <-; by apply fine_same].
    destruct (_ <? _); [injection Hi as <- <- <-; by apply fine_same|by eapply cfilters_fine]. }
  destruct e; [done|]. unfold assertM in E. destruct (_ <=? _); [|done]. destruct (_ =? _).
  { injection E as <- <-. eapply G; [|reflexivity]. eapply fine_trans; [exact F3|]. apply fine_same; try done. by repeat constructor. }
  destruct (sync _ _ _ _ _ _) as [[s4 o4]|] eqn:Sy; [cbn [mbind_M] in E|done]. injection E as <- <-. eapply G; [|reflexivity].
  eapply fine_trans; [exact F3|]. by apply sync_fine in Sy as [Sy _].
Qed.

Lemma step_watch s s' x : step_on P i s = Val (s', x) -> stepped s s' x.
Proof.
  unfold step_on, cbf_step. destruct (i_op i) as [|addr ob fl pe|addr|block h|h|rv|tx|tx ou|from ft st pv hs|from ft a st|from ft ha f| |scr|tx ou|fr to w|a b] eqn:Op.
  - intros E. apply fine_stepped; [intros w; unfold watch_in; by rewrite Op|]. by apply idle_fine.
  - unfold cbf_negotiated. destruct ob, fl; cbn [andb].
    2-4: intros [= <- <-]; apply fine_stepped; [intros w; unfold watch_in; by rewrite Op|by apply fine_same].
    intros E w Ag. unfold watch_in. rewrite Op. apply sync_fine in E as [[F1 F2] _]. unfold f_height in *. rewrite F1. apply F2.
    destruct Ag as [A B]. split; [|exact B]. cbn. by rewrite dom_insert_L, A.
  - intros [= <- <-] w Ag. unfold watch_in. rewrite Op. split; [|done]. destruct Ag as [A B]. split; [|exact B]. cbn. by rewrite dom_delete_L, A.
  - intros E. apply fine_stepped; [intros w; unfold watch_in; by rewrite Op|]. destruct (decide _); injection E as <- <-; apply fine_same; try done; by repeat constructor.
  - intros [= <- <-]. apply fine_stepped; [intros w; unfold watch_in; by rewrite Op|]. by apply fine_same.
  - match goal with |- mbind_M ?m _ = _ -> _ => destruct m as [[s1 o1]|] eqn:E1; [|done] end. cbn [mbind_M].
    assert (X : c_peers s1 = c_peers s /\ c_inflight s1 = c_inflight s /\ Forall other o1).
    { destruct (last rv) as [h|]; [|by injection E1 as <- <-]. unfold cbf_rollback in E1. destruct (_ <=? _); [by injection E1 as <- <-|].
      destruct (r_rollback _ _) as [r|]; [cbn [mbind_M] in E1|done]. unfold f_rollback in E1. destruct (k_rollback_ok _); cbn [mbind_M] in E1.
      - destruct (_ && _); cbn [mbind_M] in E1; by injection E1 as <- <-.
      - injection E1 as <- <-. repeat split. by repeat constructor. }
    destruct (sync _ _ _ _ _ _) as [[s2 o2]|] eqn:Sy; [cbn [mbind_M]|done]. intros [= <- <-] w Ag. apply sync_fine in Sy as [[F1 F2] _].
    destruct X as (X1 & X2 & X3). unfold watch_in. rewrite Op. rewrite foldl_app. destruct (others (f_height s2) o1 X3 w) as [Y1 Y2].
    destruct (F2 w) as [G1 G2]. { unfold agrees. by rewrite X1, X2. } rewrite Y1. split; [done|]. apply propers_app; [done|]. rewrite Y1.
    unfold f_height in *. by rewrite F1.
  - intros [= <- <-]. apply fine_stepped; [intros w; unfold watch_in; by rewrite Op|]. by apply fine_same.
  - intros [= <- <-]. apply fine_stepped; [intros w; unfold watch_in; by rewrite Op|]. by apply fine_same.
  - by apply cfheaders_stepped.
  - intros E. apply fine_stepped; [intros w; unfold watch_in; by rewrite Op|]. unfold received_getcfheaders in E.
    destruct (negb _); [injection E as <- <-; apply fine_same; try done; by repeat constructor|].
    destruct (tr_get _ _) as [stop|]; [|injection E as <- <-; by apply fine_same].
    destruct (f_range _ _ _ _) as [|? ?]; [injection E as <- <-; by apply fine_same|].
    destruct (f_prev _ _ _); [|done]. injection E as <- <-. split; [done|]. intros w A. cbn [foldl watch_out propers proper]. split; [done|]. split; [|done]. by exists ft, a.
  - intros E. apply fine_stepped; [intros w; unfold watch_in; by rewrite Op|]. unfold received_cfilter in E.
    destruct (negb _); [injection E as <- <-; by apply fine_same|].
    destruct (tr_get _ _) as [height|]; [|injection E as <- <-; by apply fine_same].
    destruct (f_get _ _ _) as [[? header]|]; [|injection E as <- <-; by apply fine_same].
    destruct (f_prev _ _ _); [|done]. destruct (negb _); [injection E as <- <-; apply fine_same; try done; by repeat constructor|].
    destruct (r_receive _ _ _ _) as [[r rq]|]; [cbn [mbind_M] in E|done].
    match type of E with mbind_M ?m _ = _ => destruct m as [[[s1 ms] es]|] eqn:E1; [|done] end. cbn [mbind_M] in E.
    assert (X : c_filters s1 = c_filters s /\ c_peers s1 = c_peers s /\ c_inflight s1 = c_inflight s /\ Forall other es).
    { destruct rq; [|by injection E1 as <- <- <-]. destruct (process_spec P r) as (r' & ms' & es' & Ep & Pr). rewrite Ep in E1. cbn [mbind_M] in E1.
      injection E1 as <- <- <-. split; [by destruct (_ <? _)|]. split; [by destruct (_ <? _)|]. split; [by destruct (_ <? _)|].
      apply Forall_forall. intros o Ho. by eapply processes_outs. }
    destruct X as (X1 & X2 & X3 & X4). pose proof (want_quiet ms (c_pending s1)) as W. destruct (want_blocks _ _) as [pn o]. cbn [snd] in W.
    injection E as <- <-. apply fine_same; try done. constructor; [done|]. apply Forall_app. split; [done|]. apply Forall_app. split.
    + eapply Forall_impl; [exact W|]. by intros ? [? ->].
    + destruct (decide _); by repeat constructor.
  - intros E. apply fine_stepped; [intros w; unfold watch_in; by rewrite Op|]. by apply timer_fine.
  - intros [= <- <-]. apply fine_stepped; [intros w'; unfold watch_in; by rewrite Op|]. by apply fine_same.
  - intros [= <- <-]. apply fine_stepped; [intros w'; unfold watch_in; by rewrite Op|]. by apply fine_same.
  - intros E. apply fine_stepped; [intros w'; unfold watch_in; by rewrite Op|]. unfold cbf_rescan in E.
    destruct (decide _); [injection E as <- <-; apply fine_same; try done; by repeat constructor|].
    destruct (_ <? _); [injection E as <- <-; apply fine_same; try done; by repeat constructor|].
    destruct (get_cfilters _ _ _ _ _) as [[[s1 o1] e]|] eqn:G; [cbn [mbind_M] in E|done]. apply cfilters_fine in G.
    assert (E' : (let '(r, ms, es) := match r_process P (c_rescan s1) with Val q => q | Panic _ => (c_rescan s1, [], []) end in
      s' = set_rescan r s1 /\ exists st, x = [CoRescanStarted st.1 st.2] ++ o1 ++ es ++ (CoGetBlock <$> ms.*2)) /\ exists q, r_process P (c_rescan s1) = Val q).
    { destruct (process_spec P (c_rescan s1)) as (r' & ms' & es' & Ep & Pr). rewrite Ep in E. rewrite Ep. cbn [mbind_M] in E.
      destruct e as [[]|]; [done| |]; injection E as <- <-; (split; [|by eexists]); (split; [done|]); by eexists (_, _). }
    destruct E' as [E' [q Eq]]. rewrite Eq in E'. destruct (process_spec P (c_rescan s1)) as (r' & ms' & es' & Ep & Pr). rewrite Ep in Eq. injection Eq as <-.
    destruct E' as [-> [[st1 st2] ->]].
    apply (fine_trans s s); [apply fine_same; try done; by repeat constructor|].
    apply (fine_trans s s1). { destruct G as [G1 G2]. split; [exact G1|]. intros w' W'. exact (G2 w' W'). }
    apply fine_same; try done. apply Forall_app. split.
    + apply Forall_forall. intros o Ho. by eapply processes_outs.
    + apply Forall_forall. intros o Ho. apply elem_of_list_fmap in Ho as (? & -> & _). done.
  - intros E. destruct (get_cfilters _ _ _ _ _) as [[[s1 o1] e]|] eqn:G; [cbn [mbind_M] in E|done]. injection E as <- <-. apply cfilters_fine in G.
    apply fine_stepped; [intros w'; unfold watch_in; by rewrite Op|]. eapply fine_trans; [exact G|]. apply fine_same; try done. by repeat constructor.
Qed.
End Watch.

Lemma run_watch P ins : forall s w s' outs, agrees P s w -> cbf_run P ins s = Val (s', outs) -> agrees P s' (watches ins outs w).
Proof.
  induction ins as [|i ins IH]; intros s w s' outs A; cbn [cbf_run]; [by intros [= <- <-]|].
  destruct (step_on P i s) as [[s1 x]|] eqn:E; [cbn [mbind_M]|done]. destruct (cbf_run P ins s1) as [[s2 xs]|] eqn:R; [cbn [mbind_M]|done].
  intros [= <- <-]. cbn [watches]. eapply IH; [|exact R]. exact (proj1 (step_watch P i s s1 x E w A)).
Qed.
Lemma agrees0 P cap st : agrees P (cbf0 cap st) watch0.
Proof. split; [cbn; by rewrite dom_empty_L|]. intros stop. cbn. by rewrite !lookup_empty. Qed.
Lemma agrees_peers P s w : agrees P s w -> w_peers w <> ∅ -> c_peers s <> ∅.
Proof. intros [A _] NE E. apply NE. rewrite <- A, E. apply dom_empty_L. Qed.
Lemma agrees_asked P s w stop : agrees P s w -> is_Some (c_inflight s !! stop) -> is_Some (w_asked w !! stop).
Proof. intros [_ B] [q Q]. specialize (B stop). rewrite Q in B. destruct (w_asked w !! stop); [done|]. discriminate. Qed.

Lemma headers_asked P cap st ins s outs i s' x x1 p start stop x2 : cbf_reach P cap st ins s outs -> step_on P i s = Val (s', x) ->
  x = x1 ++ CoGetCFHeaders p start stop :: x2 ->
  proper P i (f_height s') (foldl (watch_out i) (watch_in (watches ins outs watch0) i) x1) (CoGetCFHeaders p start stop).
Proof.
  intros R E X. pose proof (run_watch P ins _ _ _ _ (agrees0 P cap st) R) as A. destruct (step_watch P i s s' x E _ A) as [_ B].
  by eapply propers_split.
Qed.
(** What is asked for and answered. *)
Lemma step_proper P cap st ins s outs i s' x o : cbf_reach P cap st ins s outs -> step_on P i s = Val (s', x) -> o ∈ x ->
  exists x1 x2, x = x1 ++ o :: x2 /\ proper P i (f_height s') (foldl (watch_out i) (watch_in (watches ins outs watch0) i) x1) o.
Proof.
  intros R E I. apply elem_of_list_split in I as (x1 & x2 & ->). exists x1, x2. split; [done|].
  pose proof (run_watch P ins _ _ _ _ (agrees0 P cap st) R) as A. destruct (step_watch P i s s' _ E _ A) as [_ B]. by eapply propers_split.
Qed.
Lemma headers_again P cap st ins s outs i s' x start stop t0 : cbf_reach P cap st ins s outs -> step_on P i s = Val (s', x) ->
  i_op i = CTimer -> complete i -> w_asked (watches ins outs watch0) !! stop = Some (start, t0) -> t0 + p_timeout P <= i_now i ->
  w_peers (watches ins outs watch0) <> ∅ -> exists p, CoGetCFHeaders p start stop ∈ x.
Proof.
  intros R E Op Co W L NE. pose proof (run_watch P ins _ _ _ _ (agrees0 P cap st) R) as A. pose proof (agrees_peers P _ _ A NE) as Pe.
  destruct A as [_ B]. specialize (B stop). rewrite W in B. cbn in B. destruct (c_inflight s !! stop) as [[[st0 p] e]|] eqn:Q; [|done].
  cbn in B. injection B as -> ->. unfold step_on, cbf_step in E. rewrite Op in E.
  exact (timer_asks P i s s' x stop start p _ Op Co E Q L Pe).
Qed.

Lemma step_next P cap i s s' x : cbf_ok P cap s -> c_store s = c_filters s -> io_ok i -> step_on P i s = Val (s', x) -> looks_for_headers i s s' ->
  past_checkpoints (i_tree i) -> f_height s' < tr_height (i_tree i) -> c_peers s' <> ∅ ->
  exists stop, next_stop (i_tree i) (f_height s') = Some stop /\ is_Some (c_inflight s' !! stop).
Proof.
  intros Ok St [Io _] E L Cp Lh Pe.
  assert (G : forall n s0 o, sync P (i_k i) n (i_now i) (i_tree i) s0 = Val (s', o) -> exists stop, next_stop (i_tree i) (f_height s') = Some stop /\ is_Some (c_inflight s' !! stop)).
  { intros n s0 o Sy. pose proof (sync_fine P i n s0 s' o Sy) as [[F _] Nx]. unfold f_height in *. rewrite F in Lh |- *. apply Nx; [done|done|].
    destruct (sync_spec P (i_k i) n (i_now i) (i_tree i) s0) as [[_ E']|(_ & s2 & o2 & E' & _ & Ep)]; rewrite E' in Sy; [done|].
    injection Sy as -> ->. by rewrite <- Ep. }
  unfold looks_for_headers in L. unfold step_on, cbf_step in E. destruct (i_op i) eqn:Op; try done.
  - destruct L as [-> ->]. exact (G _ _ _ E).
  - match type of E with mbind_M ?m _ = _ => destruct m as [[s1 o1]|]; [|done] end. cbn [mbind_M] in E.
    destruct (sync _ _ _ _ _ _) as [[s2 o2]|] eqn:Sy; [cbn [mbind_M] in E|done]. injection E as <- <-. by eapply G.
  - unfold received_cfheaders in E. destruct (c_inflight s !! stop_hash) as [q|]; [|injection E as <- <-; lia].
    set (s1 := set_inflight _ s) in E. assert (H1 : f_height s1 = f_height s) by done. assert (H2 : c_store s1 = c_filters s1) by done. clearbody s1.
    destruct (negb _); [injection E as <- <-; lia|]. destruct (tr_get _ _) as [sh|]; [|injection E as <- <-; lia].
    destruct (_ <=? _); [injection E as <- <-; lia|]. destruct (negb _); [injection E as <- <-; exfalso; clear -L H1; unfold f_height in *; cbn in *; lia|].
    destruct (_ <? _); [injection E as <- <-; lia|]. destruct (_ =? _); [injection E as <- <-; lia|]. destruct (negb _); [injection E as <- <-; lia|].
    unfold f_import in E. rewrite Io in E. set (s2 := set_filters _ _ s1) in E.
    assert (H3 : lenN (c_store s1 ++ chain_headers P prev hashes) = f_height s2) by (unfold f_height; cbn; by rewrite H2). rewrite H3 in E.
    destruct (headers_imported _ _ _ _ _) as [[[s3 o] e]|] eqn:Hi; [cbn [mbind_M] in E|done].
    assert (H4 : f_height s3 = f_height s2).
    { destruct (headers_imported_spec (i_k i) (f_height s1) (f_height s2) (i_tree i) s2) as [(s4 & o4 & e4 & E4 & _ & _ & E5 & _)|[E4 _]]; rewrite E4 in Hi; [|done].
      by injection Hi as <- <- <-. }
    destruct e; [done|]. unfold assertM in E. destruct (_ <=? _); [|done]. destruct (N.eqb_spec (f_height s2) (tr_height (i_tree i))).
    { injection E as <- <-. lia. }
    destruct (sync _ _ _ _ _ _) as [[s4 o4]|] eqn:Sy; [cbn [mbind_M] in E|done]. injection E as <- <-. by eapply G.
Qed.
Lemma headers_next P cap st ins s outs i s' x old : chained P ((p_genesis P, p_header P (p_genesis P) 0) :: st) -> lenN st <= tr_height old ->
  cbf_reach P cap st ins s outs -> faithful old ins -> Forall io_ok (ins ++ [i]) -> step_on P i s = Val (s', x) -> looks_for_headers i s s' ->
  past_checkpoints (i_tree i) -> f_height s' < tr_height (i_tree i) ->
  let w := foldl (watch_out i) (watch_in (watches ins outs watch0) i) x in w_peers w <> ∅ ->
  exists stop, next_stop (i_tree i) (f_height s') = Some stop /\ is_Some (w_asked w !! stop).
Proof.
  intros C Lo R F Io E L Cp Lh w NE. apply Forall_app in Io as [Io Io']. apply Forall_cons in Io' as [Io' _].
  pose proof (run_watch P ins _ _ _ _ (agrees0 P cap st) R) as A. destruct (step_watch P i s s' x E _ A) as [B _]. fold w in B.
  pose proof (agrees_peers P _ _ B NE) as Pe.
  destruct (run_heights P cap ins old _ s outs (cbf0_ok P cap st C) eq_refl Lo F Io R) as (_ & St & _).
  destruct (step_next P cap i s s' x (reach_ok P cap st ins s outs C R) St Io' E L Cp Lh Pe) as (stop & X1 & X2).
  exists stop. split; [done|]. by eapply agrees_asked.
Qed.
