(** Whom the filter manager drops, seen from outside. *)
From Verif Require Import Base UtilModel CbfModel CbfSpec CbfProofs CbfStep CbfMain CbfFacts CbfWatch.
Open Scope N_scope.

Section Drop.
Context (P : params) (i : input).
Notation now := (i_now i).
Notation t := (i_tree i).

Definition matches (s : cbf) (w : held) : Prop :=
  c_peers s = hd_peers w /\
  forall stop, c_inflight s !! stop = (fun q : N * N * N => (q.1, q.2 + p_timeout P)) <$> hd_asked w !! stop.
Fixpoint drops_ok (w : held) (x : list cout) : Prop :=
  match x with
  | [] => True
  | CoDisconnect p :: x' => dropped_for P i w p x' /\ drops_ok (held_out i w (CoDisconnect p)) x'
  | o :: x' => drops_ok (held_out i w o) x'
  end.
Lemma drops_app x : forall w y, drops_ok w x -> drops_ok (foldl (held_out i) w x) y -> drops_ok w (x ++ y).
Proof.
  induction x as [|o x IH]; intros w y; [done|]. cbn [app foldl]. intros A B. destruct o; try exact (IH _ _ A B).
  cbn [drops_ok] in *. destruct A as [(Ti & q & start & stop & t0 & x3 & -> & A) C]. split; [|by apply IH].
  split; [done|]. by exists q, start, stop, t0, (x3 ++ y).
Qed.
Lemma drops_split x1 : forall w p x2, drops_ok w (x1 ++ CoDisconnect p :: x2) -> dropped_for P i (foldl (held_out i) w x1) p x2.
Proof. induction x1 as [|o x1 IH]; intros w p x2; cbn [app foldl]; [intros A; apply A|]. destruct o; try exact (IH _ _ _). intros [_ A]. by apply IH. Qed.

Definition plain_out (o : cout) : Prop := match o with CoGetCFHeaders _ _ _ | CoDisconnect _ => False | _ => True end.
Lemma plain_outs x : Forall plain_out x -> forall w, foldl (held_out i) w x = w /\ drops_ok w x.
Proof. induction 1 as [|o x H _ IH]; intros w; [done|]. destruct (IH w). by destruct o. Qed.
Lemma other_plain x : Forall other x -> Forall plain_out x.
Proof. intros F. eapply Forall_impl; [exact F|]. by intros []. Qed.
Definition kept (s s' : cbf) (x : list cout) : Prop := forall w, matches s w -> matches s' (foldl (held_out i) w x) /\ drops_ok w x.
Lemma kept_same s s' x : c_peers s' = c_peers s -> c_inflight s' = c_inflight s -> Forall plain_out x -> kept s s' x.
Proof. intros E2 E3 F w A. destruct (plain_outs x F w) as [-> B]. split; [|done]. unfold matches. by rewrite E2, E3. Qed.
Lemma kept_trans s s1 s' x y : kept s s1 x -> kept s1 s' y -> kept s s' (x ++ y).
Proof.
  intros A B w W. destruct (A w W) as [A3 A4]. destruct (B _ A3) as [B3 B4]. rewrite foldl_app. split; [done|]. by apply drops_app.
Qed.
Lemma matches_set s w stop start p : matches s w ->
  matches (set_inflight (<[stop := (start, p, now + p_timeout P)]> (c_inflight s)) s) (held_out i w (CoGetCFHeaders p start stop)).
Proof.
  intros [A B]. split; [exact A|]. intros st. cbn. destruct (decide (stop = st)) as [->|NE]; [by rewrite !lookup_insert|].
  by rewrite !lookup_insert_ne.
Qed.
Lemma cfilters_kept n a b s s' x e : get_cfilters (k_order (i_k i) n) a b t s = Val (s', x, e) ->
  c_peers s' = c_peers s /\ c_inflight s' = c_inflight s /\ Forall plain_out x.
Proof.
  intros E. unfold get_cfilters, assertM in E. destruct (decide _); [by injection E as <- <- <-|].
  destruct (_ <? _); [by injection E as <- <- <-|]. destruct (_ <=? _); [|done].
  destruct (r_requests _ _ _ _) as [[r rs]|]; [cbn [mbind_M] in E|done]. pose proof (ask_peers i n (c_peers s) rs 0) as F.
  destruct (ask_ranges _ _ _ 0 rs) as [os e0]. injection E as <- <- <-. cbn [fst] in F. do 2 (split; [done|]).
  apply Forall_forall. intros y Y. destruct (F y Y) as (p & a' & h & -> & _). done.
Qed.
Lemma sync_kept n s s' x : sync P (i_k i) n now t s = Val (s', x) -> kept s s' x.
Proof.
  unfold sync, assertM. destruct (_ <=? _); [|done].
  destruct (match tr_checkpoint t with Some _ => _ | None => _ end); [intros [= <- <-]; by apply kept_same|].
  match goal with |- mbind_M ?m _ = _ -> _ => destruct m as [[s1 o1]|] eqn:E1; [|done] end. cbn [mbind_M].
  assert (X : kept s s1 o1).
  { destruct (_ <? _); [|injection E1 as <- <-; by apply kept_same]. unfold send_getcfheaders in E1. destruct (_ <? _); [injection E1 as <- <-; by apply kept_same|].
    destruct (tr_at _ _) as [stop|]; [|done]. unfold get_cfheaders in E1. destruct (c_inflight s !! stop); [injection E1 as <- <-; by apply kept_same|].
    destruct (sample_peer _ _) as [[p b]|]; injection E1 as <- <-; [|by apply kept_same]. intros w A. split; [by apply matches_set|done]. }
  destruct (r_active (c_rescan s1)); [|by intros [= <- <-]].
  destruct (get_cfilters _ _ _ _ _) as [[[s2 o2] e]|] eqn:G; [cbn [mbind_M]|done]; intros [= <- <-]. apply cfilters_kept in G as (G1 & G2 & G3).
  eapply kept_trans; [exact X|]. by apply kept_same.
Qed.
Lemma idle_kept s s' x : idle P (i_k i) now t s = Val (s', x) -> kept s s' x.
Proof.
  unfold idle. destruct (_ <=? _); [|intros [= <- <-]; by apply kept_same].
  destruct (sync _ _ _ _ _ _) as [[s1 o]|] eqn:E; [cbn [mbind_M]|done]. intros [= <- <-]. apply sync_kept in E.
  eapply kept_trans; [exact E|]. apply kept_same; try done. by repeat constructor.
Qed.
Lemma expire_kept hs : i_op i = CTimer -> forall n s, kept s (expire P (i_k i) now n hs s).1 (expire P (i_k i) now n hs s).2.
Proof.
  intros Ti. induction hs as [|h hs IH]; intros n s; cbn [expire]; [by apply kept_same; try constructor|].
  set (m := match c_inflight s !! h with Some _ => _ | None => _ end).
  assert (X : kept s m.1 m.2).
  { unfold m. destruct (c_inflight s !! h) as [[[start addr] e]|] eqn:E; [|by apply kept_same; try constructor].
    destruct (N.leb_spec e now) as [L|L]; [|by apply kept_same; try constructor].
    destruct (sample_peer _ _) as [[a b]|] eqn:Sa; [|by apply kept_same; try constructor]. cbn [fst snd]. intros w A.
    assert (W : exists t0, hd_asked w !! h = Some (start, addr, t0) /\ t0 + p_timeout P <= now).
    { destruct A as [_ B]. specialize (B h). rewrite E in B. destruct (hd_asked w !! h) as [[[s0 a0] t0]|]; [|done].
      cbn in B. injection B as -> -> ->. by exists t0. }
    destruct W as (t0 & W1 & W2).
    destruct (negb (a =? addr) && negb b) eqn:D.
    - apply andb_true_iff in D as [D Db]. apply negb_true_iff, N.eqb_neq in D. apply negb_true_iff in Db. subst b. cbn [app foldl drops_ok].
      assert (A' : matches (set_cpeers (delete addr (c_peers s)) s) (held_out i w (CoDisconnect addr))).
      { destruct A as [A B]. split; [|exact B]. cbn. by rewrite A. }
      split; [by apply (matches_set (set_cpeers (delete addr (c_peers s)) s))|]. split; [|done]. split; [done|].
      exists a, start, h, t0, []. split; [done|]. split; [done|]. split; [done|]. split; [done|]. destruct A as [<- _].
      unfold sample_peer in Sa. by apply elem_of_list_lookup_2, elem_of_map_to_list in Sa.
    - cbn [app foldl drops_ok]. split; [by apply matches_set|done]. }
  destruct m as [s1 o1]. cbn [fst snd] in X. specialize (IH (Datatypes.S n) s1).
  destruct (expire _ _ _ _ hs s1) as [s2 o2]. cbn [fst snd] in *. by eapply kept_trans.
Qed.
Lemma timer_kept s s' x : i_op i = CTimer -> cbf_timer P (i_k i) now t s = Val (s', x) -> kept s s' x.
Proof.
  intros Ti. unfold cbf_timer. destruct (idle _ _ _ _ _) as [[s1 o1]|] eqn:E1; [cbn [mbind_M]|done]. apply idle_kept in E1.
  destruct (expire _ _ _ _ _ _) as [s2 o2] eqn:E2.
  pose proof (expire_kept (k_order (i_k i) 3 (map_to_list (c_inflight s1)).*1) Ti 0 s1) as X. rewrite E2 in X. cbn [fst snd] in X.
  destruct (_ && _); [|intros [= <- <-]; by eapply kept_trans].
  destruct (get_cfilters _ _ _ _ _) as [[[s3 o3] e]|] eqn:E3; [cbn [mbind_M]|done]. intros [= <- <-]. apply cfilters_kept in E3 as (A & B & C).
  eapply kept_trans; [exact E1|]. eapply kept_trans; [exact X|]. by apply kept_same.
Qed.
(** One step. *)
Definition holds_on (s s' : cbf) (x : list cout) : Prop :=
  forall w, matches s w -> matches s' (foldl (held_out i) (held_in w i) x) /\ drops_ok (held_in w i) x.
Lemma kept_holds s s' x : (forall w, held_in w i = w) -> kept s s' x -> holds_on s s' x.
Proof. intros W B w Ag. rewrite W. by apply B. Qed.
Lemma cfheaders_holds from ftype stop prev hashes s s' x : i_op i = CCFHeaders from ftype stop prev hashes ->
  received_cfheaders P (i_k i) now t from ftype stop prev hashes s = Val (s', x) -> holds_on s s' x.
Proof.
  intros Op E w Ag. unfold held_in. rewrite Op. set (w1 := Held _ _). unfold received_cfheaders in E.
  destruct (c_inflight s !! stop) as [q|] eqn:Q.
  2: { injection E as <- <-. cbn. split; [|done]. destruct Ag as [A B]. split; [exact A|]. intros st. cbn. specialize (B st).
       destruct (decide (stop = st)) as [->|NE]; [by rewrite lookup_delete, Q|by rewrite lookup_delete_ne]. }
  assert (Ag1 : matches (set_inflight (delete stop (c_inflight s)) s) w1).
  { destruct Ag as [A B]. split; [exact A|]. intros st. cbn. destruct (decide (stop = st)) as [->|NE]; [by rewrite !lookup_delete|]. by rewrite !lookup_delete_ne. }
  set (s1 := set_inflight _ s) in *. clearbody s1 w1.
  enough (G : kept s1 s' x) by (by apply G).
  destruct (negb _). { injection E as <- <-. apply kept_same; try done. by repeat constructor. }
  destruct (tr_get t stop) as [sh|]; [|injection E as <- <-; apply kept_same; try done; by repeat constructor].
  destruct (_ <=? _); [injection E as <- <-; by apply kept_same|].
  destruct (negb _). { injection E as <- <-. apply kept_same; try done; by repeat constructor. }
  destruct (_ <? _). { injection E as <- <-. apply kept_same; try done. by repeat constructor. }
  destruct (_ =? _). { injection E as <- <-. apply kept_same; try done. by repeat constructor. }
  destruct (negb _). { injection E as <- <-. apply kept_same; try done. by repeat constructor. }
  destruct (f_import _ _ s1) as [s2 oh] eqn:Im.
  assert (Ag2 : c_peers s2 = c_peers s1 /\ c_inflight s2 = c_inflight s1). { unfold f_import in Im. destruct (k_put _); by injection Im as <- <-. }
  destruct Ag2 as [P2 I2].
  destruct oh as [height|]; [|injection E as <- <-; apply kept_same; try done; by repeat constructor].
  destruct (headers_imported _ _ _ _ _) as [[[s3 o] e]|] eqn:Hi; [cbn [mbind_M] in E|done].
  assert (F3 : c_peers s3 = c_peers s2 /\ c_inflight s3 = c_inflight s2 /\ Forall plain_out o).
  { unfold headers_imported in Hi. destruct (r_active _); [|by injection Hi as <- <- <-].
    destruct (_ <? _); [by injection Hi as <- <- <-|by eapply cfilters_kept]. }
  destruct F3 as (P3 & I3 & F3). assert (K3 : kept s1 s3 o) by (apply kept_same; congruence).
  destruct e; [done|]. unfold assertM in E. destruct (_ <=? _); [|done]. destruct (_ =? _).
  { injection E as <- <-. eapply kept_trans; [exact K3|]. apply kept_same; try done. by repeat constructor. }
  destruct (sync _ _ _ _ _ _) as [[s4 o4]|] eqn:Sy; [cbn [mbind_M] in E|done]. injection E as <- <-.
  eapply kept_trans; [exact K3|]. by apply sync_kept in Sy.
Qed.

Lemma step_holds s s' x : step_on P i s = Val (s', x) -> holds_on s s' x.
Proof.
  unfold step_on, cbf_step. destruct (i_op i) as [|addr ob fl pe|addr|block h|h|rv|tx|tx ou|from ft st pv hs|from ft a st|from ft ha f| |scr|tx ou|fr to w|a b] eqn:Op.
  - intros E. apply kept_holds; [intros w; unfold held_in; by rewrite Op|]. by apply idle_kept.
  - unfold cbf_negotiated. destruct ob, fl; cbn [andb].
    2-4: intros [= <- <-]; apply kept_holds; [intros w; unfold held_in; by rewrite Op|by apply kept_same].
    intros E w Ag. unfold held_in. rewrite Op. apply sync_kept in E. apply E.
    destruct Ag as [A B]. split; [|exact B]. cbn. by rewrite A.
  - intros [= <- <-] w Ag. unfold held_in. rewrite Op. split; [|done]. destruct Ag as [A B]. split; [|exact B]. cbn. by rewrite A.
  - intros E. apply kept_holds; [intros w; unfold held_in; by rewrite Op|]. destruct (decide _); injection E as <- <-; apply kept_same; try done; by repeat constructor.
  - intros [= <- <-]. apply kept_holds; [intros w; unfold held_in; by rewrite Op|]. by apply kept_same.
  - match goal with |- mbind_M ?m _ = _ -> _ => destruct m as [[s1 o1]|] eqn:E1; [|done] end. cbn [mbind_M].
    assert (X : c_peers s1 = c_peers s /\ c_inflight s1 = c_inflight s /\ Forall plain_out o1).
    { destruct (last rv) as [h|]; [|by injection E1 as <- <-]. unfold cbf_rollback in E1. destruct (_ <=? _); [by injection E1 as <- <-|].
      destruct (r_rollback _ _) as [r|]; [cbn [mbind_M] in E1|done]. unfold f_rollback in E1. destruct (k_rollback_ok _); cbn [mbind_M] in E1.
      - destruct (_ && _); cbn [mbind_M] in E1; by injection E1 as <- <-.
      - injection E1 as <- <-. repeat split. by repeat constructor. }
    destruct (sync _ _ _ _ _ _) as [[s2 o2]|] eqn:Sy; [cbn [mbind_M]|done]. intros [= <- <-]. apply sync_kept in Sy.
    destruct X as (X1 & X2 & X3). apply kept_holds; [intros w; unfold held_in; by rewrite Op|]. eapply kept_trans; [by apply kept_same|exact Sy].
  - intros [= <- <-]. apply kept_holds; [intros w; unfold held_in; by rewrite Op|]. by apply kept_same.
  - intros [= <- <-]. apply kept_holds; [intros w; unfold held_in; by rewrite Op|]. by apply kept_same.
  - by apply cfheaders_holds.
  - intros E. apply kept_holds; [intros w; unfold held_in; by rewrite Op|]. unfold received_getcfheaders in E.
    destruct (negb _); [injection E as <- <-; apply kept_same; try done; by repeat constructor|].
    destruct (tr_get _ _) as [stop|]; [|injection E as <- <-; by apply kept_same].
    destruct (f_range _ _ _ _) as [|? ?]; [injection E as <- <-; by apply kept_same|].
    destruct (f_prev _ _ _); [|done]. injection E as <- <-. apply kept_same; try done. by repeat constructor.
  - intros E. apply kept_holds; [intros w; unfold held_in; by rewrite Op|]. unfold received_cfilter in E.
    destruct (negb _); [injection E as <- <-; by apply kept_same|].
    destruct (tr_get _ _) as [height|]; [|injection E as <- <-; by apply kept_same].
    destruct (f_get _ _ _) as [[? header]|]; [|injection E as <- <-; by apply kept_same].
    destruct (f_prev _ _ _); [|done]. destruct (negb _); [injection E as <- <-; apply kept_same; try done; by repeat constructor|].
    destruct (r_receive _ _ _ _) as [[r rq]|]; [cbn [mbind_M] in E|done].
    match type of E with mbind_M ?m _ = _ => destruct m as [[[s1 ms] es]|] eqn:E1; [|done] end. cbn [mbind_M] in E.
    assert (X : c_peers s1 = c_peers s /\ c_inflight s1 = c_inflight s /\ Forall plain_out es).
    { destruct rq; [|by injection E1 as <- <- <-]. destruct (process_spec P r) as (r' & ms' & es' & Ep & Pr). rewrite Ep in E1. cbn [mbind_M] in E1.
      injection E1 as <- <- <-. split; [by destruct (_ <? _)|]. split; [by destruct (_ <? _)|].
      apply other_plain, Forall_forall. intros o Ho. by eapply processes_outs. }
    destruct X as (X2 & X3 & X4). pose proof (want_quiet ms (c_pending s1)) as W. destruct (want_blocks _ _) as [pn o]. cbn [snd] in W.
    injection E as <- <-. apply kept_same; try done. constructor; [done|]. apply Forall_app. split; [done|]. apply Forall_app. split.
    + eapply Forall_impl; [exact W|]. by intros ? [? ->].
    + destruct (decide _); by repeat constructor.
  - intros E. apply kept_holds; [intros w; unfold held_in; by rewrite Op|]. by apply timer_kept.
  - intros [= <- <-]. apply kept_holds; [intros w'; unfold held_in; by rewrite Op|]. by apply kept_same.
  - intros [= <- <-]. apply kept_holds; [intros w'; unfold held_in; by rewrite Op|]. by apply kept_same.
  - intros E. apply kept_holds; [intros w'; unfold held_in; by rewrite Op|]. unfold cbf_rescan in E.
    destruct (decide _); [injection E as <- <-; apply kept_same; try done; by repeat constructor|].
    destruct (_ <? _); [injection E as <- <-; apply kept_same; try done; by repeat constructor|].
    destruct (get_cfilters _ _ _ _ _) as [[[s1 o1] e]|] eqn:G; [cbn [mbind_M] in E|done]. apply cfilters_kept in G as (G1 & G2 & G3).
    destruct (process_spec P (c_rescan s1)) as (r' & ms' & es' & Ep & Pr). rewrite Ep in E. cbn [mbind_M] in E.
    assert (X : c_peers s' = c_peers s1 /\ c_inflight s' = c_inflight s1 /\ exists st, x = [CoRescanStarted st.1 st.2] ++ o1 ++ es' ++ (CoGetBlock <$> ms'.*2)).
    { destruct e as [[]|]; [done| |]; injection E as <- <-; (split; [done|]); (split; [done|]); by eexists (_, _). }
    destruct X as (X1 & X2 & [st1 st2] & ->). apply kept_same; [rewrite X1; exact G1|rewrite X2; exact G2|]. constructor; [done|]. apply Forall_app. split; [exact G3|]. apply Forall_app. split.
    + apply other_plain, Forall_forall. intros o Ho. by eapply processes_outs.
    + apply Forall_forall. intros o Ho. apply elem_of_list_fmap in Ho as (? & -> & _). done.
  - intros E. destruct (get_cfilters _ _ _ _ _) as [[[s1 o1] e]|] eqn:G; [cbn [mbind_M] in E|done]. injection E as <- <-. apply cfilters_kept in G as (G1 & G2 & G3).
    apply kept_holds; [intros w'; unfold held_in; by rewrite Op|]. apply kept_same; try done. apply Forall_app. split; [done|]. by repeat constructor.
Qed.
End Drop.

Lemma run_holds P ins : forall s w s' outs, matches P s w -> cbf_run P ins s = Val (s', outs) -> matches P s' (helds ins outs w).
Proof.
  induction ins as [|i ins IH]; intros s w s' outs A; cbn [cbf_run]; [by intros [= <- <-]|].
  destruct (step_on P i s) as [[s1 x]|] eqn:E; [cbn [mbind_M]|done]. destruct (cbf_run P ins s1) as [[s2 xs]|] eqn:R; [cbn [mbind_M]|done].
  intros [= <- <-]. cbn [helds]. eapply IH; [|exact R]. exact (proj1 (step_holds P i s s1 x E w A)).
Qed.
Lemma matches0 P cap st : matches P (cbf0 cap st) held0.
Proof. split; [done|]. intros stop. cbn. by rewrite !lookup_empty. Qed.

Lemma whom_dropped P cap st ins s outs i s' x x1 p x2 : cbf_reach P cap st ins s outs -> step_on P i s = Val (s', x) -> x = x1 ++ CoDisconnect p :: x2 ->
  dropped_for P i (foldl (held_out i) (held_in (helds ins outs held0) i) x1) p x2.
Proof.
  intros R E ->. pose proof (run_holds P ins _ _ _ _ (matches0 P cap st) R) as M.
  destruct (step_holds P i s s' _ E _ M) as [_ D]. by apply drops_split.
Qed.

Lemma drops_none P i x : forall w p, drops_ok P i w x -> CoDisconnect p ∈ x -> (forall a, hd_peers w !! a <> Some false) -> False.
Proof.
  induction x as [|o x IH]; intros w p D I W; [by apply elem_of_nil in I|].
  assert (G : forall q, o <> CoDisconnect q). { intros q ->. destruct D as [(_ & a & st & sp & t0 & x3 & _ & _ & _ & _ & D) _]. by apply (W a). }
  apply elem_of_cons in I as [I|I]; [by apply (G p)|].
  apply (IH (held_out i w o) p); [destruct o; try exact D; by apply D|exact I|]. destruct o; try exact W. by destruct (G peer).
Qed.
Lemma all_persistent P ins : forall s w s' outs, matches P s w -> (forall a, hd_peers w !! a <> Some false) -> cbf_run P ins s = Val (s', outs) ->
  Forall (fun i => forall a, i_op i <> CNegotiated a true true false) ins -> forall p, CoDisconnect p ∉ concat outs.
Proof.
  induction ins as [|i ins IH]; intros s w s' outs A W; cbn [cbf_run]; [intros [= <- <-] _ p I; by apply elem_of_nil in I|].
  destruct (step_on P i s) as [[s1 x]|] eqn:E; [cbn [mbind_M]|done]. destruct (cbf_run P ins s1) as [[s2 xs]|] eqn:R; [cbn [mbind_M]|done].
  intros [= <- <-] [F Fs]%Forall_cons p. cbn [concat]. destruct (step_holds P i s s1 x E w A) as [M D].
  assert (W1 : forall a, hd_peers (held_in w i) !! a <> Some false).
  { unfold held_in. destruct (i_op i) as [|b [] [] pe|b| | | | | | | | | | | | |] eqn:Op; try exact W; cbn; intros a.
    - destruct (decide (b = a)) as [->|]; [|by rewrite lookup_insert_ne]. rewrite lookup_insert. intros [= ->]. by apply (F a).
    - rewrite lookup_delete_Some. intros [_ X]. by apply (W a). }
  assert (W2 : forall a, hd_peers (foldl (held_out i) (held_in w i) x) !! a <> Some false).
  { clear -W1. revert W1. generalize (held_in w i). induction x as [|o x IH]; intros w1 W1; cbn; [done|]. apply IH. destruct o; try exact W1. cbn. intros a.
    rewrite lookup_delete_Some. intros [_ X]. by apply (W1 a). }
  intros I. apply elem_of_app in I as [I|I]; [by apply (drops_none P i x _ p D I)|]. by apply (IH s1 _ s2 xs M W2 R Fs p).
Qed.
Lemma none_dropped P cap st ins s outs p : cbf_reach P cap st ins s outs -> Forall (fun i => forall a, i_op i <> CNegotiated a true true false) ins ->
  CoDisconnect p ∉ concat outs.
Proof. intros R F. eapply all_persistent; [apply matches0| |exact R|exact F]. intros a. cbn. by rewrite lookup_empty. Qed.
