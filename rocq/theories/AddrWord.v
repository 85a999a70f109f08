(** The activity and services of known addresses over a history. *)
From Verif Require Import Base AddrModel AddrSpec AddrProofs AddrMain AddrStep AddrFacts.
Open Scope N_scope.

Section Word.
Context (cf : aconf).
Definition kinfo (ka : known) : option N * N := (ka_active ka, ad_services (ka_addr ka)).

Definition worded (i : ip) (oe : addr_op * aenv) (s : amgr) (ka' : known) : Prop :=
  (exists ka, am_peers s !! i = Some ka /\ kinfo ka' = word_step i oe (bool_decide (i ∈ am_connected s)) (kinfo ka)) \/
  (exists active a port, (active, a) ∈ op_addrs oe.1 /\ socket_addr a = Some (i, port) /\ kinfo ka' = (Some (active * 1000), ad_services a)).

Lemma heard_lookup now from s i ka : am_peers (heard_from now from s) !! i = Some ka ->
  exists ka0, am_peers s !! i = Some ka0 /\ kinfo ka = if decide (from.1 = i) then (Some now, ad_services (ka_addr ka0)) else kinfo ka0.
Proof.
  unfold heard_from, with_peers. cbn [am_peers]. intros E. destruct (decide (from.1 = i)) as [<-|Ni].
  - rewrite lookup_alter in E. destruct (am_peers s !! from.1) as [k|]; [|done]. injection E as <-. by exists k.
  - rewrite lookup_alter_ne in E by done. by exists ka.
Qed.

Lemma step_word oe s t s' x i ka' : fair_aenv oe.2 -> wf (am_ranges s) (am_peers s) [] -> am_idle s = Some t ->
  addr_step cf oe s = Val (s', x) -> am_peers s' !! i = Some ka' -> worded i oe s ka'.
Proof.
  destruct oe as [o e]. intros Fe W It E Ek. destruct o as [|a|a sv ob rc|a|a r|from l|from|from| |l src|sv]; unfold addr_step in E; cbn [fst snd] in *.
  - injection E as <- <-. left. by exists ka'.
  - injection E as <- <-. left. exists ka'. split; [|done]. unfold addr_connected in Ek. by destruct (_ || _).
  - injection E as E. left. unfold addr_negotiated in E. cbn zeta in E. unfold word_step. cbn [fst snd].
    case_bool_decide as Co.
    + destruct (am_peers s !! a.1) as [k|] eqn:Ea; injection E as <- <-; cbn [am_peers] in Ek.
      * destruct (decide (a.1 = i)) as [<-|Ni].
        -- rewrite lookup_insert in Ek. injection Ek as <-. exists k. split; [done|]. by rewrite bool_decide_eq_true_2.
        -- rewrite lookup_insert_ne in Ek by done. by exists ka'.
      * destruct (decide (a.1 = i)) as [<-|Ni]; [congruence|]. by exists ka'.
    + injection E as <- <-. cbn [am_peers] in Ek. exists ka'. split; [done|]. destruct (decide (a.1 = i)) as [<-|Ni]; [|done]. by rewrite bool_decide_eq_false_2.
  - injection E as <- <-. left. unfold addr_attempted, with_peers in Ek. cbn [am_peers] in Ek. destruct (decide (a.1 = i)) as [<-|Ni].
    + rewrite lookup_alter in Ek. destruct (am_peers s !! a.1) as [k|]; [|done]. injection Ek as <-. by exists k.
    + rewrite lookup_alter_ne in Ek by done. by exists ka'.
  - injection E as <- <-. left. exists ka'. split; [|done]. unfold addr_disconnected in Ek. case_bool_decide; [|done].
    destruct (bans_for r); [|done].
    match type of Ek with am_peers (ban _ ?q) !! _ = _ => pose proof (ban_facts a.1 q) as (_ & _ & _ & _ & _ & Sub & _) end.
    change (am_peers s) with (am_peers (AMgr (am_peers s) (am_bans s) (am_ranges s) (am_connected s ∖ {[a.1]}) (am_sources s ∖ {[a]}) (am_local s) (am_request s) (am_idle s))).
    by eapply lookup_weaken.
  - pose proof (touch_wf s _ (touch_heard (ae_now e) from s) W) as Wh. unfold received_addr in E.
    assert (G : forall ka, am_peers (heard_from (ae_now e) from s) !! i = Some ka -> worded i (AAddr from l, e) s ka).
    { intros ka H. left. destruct (heard_lookup _ _ _ _ _ H) as (k & Hk & Q). exists k. by split. }
    destruct ((lenN l =? 0) || (MAX_ADDR_ADDRESSES <? lenN l)); cbn [mbind_M] in E; [injection E as <- <-; by apply G|].
    unfold addr_insert in E. change (am_idle (heard_from (ae_now e) from s)) with (am_idle s) in E. rewrite It in E.
    destruct (insert_all_grown cf e t (FromPeer from) l Fe 0 _ Wh) as (s1 & E1 & Gr). rewrite E1 in E. cbn [mbind_M] in E. injection E as <- <-.
    apply (gr_peers _ _ _ _ _ _ Gr) in Ek as [Ek|(ac & b & port & I & -> & Sb & _)]; [by apply G|]. right. by exists ac, b, port.
  - unfold received_getaddr in E. destruct (one_per_range _ _ _ _) as [l|]; [|done]. injection E as <- <-.
    left. destruct (heard_lookup _ _ _ _ _ Ek) as (k & Hk & Q). exists k. by split.
  - injection E as <- <-. left. destruct (heard_lookup _ _ _ _ _ Ek) as (k & Hk & Q). exists k. by split.
  - left. exists ka'. split; [|done]. unfold addr_timer in E.
    set (c := (if REQUEST_TIMEOUT <=? ae_now e - default 0 (am_request s) then _ else _)) in E.
    assert (match c with Val (s1, x1) => am_peers s1 = am_peers s | Panic _ => True end) as A.
    { unfold c. destruct (_ <=? _); [|done]. destruct (is_exhausted s) as [[|]|]; cbn [mbind_M]; done. }
    destruct c as [[s1 x1]|]; [|done]. cbn [mbind_M] in E. destruct (_ <=? _); injection E as <- <-; by rewrite <-A.
  - unfold addr_insert in E. rewrite It in E. destruct (insert_all_grown cf e t src l Fe 0 s W) as (s1 & E1 & Gr). rewrite E1 in E. cbn [mbind_M] in E. injection E as <- <-.
    apply (gr_peers _ _ _ _ _ _ Gr) in Ek as [Ek|(ac & b & port & I & -> & Sb & _)]; [left; by exists ka'|]. right. by exists ac, b, port.
  - left. unfold addr_sample in E. destruct (sample_with_spec cf e (fun ka => has_services (ad_services (ka_addr ka)) sv) s t Fe W It) as (s1 & r & E1 & S).
    rewrite E1 in E. cbn [mbind_M] in E. injection E as <- <-. destruct r as [[a src]|]; [|destruct S as [-> _]; by exists ka'].
    destruct S as (j & ka & Ej & -> & -> & _ & ->). unfold with_peers in Ek. cbn [am_peers] in Ek. destruct (decide (i = j)) as [->|Ni].
    + rewrite lookup_insert in Ek. injection Ek as <-. by exists ka.
    + rewrite lookup_insert_ne in Ek by done. by exists ka'.
Qed.

Lemma word_app i os oe : forall on v, word i (os ++ [oe]) on v = word_step i oe (online i os on) (word i os on v).
Proof. induction os as [|o os IH]; intros on v; [done|]. cbn [app word online]. apply IH. Qed.

Lemma known_word store t0 os s i ka : addr_history cf store t0 os s -> am_peers s !! i = Some ka ->
  (exists ks, store !! i = Some ks /\ kinfo ka = word i os false (kinfo ks)) \/
  (exists os1 oe os2 active a port, os = os1 ++ oe :: os2 /\ (active, a) ∈ op_addrs oe.1 /\ socket_addr a = Some (i, port) /\
     kinfo ka = word i os2 (online i (os1 ++ [oe]) false) (Some (active * 1000), ad_services a)).
Proof.
  intros (e0 & e1 & s0 & s1 & x1 & xs & F0 & Fs & E0 & Et & E1 & R). revert xs s R ka. induction os as [|oe os IH] using rev_ind; intros xs s R ka Ek.
  - cbn in R. injection R as <- _. cbn in E1. injection E1 as <- _. cbn [am_peers] in Ek.
    destruct (new_ok e0 store F0) as (s0' & E0' & _ & _ & _ & Sub). rewrite E0 in E0'. injection E0' as <-.
    left. exists ka. split; [by eapply lookup_weaken|done].
  - apply Forall_app in Fs as [Fs [Fe _]%Forall_cons]. rewrite addr_run_snoc in R. destruct (addr_run cf os s1) as [[s2 xs2]|] eqn:R2; [|done]. cbn [mbind_M] in R.
    destruct (addr_step cf oe s2) as [[s3 x3]|] eqn:E3; [|done]. cbn [mbind_M] in R. injection R as <- _.
    assert (Hh : addr_history cf store t0 os s2) by (exists e0, e1, s0, s1, x1, xs2; done).
    pose proof (history_inv _ _ _ _ _ Hh) as I.
    destruct (step_word oe s2 _ s3 x3 i ka Fe (iv_wf _ _ _ _ _ I) (iv_idle _ _ _ _ _ I) E3 Ek) as [(k & Hk & Q)|(ac & a & port & Ia & Sa & Q)].
    + assert (On : bool_decide (i ∈ am_connected s2) = online i os false).
      { pose proof (iv_online _ _ _ _ _ I i). destruct (online i os false); [apply bool_decide_eq_true|apply bool_decide_eq_false]; intuition congruence. }
      rewrite On in Q. destruct (IH Fs xs2 s2 eq_refl k Hk) as [(ks & Hs & Qk)|(os1 & oe' & os2 & ac & a & port & -> & Ia & Sa & Qk)].
      * left. exists ks. split; [done|]. rewrite word_app, Q. by rewrite <-Qk.
      * right. exists os1, oe', (os2 ++ [oe]), ac, a, port. split; [by rewrite <-app_assoc|]. split; [done|]. split; [done|].
        rewrite word_app, Q, <-Qk. f_equal. clear. rewrite online_app. generalize false as b. induction os1 as [|o os1 IH]; intros b; [done|]. cbn [app online]. apply IH.
    + right. exists os, oe, [], ac, a, port. done.
Qed.
End Word.
