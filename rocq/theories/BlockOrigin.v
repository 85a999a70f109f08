(** Where the headers known to the cache come from. *)
From Verif Require Import Base PowModel BlockModel BlockSpec BlockProofs BlockOps BlockImport
  BlockRun BlockHistory BlockMain.
Open Scope N_scope.

Section Origin.
Context (H : header -> N) (ng : network -> N).

Lemma bstep_origin rank g P c tl c' tl' x : bstep H rank g P (c, tl) (c', tl') -> known H g c' tl' x ->
  known H g c tl x \/ exists ch now, P x ch now.
Proof.
  intros S K. inversion S as [?? hd now ch ?? r HP I I' Sc E O|?? hd now ch ?? r HP I I' Sc E O]; subst.
  - inversion O as [| | |cd c2 tl2 r2 He Hk Hv Hle Heq Hbest Etl Hst Hkn Hf Ht]; subst; [by left|..].
    + apply (known_with_orphan H g) in K; [|match goal with E : entered _ _ _ _ _ _ |- _ => apply E end].
      destruct K as [K| ->]; [by left|right; eauto].
    + apply (known_with_orphan H g) in K; [|match goal with E : entered _ _ _ _ _ _ |- _ => apply E end].
      destruct K as [K| ->]; [by left|right; eauto].
    + apply Hkn, (known_with_orphan H g) in K; [|apply He]. destruct K as [K| ->]; [by left|right; eauto].
  - inversion O as [| |c2 r2 Hp Hv Hs Hor Er]; subst; [by left|by left|].
    destruct K as [K|K]; [left; left; by apply Hor|].
    change (g :: tl ++ [hd]) with ((g :: tl) ++ [hd]) in K. apply elem_of_app in K as [K|K]; [left; by right|].
    apply elem_of_list_singleton in K as ->. right; eauto.
Qed.

Lemma rtc_origin rank g P c tl c' tl' x : rtc (bstep H rank g P) (c, tl) (c', tl') -> known H g c' tl' x ->
  known H g c tl x \/ exists ch now, P x ch now.
Proof.
  intros R. remember (c, tl) as y eqn:Ey. remember (c', tl') as z eqn:Ez. revert c tl Ey.
  induction R as [y|y [c1 tl1] z S R IH]; intros c tl Ey K; subst.
  - injection Ey as -> ->. by left.
  - destruct (IH eq_refl c1 tl1 eq_refl K) as [K'|?]; [|by right]. by eapply bstep_origin.
Qed.

Lemma presented_in os x ch now : presented_at os x ch now -> x ∈ presented os.
Proof.
  intros (o & Ho & Hx & _). unfold presented. change (map fst) with (fmap fst : list (header * choice) -> list header). apply elem_of_list_fmap. exists (x, ch). split; [done|].
  apply elem_inputs. eauto.
Qed.

Lemma known_presented s ps cps os c outs x : params_ok ps -> reachable H ng s ps cps os c outs ->
  x ∈ active c \/ stale H c x -> x ∈ s_genesis s :: s_tail s ++ presented os.
Proof.
  intros Hp R K. apply reachable_history in R as (rank & c0 & tl & Hh & _); [|done].
  assert (known H (s_genesis s) c tl x) as K'.
  { destruct K as [K|K]; [right; by rewrite <- (inv_active (h_inv _ _ _ _ _ _ _ _ _ _ Hh))|by left]. }
  destruct (rtc_origin _ _ _ _ _ _ _ _ (h_steps _ _ _ _ _ _ _ _ _ _ Hh) K') as [[E|E]|(ch & now & E)].
  - rewrite (h_orph0 _ _ _ _ _ _ _ _ _ _ Hh), lookup_empty in E. done.
  - apply elem_of_cons in E as [->|E]; [by left|]. right. apply elem_of_app. by left.
  - right. apply elem_of_app. right. by eapply presented_in.
Qed.

Lemma height_bound s ps cps os c outs : params_ok ps -> reachable H ng s ps cps os c outs ->
  c_height c <= lenN (s_tail s) + lenN (presented os).
Proof.
  intros Hp R. destruct (linked_chain H ng s ps cps Hp os c outs R) as (_ & _ & _ & _ & _ & L).
  assert (NoDup (active c)) as ND.
  { destruct (reach_inv H ng s ps cps Hp os c outs R) as (rank & tl & I). rewrite (inv_active I).
    eapply NoDup_fmap_1. exact (inv_nodup I). }
  assert (length (active c) <= length (s_genesis s :: s_tail s ++ presented os))%nat as Le.
  { apply submseteq_length, NoDup_submseteq; [done|]. intros x Hx. eapply known_presented; eauto. }
  cbn [length] in Le. rewrite app_length in Le. unfold lenN in *. lia.
Qed.
End Origin.
