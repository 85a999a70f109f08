(** The wallet's screen: what makes it panic. *)
From Verif Require Import Base WalletModel WalletSpec ScreenModel ScreenSpec ScreenProofs.
Open Scope N_scope.

Section Proofs.
Context (addr_of : N -> option N) (script_of : N -> N) (balance_len : N -> N) (status_len : status -> N).
Notation refresh := (refresh addr_of script_of balance_len status_len).
Notation redraw := (redraw addr_of script_of balance_len status_len).
Notation wstep := (wstep addr_of script_of balance_len status_len).
Notation wsteps := (wsteps addr_of script_of balance_len status_len).
Notation wstart := (wstart addr_of script_of balance_len status_len).
Notation wrun := (wrun addr_of script_of balance_len status_len).
Notation on_event := (on_event addr_of script_of balance_len status_len).
Notation table_ok := (table_ok addr_of script_of).
Notation cause := (cause balance_len status_len).

Lemma refresh_same size now w w' : refresh size now w = Val w' -> same w w'.
Proof.
  unfold ScreenModel.refresh. intros E.
  repeat match type of E with context [mbind_M ?m _] => destruct m; cbn [mbind_M] in E; [|discriminate E] end.
  destruct (_ || _ || _); injection E as <-; by repeat split.
Qed.
Lemma wrap16_le x : wrap16 x <= x.
Proof. unfold wrap16. apply N.mod_le. lia. Qed.
Lemma half_lt x y : x / 2 < wrap16 y / 2 -> x < y.
Proof.
  intros H. pose proof (wrap16_le y). destruct (N.lt_ge_cases x y) as [?|G]; [done|].
  assert (wrap16 y / 2 <= x / 2) by (apply N.div_le_mono; lia). lia.
Qed.

(** What the wallet holds is in range. *)
Definition held (n : N) (addrs : list addr_row) (w : wallet) : Prop :=
  table_ok (w_db w) /\ lenN (w_db w) <= n /\ w_addrs w = addrs /\ status_fits (ui_status (w_ui w)) /\
  ui_tip (w_ui w) < 2 ^ 64 /\ w_header w < 2 ^ 64 /\ ui_balance (w_ui w) < 2 ^ 64.
Lemma held_same n addrs w w' : same w w' -> held n addrs w -> held n addrs w'.
Proof. intros (Sd & Sa & Sh & _ & _ & Ss & Sb & _ & St) H. unfold held. by rewrite Sd, Sa, Sh, Ss, Sb, St. Qed.

Lemma draw_coins_panic i db p : table_ok db -> draw_coins addr_of i (utxos script_of db) = Panic p ->
  p = POverflow 449 /\ 2 ^ 16 < i + lenN db + 3.
Proof.
  revert i. induction db as [|r db IH]; intros i T; [done|]. inversion T as [|? ? T1 T2]; subst. cbn [utxos map draw_coins].
  destruct (addr_of (script_of (row_addr r))) as [a|] eqn:A; [|done].
  assert (LE : lenN (r :: db) = 1 + lenN db) by (unfold lenN; cbn [length]; lia). rewrite LE.
  destruct (2 ^ 16 <=? 3 + wrap16 i) eqn:C.
  - intros [= <-]. split; [done|]. apply N.leb_le in C. pose proof (wrap16_le i). lia.
  - fold (utxos script_of db). destruct (draw_coins addr_of (i + 1) (utxos script_of db)) as [|p'] eqn:D; cbn [mbind_M]; [done|]. intros [= ->].
    destruct (IH _ T2 D) as [-> ?]. split; [done|]. lia.
Qed.
Lemma draw_rows_panic width i l p : draw_rows width i l = Panic p ->
  (p = POverflow 46 /\ 2 ^ 16 < i + lenN l + 3) \/ (p = POverflow 57 /\ width = 0).
Proof.
  revert i. induction l as [|r l IH]; intros i; cbn [draw_rows]; [done|].
  assert (LE : lenN (r :: l) = 1 + lenN l) by (unfold lenN; cbn [length]; lia). rewrite LE.
  destruct (2 ^ 16 <=? wrap16 i + 3) eqn:C.
  - intros [= <-]. left. split; [done|]. apply N.leb_le in C. pose proof (wrap16_le i). lia.
  - destruct (width =? 0) eqn:W; [intros [= <-]; right; split; [done|by apply N.eqb_eq]|].
    destruct (draw_rows width (i + 1) l) as [|p'] eqn:D; cbn [mbind_M]; [done|]. intros [= ->].
    destruct (IH _ D) as [[-> ?]|?]; [left; split; [done|lia]|by right].
Qed.
Lemma refresh_panic n addrs size now w p : held n addrs w -> refresh size now w = Panic p -> cause n (lenN addrs) size p.
Proof.
  intros (T & LN & <- & SF & _ & _ & BF). unfold ScreenModel.refresh, ScreenSpec.cause.
  destruct (if rd_header (w_ui w) then _ else _) as [sc1|p1] eqn:E1; cbn [mbind_M].
  2: { intros [= ->]. destruct (rd_header (w_ui w)); [|done]. unfold draw_header in E1.
       destruct (size.1 <? _) eqn:C1.
       { injection E1 as <-. left. split; [done|]. left. apply N.ltb_lt in C1. pose proof (wrap16_le (balance_len (ui_balance (w_ui w)))).
         exists (ui_balance (w_ui w)). split; [done|lia]. }
       destruct (2 ^ 16 <=? _) eqn:C2.
       { injection E1 as <-. left. split; [done|]. right. apply N.leb_le in C2. lia. }
       destruct (size.1 / 2 <? _) eqn:C3; [|done]. injection E1 as <-. right; left. split; [done|].
       apply N.ltb_lt, half_lt in C3. exists (ui_status (w_ui w)). done. }
  destruct (if rd_main (w_ui w) then _ else _) as [sc2|p2] eqn:E2; cbn [mbind_M].
  2: { intros [= ->]. destruct (rd_main (w_ui w)); [|done]. destruct (draw_main _ _ _ _ _ _) as [|p2] eqn:D; cbn [mbind_M] in E2; [done|].
       injection E2 as ->. unfold draw_main in D. destruct (ui_tab (w_ui w)).
       - destruct (draw_coins _ _ _) as [|p3] eqn:D3; cbn [mbind_M] in D; [done|]. injection D as ->.
         destruct (draw_coins_panic _ _ _ T D3) as [-> ?]. do 5 right. split; [done|lia].
       - done.
       - destruct (draw_rows _ _ _) as [|p3] eqn:D3; cbn [mbind_M] in D; [done|]. injection D as ->.
         destruct (draw_rows_panic _ _ _ _ D3) as [[-> ?]|[-> ?]]; [do 4 right; left; split; [done|lia]|do 2 right; left; done]. }
  destruct (if _ || _ then _ else _) as [sc3|p3] eqn:E3; cbn [mbind_M].
  - destruct (_ || _ || _); done.
  - intros [= ->]. destruct (_ || _); [|done]. unfold draw_footer in E3. destruct (size.2 =? 0) eqn:Z; [|done]. injection E3 as <-.
    do 3 right. left. split; [done|by apply N.eqb_eq].
Qed.

Context (watch : list N) (W : watch_ok addr_of script_of watch).
Lemma add_ok n t op a v : table_ok t -> lenN t <= n -> addr_of (script_of a) <> None -> table_ok (add_utxo t op a v) /\ lenN (add_utxo t op a v) <= n + 1.
Proof.
  intros T L A. unfold add_utxo. destruct (existsb _ t); [split; [done|lia]|]. split.
  - apply Forall_app. split; [done|]. constructor; [exact A|constructor].
  - unfold lenN in *. rewrite app_length. cbn [length]. lia.
Qed.
Lemma outputs_ok n id vout outs t : table_ok t -> lenN t <= n ->
  exists t', apply_outputs addr_of watch id vout outs t = Val t' /\ table_ok t' /\ lenN t' <= n + lenN outs.
Proof.
  revert n vout t. induction outs as [|[s v] outs IH]; intros n vout t T L; cbn [apply_outputs].
  - exists t. split; [done|]. split; [done|]. change (lenN (@nil (N * N))) with 0; lia.
  - assert (LE : lenN ((s, v) :: outs) = 1 + lenN outs) by (unfold lenN; cbn [length]; lia). rewrite LE.
    destruct (existsb _ watch) eqn:X.
    + apply existsb_exists in X as (s' & I & Q). apply N.eqb_eq in Q. subst s'. apply elem_of_list_In in I.
      destruct (W s I) as (a & A & B). rewrite A.
      destruct (add_ok n t (id, wrap32 vout) a v T L) as [T' L']; [rewrite B, A; discriminate|].
      destruct (IH _ (vout + 1) _ T' L') as (t' & ? & ? & ?). exists t'. split; [done|]. split; [done|lia].
    + destruct (IH _ (vout + 1) _ T L) as (t' & ? & ? & ?). exists t'. split; [done|]. split; [done|lia].
Qed.
Lemma filter_le {A} (f : A -> bool) l : (length (List.filter f l) <= length l)%nat.
Proof. induction l as [|x l IH]; cbn [List.filter length]; [done|]. destruct (f x); cbn [length]; lia. Qed.
Lemma remove_ok n l t : table_ok t -> lenN t <= n -> table_ok (fold_left (fun t op => (remove_utxo script_of t op).1) l t) /\
  lenN (fold_left (fun t op => (remove_utxo script_of t op).1) l t) <= n.
Proof.
  revert t. induction l as [|op l IH]; intros t T L; cbn [fold_left]; [done|]. apply IH.
  - apply List.Forall_forall. intros r I. cbn [remove_utxo fst] in I. apply List.filter_In in I as [I _].
    exact (proj1 (List.Forall_forall _ _) T r I).
  - cbn [remove_utxo fst]. unfold lenN in *. pose proof (filter_le (fun r => negb (bool_decide (row_op r = op))) t). lia.
Qed.
Lemma apply_all_ok n txs t : table_ok t -> lenN t <= n ->
  exists t', apply_all addr_of script_of watch t txs = Val t' /\ table_ok t' /\ lenN t' <= n + foldr N.add 0 (map (fun x => lenN (tx_out x)) txs).
Proof.
  revert n t. induction txs as [|x txs IH]; intros n t T L; cbn [apply_all map foldr].
  - exists t. split; [done|]. split; [done|lia].
  - unfold apply. destruct (outputs_ok n (tx_id x) 0 (tx_out x) t T L) as (t1 & -> & T1 & L1). cbn [mbind_M].
    destruct (remove_ok _ (tx_in x) t1 T1 L1) as [T2 L2].
    destruct (IH _ _ T2 L2) as (t' & ? & ? & ?). exists t'. split; [done|]. split; [done|lia].
Qed.
Lemma balance_fits t b : balance t = Ok b -> b < 2 ^ 64.
Proof.
  unfold balance. destruct (sum_i64 0 _) as [z|]; [|done]. intros [= <-]. unfold as_u64.
  pose proof (Z.mod_pos_bound z (2 ^ 64) ltac:(lia)). lia.
Qed.

Lemma held_more n m addrs w : n <= m -> held n addrs w -> held m addrs w.
Proof. intros L (? & ? & H). split; [done|]. split; [lia|exact H]. Qed.

Lemma next_ok n addrs size now w : held n addrs w ->
  match (if w_over w then Val w else refresh size now w) with Val w' => held n addrs w' | Panic p => cause n (lenN addrs) size p end.
Proof.
  intros H. destruct (w_over w); [exact H|]. destruct (refresh size now w) as [w'|p] eqn:E.
  - exact (held_same _ _ _ _ (refresh_same _ _ _ _ E) H).
  - exact (refresh_panic _ _ _ _ _ _ H E).
Qed.
Lemma redraw_ok n addrs size now w : held n addrs w ->
  match redraw size now w with Val w' => held n addrs w' | Panic p => cause n (lenN addrs) size p end.
Proof.
  intros H. unfold ScreenModel.redraw. set (w1 := set_screen blank (set_ui (ui_all (w_ui w)) w)).
  assert (H1 : held n addrs w1) by exact H. destruct (refresh size now w1) as [w'|p] eqn:E.
  - exact (held_same _ _ _ _ (refresh_same _ _ _ _ E) H1).
  - exact (refresh_panic _ _ _ _ _ _ H1 E).
Qed.
Lemma held_ui n addrs w u : held n addrs w -> status_fits (ui_status u) -> ui_tip u < 2 ^ 64 -> ui_balance u < 2 ^ 64 -> held n addrs (set_ui u w).
Proof. intros (? & ? & ? & _ & _ & ? & _) ? ? ?. by repeat split. Qed.

Lemma event_ok n addrs off e size now w : held n addrs w -> turn_fits (Turn (PEvent e) size now) ->
  match on_event watch off e size now w with Val w' => held (n + brings (Turn (PEvent e) size now)) addrs w' | Panic p => cause (n + brings (Turn (PEvent e) size now)) (lenN addrs) size p end.
Proof.
  intros H F. unfold turn_fits in F. cbn [tn_pick] in F. pose proof H as (T & L & A & SF & TF & HF & BF).
  destruct e as [h|h|h|h|txs|h|]; cbn [ScreenModel.on_event brings tn_pick]; rewrite ?N.add_0_r.
  - apply held_ui; [exact H|exact F|exact F|exact BF].
  - apply held_ui; [exact H|exact SF|exact F|exact BF].
  - refine (held_ui _ _ _ (ui_filter h (w_ui w)) H _ TF BF). cbn. done.
  - by repeat split.
  - destruct (apply_all_ok _ txs _ T L) as (db & -> & T' & L'). cbn [mbind_M].
    assert (H' : held (n + foldr N.add 0 (map (fun x => lenN (tx_out x)) txs)) addrs (set_db db w)) by (by repeat split).
    destruct (balance db) as [b|] eqn:B; [|exact H']. apply redraw_ok. apply held_ui; [exact H'|exact SF|exact TF|exact (balance_fits _ _ B)].
  - refine (held_ui _ _ _ (ui_synced h (w_header w) (w_ui w)) H _ HF BF). cbn. destruct (_ =? h); [exact F|exact (conj F HF)].
  - exact H.
Qed.

Lemma step_ok n addrs off w t : held n addrs w -> turn_fits t ->
  match wstep watch off w t with Val w' => held (n + if w_running w then brings t else 0) addrs w' | Panic p => cause (n + if w_running w then brings t else 0) (lenN addrs) (tn_size t) p end.
Proof.
  intros H F. unfold ScreenModel.wstep, brings. pose proof H as (T & L & A & SF & TF & HF & BF).
  set (m := n + _). assert (M : n <= m) by (unfold m; lia).
  destruct (w_over w) eqn:O; [exact (held_more _ _ _ _ M H)|]. apply (held_more n m) in H as Hm; [|exact M].
  unfold turn_fits in F. destruct (tn_pick t) as [k|s|ld|e] eqn:P.
  - assert (K : held m addrs (set_ui (ui_key k (w_ui w)) w)) by (destruct k; exact Hm).
    pose proof (next_ok m addrs (tn_size t) (tn_now t) _ K) as X. destruct k as [| | |[]|]; try exact X.
    destruct (w_running w); [exact Hm|]. pose proof (next_ok m addrs (tn_size t) (tn_now t) w Hm) as Y. rewrite O in Y. exact Y.
  - destruct s; cbn [on_sign].
    + pose proof (redraw_ok m addrs (tn_size t) (tn_now t) w Hm) as X. destruct (redraw _ _ w) as [w1|]; cbn [mbind_M]; [|exact X]. exact (next_ok m addrs _ _ w1 X).
    + exact Hm.
  - destruct (w_running w); [exact Hm|]. destruct ld; try exact Hm; (refine (next_ok m addrs (tn_size t) (tn_now t) (set_ui (ui_load _ _ _) _) _); apply held_ui; [exact Hm|exact F|exact TF|exact BF]).
  - destruct (w_running w); [|exact Hm].
    assert (F' : turn_fits (Turn (PEvent e) (tn_size t) (tn_now t))) by exact F.
    pose proof (event_ok n addrs off e (tn_size t) (tn_now t) w H F') as X. unfold brings in X. cbn [tn_pick] in X. fold m in X.
    destruct (on_event watch off e (tn_size t) (tn_now t) w) as [w1|]; cbn [mbind_M]; [|exact X]. exact (next_ok m addrs _ _ w1 X).
Qed.

Lemma cause_more n m a size p : n <= m -> cause n a size p -> cause m a size p.
Proof. intros L [?|[?|[?|[?|[?|[? ?]]]]]]; [by left|right; by left|do 2 right; by left|do 3 right; by left|do 4 right; by left|]. do 5 right. split; [done|lia]. Qed.
Lemma steps_panic n addrs off w l p : held n addrs w -> Forall turn_fits l -> wsteps watch off w l = Panic p ->
  exists size, size ∈ map tn_size l /\ cause (n + all_brings l) (lenN addrs) size p.
Proof.
  revert n w. induction l as [|t l IH]; intros n w H F E; [done|]. inversion F as [|? ? F1 F2]; subst. cbn [ScreenModel.wsteps all_brings map] in *.
  pose proof (step_ok n addrs off w t H F1) as X. destruct (wstep watch off w t) as [w1|p1] eqn:S; cbn [mbind_M] in E.
  - destruct (IH _ _ X F2 E) as (size & I & C). exists size. split; [by right|]. refine (cause_more _ _ _ _ _ _ C). destruct (w_running w); lia.
  - injection E as ->. exists (tn_size t). split; [by left|]. refine (cause_more _ _ _ _ _ _ X). destruct (w_running w); lia.
Qed.
Lemma panics_run db addrs off size now l p : table_ok db -> Forall turn_fits l -> wrun watch db addrs off size now l = Panic p ->
  exists sz, sz ∈ size :: map tn_size l /\ cause (lenN db + all_brings l) (lenN addrs) sz p.
Proof.
  intros T F. unfold ScreenModel.wrun, ScreenModel.wstart. destruct (balance db) as [b|] eqn:B.
  - set (w0 := {| w_db := db; w_running := off |}).
    assert (H0 : held (lenN db) addrs w0).
    { split; [exact T|]. split; [reflexivity|]. split; [done|]. split; [done|]. split; [done|]. split; [done|]. exact (balance_fits _ _ B). }
    destruct off.
    + destruct (refresh size now w0) as [w1|p1] eqn:R; cbn [mbind_M].
      * intros E. destruct (steps_panic _ _ _ _ _ _ (held_same _ _ _ _ (refresh_same _ _ _ _ R) H0) F E) as (sz & I & C). exists sz. split; [by right|exact C].
      * intros [= ->]. exists size. split; [by left|]. refine (cause_more _ _ _ _ _ _ (refresh_panic _ _ _ _ _ _ H0 R)). lia.
    + cbn [mbind_M]. intros E. destruct (steps_panic _ _ _ _ _ _ H0 F E) as (sz & I & C). exists sz. split; [by right|exact C].
  - cbn [mbind_M]. rewrite (over_steps addr_of script_of balance_len status_len watch off); done.
Qed.
End Proofs.
