(** Properties C50, C51, C67-C69, C89-C92, C97 and C100 of the header sync manager. *)
From Verif Require Import Base PowModel BlockModel BlockSpec BlockExample
  SyncModel SyncSpec SyncProofs SyncMain SyncFacts SyncEvents SyncTold SyncRetry SyncAsk.
Open Scope N_scope.

(** Concrete runs: a history [os] from a loaded store and one more step. *)
Lemma ex_sync cf st ps cps os oe (P : list (list sout) -> sync -> cache -> sync -> cache -> list sout -> Prop) :
  match from_store exH ex_ng st ps cps with
  | Val (Ok c0) =>
      match sync_run exH cf os (sync_init, c0) with
      | Val (s, c, xs) => match sync_step exH cf oe (s, c) with Val (s', c', x) => P xs s c s' c' x | Panic _ => False end
      | Panic _ => False
      end
  | _ => False
  end ->
  exists c0 s c xs s' c' x, from_store exH ex_ng st ps cps = Val (Ok c0) /\
    sync_run exH cf os (sync_init, c0) = Val (s, c, xs) /\ sync_step exH cf oe (s, c) = Val (s', c', x) /\ P xs s c s' c' x.
Proof.
  destruct (from_store exH ex_ng st ps cps) as [[c0|]|]; [|done|done].
  destruct (sync_run exH cf os (sync_init, c0)) as [[[s c] xs]|] eqn:R; [|done].
  destruct (sync_step exH cf oe (s, c)) as [[[s' c'] x]|] eqn:E; [|done].
  intros p. exists c0, s, c, xs, s', c', x. split; [done|]. split; [exact R|]. split; [exact E|]. exact p.
Qed.
Definition ex_cf : sconf := SConf 2000 30000 600.
Definition ex_env (now : N) : senv := SEnv now ex_now (fun _ l => l).
Definition ex_rev (now : N) : senv := SEnv now ex_now (fun _ l => rev l).
Lemma fair_ex_env now : fair_env (ex_env now).
Proof. by intros n l. Qed.
Lemma fair_ex_rev now : fair_env (ex_rev now).
Proof. intros n l. cbn. symmetry. apply Permutation_rev. Qed.
Definition t0 : N := 1000000000.
Definition hdrs (l : list header) : list (header * choice) := map (fun h => (h, ch0)) l.

(** ** C50 *)
(** At most one request per step, and none while one is outstanding. *)
Theorem C50_single H cf os c0 s c xs oe s' c' x a : fair_envs os -> fair_env oe.2 ->
  sync_run H cf os (sync_init, c0) = Val (s, c, xs) -> sync_step H cf oe (s, c) = Val (s', c', x) ->
  (length (asks a x) + length (option_list (ended (sc_timeout cf) a oe (outstanding (sc_timeout cf) a os xs None))) <= 1)%nat.
Proof. intros F Fo R E. exact (single_request H cf os s c xs oe s' c' x a c0 F Fo R E). Qed.
Print Assumptions C50_single.

(** Only connected peers are asked. *)
Theorem C50_connected H cf os c0 s c xs oe s' c' x a l :
  sync_run H cf os (sync_init, c0) = Val (s, c, xs) -> sync_step H cf oe (s, c) = Val (s', c', x) ->
  SoGetHeaders a l ∈ x -> joined a (os ++ [oe]) false = true.
Proof. exact (asked_joined H cf os c0 s c xs oe s' c' x a l). Qed.
Print Assumptions C50_connected.

(** A peer that sent a full batch of new headers is asked for more, and
    dropped at the first timer after the timeout. *)
Theorem C50_full_batch H cf s c a hds e1 s1 c1 x1 b k h rv cn os s2 c2 xs e2 s3 c3 x3 :
  sync_step H cf (SHeaders a hds, e1) (s, c) = Val (s1, c1, x1) -> lenN hds = 2000 -> SoImported b k h rv cn ∈ x1 ->
  sync_run H cf os (s1, c1) = Val (s2, c2, xs) -> fair_envs os ->
  Forall (fun oe => ended (sc_timeout cf) a oe (Some (se_now e1)) <> None) os ->
  sync_step H cf (STimer, e2) (s2, c2) = Val (s3, c3, x3) -> fair_env e2 -> sc_timeout cf <= se_now e2 - se_now e1 ->
  asks a x1 = [([k], 0)] /\ asks a (concat xs) = [] /\ SoDisconnect a ∈ x3.
Proof.
  intros E1 L I R F Q E2 F2 T. destruct (full_batch H cf _ _ _ _ _ _ _ _ _ _ _ _ _ E1 L I) as [A B].
  destruct (quiet_run H cf _ _ _ _ _ _ _ _ F R B Q) as [B2 A2]. split; [done|]. split; [done|].
  eapply (timer_disconnects H cf); [exact F2|exact E2|exact B2|exact T|by left].
Qed.
Print Assumptions C50_full_batch.

(** Two peers: the first is asked, answers with one header and is asked again
    for what follows an unknown block it announces; the second is asked later. *)
Example C50_case : exists c0 s c xs s' c' x,
  from_store exH ex_ng ex_store (ex_params Regtest) [] = Val (Ok c0) /\
  sync_run exH ex_cf [(SInitialize, ex_env t0); (SNegotiated 1 2 true false true, ex_env (t0 + 1)); (SNegotiated 2 5 true false true, ex_env (t0 + 2));
    (SHeaders 1 (hdrs [a1; a2]), ex_env (t0 + 3))] (sync_init, c0) = Val (s, c, xs) /\
  sync_step exH ex_cf (STimer, ex_env (t0 + 30003)) (s, c) = Val (s', c', x) /\
  let os := [(SInitialize, ex_env t0); (SNegotiated 1 2 true false true, ex_env (t0 + 1)); (SNegotiated 2 5 true false true, ex_env (t0 + 2));
    (SHeaders 1 (hdrs [a1; a2]), ex_env (t0 + 3))] in
  outstanding 30000 1 (take 2 os) xs None = Some (t0 + 1) /\
  outstanding 30000 1 os xs None = None /\ outstanding 30000 2 os xs None = Some (t0 + 3) /\
  ended 30000 2 (STimer, ex_env (t0 + 30002)) (Some (t0 + 3)) = Some (t0 + 3) /\
  ended 30000 2 (STimer, ex_env (t0 + 30003)) (Some (t0 + 3)) = None.
Proof.
  apply (ex_sync ex_cf ex_store (ex_params Regtest) [] _ (STimer, ex_env (t0 + 30003)) (fun xs s c s' c' x => _)).
  vm_compute. repeat split.
Qed.

(** 2000 headers, most of them duplicates, then silence. *)
Example C50_full_case : exists c0 s c xs s' c' x,
  from_store exH ex_ng ex_store (ex_params Regtest) [] = Val (Ok c0) /\
  sync_run exH ex_cf [(SNegotiated 1 2 true false true, ex_env t0); (SHeaders 1 (hdrs (replicate 1999 a1 ++ [a2])), ex_env (t0 + 1)); (SInv 1 [None], ex_env (t0 + 2))] (sync_init, c0) = Val (s, c, xs) /\
  sync_step exH ex_cf (STimer, ex_env (t0 + 30001)) (s, c) = Val (s', c', x) /\
  lenN (hdrs (replicate 1999 a1 ++ [a2])) = 2000 /\
  (exists b k h rv cn, xs !! 1%nat = Some [SoConnected 1 a1; SoConnected 2 a2; SoImported b k h rv cn; SoGetHeaders 1 ([k], 0); SoTimer 30000]) /\
  x = [SoDisconnect 1].
Proof.
  apply (ex_sync ex_cf ex_store (ex_params Regtest) [] _ (STimer, ex_env (t0 + 30001)) (fun xs s c s' c' x => _)).
  vm_compute. split; [done|]. split; [|done]. by eexists _, _, _, _, _.
Qed.

(** The second half of the property fails: a peer that does not answer is
    neither dropped nor replaced when its request times out, although another
    peer with the same height is connected. *)
Theorem C50_silent_refuted : exists H ng cf st ps cps os c0 s c xs e s' c' x a b t,
  params_ok ps /\ fair_envs os /\ fair_env e /\ from_store H ng st ps cps = Val (Ok c0) /\
  sync_run H cf os (sync_init, c0) = Val (s, c, xs) /\ sync_step H cf (STimer, e) (s, c) = Val (s', c', x) /\
  outstanding (sc_timeout cf) a os xs None = Some t /\ sc_timeout cf <= se_now e - t /\
  a <> b /\ joined b os false = true /\ x = [].
Proof.
  set (os := [(SInitialize, ex_env t0); (SNegotiated 1 5 true false true, ex_env (t0 + 1)); (SNegotiated 2 5 true false true, ex_env (t0 + 2))]).
  destruct (ex_sync ex_cf ex_store (ex_params Regtest) [] os (STimer, ex_env (t0 + 30001))
    (fun xs s c s' c' x => outstanding 30000 1 os xs None = Some (t0 + 1) /\ x = [])) as (c0 & s & c & xs & s' & c' & x & E0 & R & E & A & B).
  { vm_compute. by split. }
  exists exH, ex_ng, ex_cf, ex_store, (ex_params Regtest), [], os, c0, s, c, xs, (ex_env (t0 + 30001)), s', c', x, 1, 2, (t0 + 1).
  split; [apply ex_params_ok|]. split; [repeat (apply Forall_cons; split; [apply fair_ex_env|]); apply Forall_nil; exact I|]. split; [apply fair_ex_env|]. split; [exact E0|]. split; [exact R|]. split; [exact E|].
  split; [exact A|]. split; [vm_compute; discriminate|]. split; [lia|]. by split.
Qed.
Print Assumptions C50_silent_refuted.

(** ** C51 *)
(** No headers message within the size limit is ever held against its sender. *)
Theorem C51_never_refuted H cf e a hds s c s' c' x : lenN hds <= 2000 ->
  sync_step H cf (SHeaders a hds, e) (s, c) = Val (s', c', x) -> forall b, SoMisbehaved b ∉ x /\ SoDisconnect b ∉ x.
Proof.
  intros L E b. split; intros I; exact (headers_blame H cf e a hds s c s' c' x _ E L I).
Qed.
Print Assumptions C51_never_refuted.

(** For instance this one, with a header too far in the future. *)
Theorem C51_invalid_refuted : exists H ng cf st ps cps os c0 s c xs a hd e s' c' x,
  params_ok ps /\ from_store H ng st ps cps = Val (Ok c0) /\ sync_run H cf os (sync_init, c0) = Val (s, c, xs) /\
  joined a os false = true /\ h_prev hd = (c_tip H c).1 /\ ~ valid_at H c (se_block_time e) (c_height c) (c_tip H c).2 hd /\
  sync_step H cf (SHeaders a [(hd, ch0)], e) (s, c) = Val (s', c', x) /\ x = [].
Proof.
  set (os := [(SNegotiated 1 5 true false true, ex_env t0); (SHeaders 1 (hdrs [a1; a2]), ex_env (t0 + 3))]).
  destruct (ex_sync ex_cf ex_store (ex_params Regtest) [] os (SHeaders 1 [(ex_hd 3 7 (ex_now + 7201), ch0)], ex_env (t0 + 4))
    (fun xs s c s' c' x => (c_tip exH c).1 = 3 * 2 ^ 248 /\ x = [])) as (c0 & s & c & xs & s' & c' & x & E0 & R & E & A & B).
  { vm_compute. by split. }
  exists exH, ex_ng, ex_cf, ex_store, (ex_params Regtest), [], os, c0, s, c, xs, 1, (ex_hd 3 7 (ex_now + 7201)), (ex_env (t0 + 4)), s', c', x.
  split; [apply ex_params_ok|]. split; [exact E0|]. split; [exact R|]. split; [done|]. split; [by rewrite A|].
  split; [|split; [exact E|exact B]]. intros (_ & _ & _ & _ & _ & L). vm_compute in L. by destruct L.
Qed.
Print Assumptions C51_invalid_refuted.

(** What is left: a message over the size limit is reported. *)
Theorem C51_oversized_partial H cf e a hds s c : 2000 < lenN hds ->
  exists s', sync_step H cf (SHeaders a hds, e) (s, c) = Val (s', c, [SoMisbehaved a]).
Proof. exact (oversized_blame H cf e a hds s c). Qed.
Print Assumptions C51_oversized_partial.

Example C51_case : 2000 < lenN (hdrs (replicate 2001 a1)).
Proof. vm_compute. reflexivity. Qed.

(** ** C67 *)
(** A peer that does not answer is asked again for the same headers, which
    fails an assertion in debug builds: *)
Definition asked_again (cf : sconf) (os : list (sync_op * senv)) (oe : sync_op * senv) (a : N) : Prop :=
  exists c0 s c xs s' c' x, from_store exH ex_ng ex_store (ex_params Regtest) [] = Val (Ok c0) /\
  sync_run exH cf os (sync_init, c0) = Val (s, c, xs) /\ sync_step exH cf oe (s, c) = Val (s', c', x) /\
  exists l, last (asks a (concat xs)) = Some l /\ x !! 0%nat = Some (SoDebugAssert a) /\ SoGetHeaders a l ∈ x.
(** when the node idles, *)
Theorem C67_idle_refuted : asked_again ex_cf
  [(SInitialize, ex_env t0); (SNegotiated 1 5 true false true, ex_env (t0 + 1)); (STimer, ex_env (t0 + 30001))]
  (STimer, ex_env (t0 + 600000)) 1.
Proof.
  apply (ex_sync ex_cf ex_store (ex_params Regtest) [] _ (STimer, ex_env (t0 + 600000)) (fun xs s c s' c' x => _)).
  vm_compute. eexists. split; [done|]. split; [done|]. right. by left.
Qed.
Print Assumptions C67_idle_refuted.
(** when a peer announces the same unknown block twice, *)
Theorem C67_inv_refuted : asked_again ex_cf
  [(SNegotiated 1 0 true false true, ex_env t0); (SInv 1 [Some 7], ex_env (t0 + 1)); (STimer, ex_env (t0 + 30001))]
  (SInv 1 [Some 7], ex_env (t0 + 30002)) 1.
Proof.
  apply (ex_sync ex_cf ex_store (ex_params Regtest) [] _ (SInv 1 [Some 7], ex_env (t0 + 30002)) (fun xs s c s' c' x => _)).
  vm_compute. eexists. split; [done|]. split; [done|]. right. by left.
Qed.
Print Assumptions C67_inv_refuted.
(** and when a peer sends the same unconnected header twice. *)
Theorem C67_headers_refuted : asked_again ex_cf
  [(SNegotiated 1 0 true false false, ex_env t0); (SHeaders 1 (hdrs [a4]), ex_env (t0 + 1))]
  (SHeaders 1 (hdrs [a4]), ex_env (t0 + 2)) 1.
Proof.
  apply (ex_sync ex_cf ex_store (ex_params Regtest) [] _ (SHeaders 1 (hdrs [a4]), ex_env (t0 + 2)) (fun xs s c s' c' x => _)).
  vm_compute. eexists. split; [done|]. split; [done|]. right. by left.
Qed.
Print Assumptions C67_headers_refuted.

(** ** C68 *)
Section C68.
Context (H : header -> N) (ng : network -> N) (cf : sconf) (st : store) (ps : params) (cps : list (N * N)) (c0 : cache).
(** Every inbound peer that is behind is told of a new tip. *)
Theorem C68_announced os s c xs oe s' c' x b k h rv cn a p : params_ok ps ->
  from_store H ng st ps cps = Val (Ok c0) -> linked_from H (H (s_genesis st)) (s_tail st) -> fair_envs os ->
  sync_run H cf os (sync_init, c0) = Val (s, c, xs) ->
  acyclic H (s_tail st ++ presented (imports (os ++ [oe]))) -> fair (imports (os ++ [oe])) -> fair_env oe.2 ->
  sync_step H cf oe (s, c) = Val (s', c', x) -> SoImported b k h rv cn ∈ x ->
  c_height c' = h /\ (c_tip H c').1 = k /\
  (seen a os xs None = Some p -> pv_outbound p = false -> pv_height p < h -> SoHeaders a [(c_tip H c').2] ∈ x).
Proof.
  intros P E L Fs R A F Fe S I. assert (Q := fun q => announced H ng cf st ps cps c0 P E L oe os s c xs s' c' x b k h rv cn a q R A F Fe S I).
  split; [exact (proj1 (Q (SPeer 0 true 0 true None None)))|]. split; [exact (proj1 (proj2 (Q (SPeer 0 true 0 true None None))))|].
  rewrite (seen_peer H cf os c0 s c xs a Fs R). destruct (sy_peers s !! a) as [q|]; [|done]. intros [= <-] O Hh. exact (proj2 (proj2 (Q q)) eq_refl O Hh).
Qed.
(** Headers are sent only in answer to a request, or to announce the tip to an
    inbound peer that is behind as far as we know. *)
Theorem C68_only os s c xs oe s' c' x a hs : params_ok ps ->
  from_store H ng st ps cps = Val (Ok c0) -> linked_from H (H (s_genesis st)) (s_tail st) -> fair_envs os ->
  sync_run H cf os (sync_init, c0) = Val (s, c, xs) ->
  acyclic H (s_tail st ++ presented (imports (os ++ [oe]))) -> fair (imports (os ++ [oe])) -> fair_env oe.2 ->
  sync_step H cf oe (s, c) = Val (s', c', x) -> SoHeaders a hs ∈ x ->
  (exists l, oe.1 = SGetHeaders a l) \/
  hs = [(c_tip H c').2] /\ exists p, seen a os xs None = Some p /\ pv_outbound p = false /\ pv_height p < c_height c'.
Proof.
  intros P E L Fs R A F Fe S I. destruct (announced_only H ng cf st ps cps c0 P E L oe os s c xs s' c' x a hs R A F Fe S I) as [Q|(Q & p & P1 & P2 & P3)]; [by left|right].
  split; [exact Q|]. exists (pabs p). by rewrite (seen_peer H cf os c0 s c xs a Fs R), P1.
Qed.
End C68.
Print Assumptions C68_announced.
Print Assumptions C68_only.

(** The announcement is sent twice. *)
Theorem C68_once_refuted : exists c0 s c xs s' c' x,
  from_store exH ex_ng ex_store (ex_params Regtest) [] = Val (Ok c0) /\
  sync_run exH ex_cf [(SNegotiated 1 1 true false true, ex_env t0); (SNegotiated 2 0 true false false, ex_env (t0 + 1))] (sync_init, c0) = Val (s, c, xs) /\
  sync_step exH ex_cf (SHeaders 1 (hdrs [a1]), ex_rev (t0 + 2)) (s, c) = Val (s', c', x) /\
  (exists p, sy_peers s !! 2 = Some p /\ sp_outbound p = false /\ sp_height p = 0) /\
  x = [SoConnected 1 a1; SoImported false (exH a1) 1 [] [(1, a1)]; SoHeaders 2 [a1]; SoHeaders 2 [a1]].
Proof.
  apply (ex_sync ex_cf ex_store (ex_params Regtest) [] _ (SHeaders 1 (hdrs [a1]), ex_rev (t0 + 2)) (fun xs s c s' c' x => _)).
  vm_compute. split; [|done]. by eexists.
Qed.
Print Assumptions C68_once_refuted.

(** ** C69 *)
(** Header sync never panics, whatever peers, users and timers do. *)
Theorem C69_no_panic H ng cf st ps cps os c0 : params_ok ps ->
  from_store H ng st ps cps = Val (Ok c0) -> linked_from H (H (s_genesis st)) (s_tail st) ->
  acyclic H (s_tail st ++ presented (imports os)) -> fair (imports os) ->
  lenN (s_tail st) + lenN (presented (imports os)) < 2 ^ 64 ->
  exists s c xs, sync_run H cf os (sync_init, c0) = Val (s, c, xs).
Proof. intros P E L A F Len. exact (run_total H ng cf st ps cps c0 P E L os A F Len). Qed.
Print Assumptions C69_no_panic.

(** A history with a re-org, a repeated header and an unconnected one. *)
Example C69_case :
  let os := [(SInitialize, ex_env t0); (SNegotiated 1 5 true false true, ex_env (t0 + 1)); (SHeaders 1 (hdrs [a1; a2]), ex_env (t0 + 2));
    (SHeaders 1 (hdrs [b1; b2; b3]), ex_rev (t0 + 3)); (SHeaders 1 (hdrs [a4]), ex_env (t0 + 4)); (SGetHeaders 1 ([exH ex_g], 0), ex_env (t0 + 5)); (STimer, ex_rev (t0 + 700000))] in
  ex_side ex_store (imports os) = true /\ fair (imports os) /\ lenN (presented (imports os)) = 6 /\
  exists c0 s c xs s' c' x, from_store exH ex_ng ex_store (ex_params Regtest) [] = Val (Ok c0) /\
  sync_run exH ex_cf os (sync_init, c0) = Val (s, c, xs) /\ sync_step exH ex_cf (SImport (hdrs [a3]), ex_env 0) (s, c) = Val (s', c', x) /\
  active c' = [ex_g; a1; a2; a3; a4] /\ x = map (fun p => SoDisconnected p.1 p.2) [(3, b3); (2, b2); (1, b1)] ++
    map (fun p => SoConnected p.1 p.2) [(1, a1); (2, a2); (3, a3); (4, a4)] ++ [SoImported true (exH a4) 4 [(3, b3); (2, b2); (1, b1)] [(1, a1); (2, a2); (3, a3); (4, a4)]].
Proof.
  cbn zeta. split; [vm_compute; reflexivity|]. split; [ex_fair|]. split; [vm_compute; reflexivity|].
  apply (ex_sync ex_cf ex_store (ex_params Regtest) [] _ (SImport (hdrs [a3]), ex_env 0) (fun xs s c s' c' x => _)).
  vm_compute. repeat split.
Qed.

(** ** C89 *)
Section C89.
Context (H : header -> N) (ng : network -> N) (cf : sconf) (st : store) (ps : params) (cps : list (N * N)) (c0 : cache).
(** Headers are imported, and the result is reported, if a connected peer sent
    them, at most 2000, in answer to a request or at most 24, and the last of
    them is not on the chain; *)
Theorem C89_taken os s c xs a hds e s' c' x : params_ok ps ->
  from_store H ng st ps cps = Val (Ok c0) -> linked_from H (H (s_genesis st)) (s_tail st) -> fair_envs os ->
  sync_run H cf os (sync_init, c0) = Val (s, c, xs) -> sync_step H cf (SHeaders a hds, e) (s, c) = Val (s', c', x) ->
  acyclic H (s_tail st ++ presented (imports os)) -> fair (imports os) ->
  taken H (sc_timeout cf) os xs c a hds ->
  exists r, import_blocks H c hds (se_block_time e) = Val (c', r) /\ chain_events x = events_of r.
Proof. intros P E L F R S A Fi. exact (proj1 (headers_taken H ng cf st ps cps c0 P E L os s c xs a hds e s' c' x F R S A Fi)). Qed.
(** other headers are ignored. *)
Theorem C89_ignored os s c xs a hds e s' c' x : params_ok ps ->
  from_store H ng st ps cps = Val (Ok c0) -> linked_from H (H (s_genesis st)) (s_tail st) -> fair_envs os ->
  sync_run H cf os (sync_init, c0) = Val (s, c, xs) -> sync_step H cf (SHeaders a hds, e) (s, c) = Val (s', c', x) ->
  acyclic H (s_tail st ++ presented (imports os)) -> fair (imports os) ->
  ~ taken H (sc_timeout cf) os xs c a hds -> c' = c /\ chain_events x = [].
Proof. intros P E L F R S A Fi. exact (proj2 (headers_taken H ng cf st ps cps c0 P E L os s c xs a hds e s' c' x F R S A Fi)). Qed.
End C89.
Print Assumptions C89_taken.
Print Assumptions C89_ignored.
(** Nothing but headers changes the chain, or is reported as a change. *)
Theorem C89_other H cf oe s c s' c' x : op_imports oe = [] -> sync_step H cf oe (s, c) = Val (s', c', x) -> c' = c /\ chain_events x = [].
Proof. exact (other_events H cf oe s c s' c' x). Qed.
Print Assumptions C89_other.
(** The user's headers are imported and reported in the same way. *)
Theorem C89_import H cf hds e s c s' c' x : sync_step H cf (SImport hds, e) (s, c) = Val (s', c', x) ->
  exists r, import_blocks H c hds (se_block_time e) = Val (c', r) /\ chain_events x = events_of r.
Proof.
  unfold sync_step. destruct (sync_import H e hds c s) as [[[c1 x1] r]|] eqn:Im; [|done]. intros X. cbn in X. injection X as <- <- <-.
  exists r. exact (import_events H _ _ _ _ _ _ _ Im).
Qed.
Print Assumptions C89_import.

(** 24 headers that nobody asked for, and 25; 25 that were asked for. *)
Example C89_case : exists c0 s c xs s' c' x,
  from_store exH ex_ng ex_store (ex_params Regtest) [] = Val (Ok c0) /\
  sync_run exH ex_cf [(SNegotiated 1 0 true false true, ex_env t0); (SHeaders 1 (hdrs (replicate 24 a1 ++ [a2])), ex_env (t0 + 1));
    (SHeaders 1 (hdrs (replicate 23 a1 ++ [a2])), ex_env (t0 + 2)); (SInv 1 [Some 7], ex_env (t0 + 3))] (sync_init, c0) = Val (s, c, xs) /\
  sync_step exH ex_cf (SHeaders 1 (hdrs (replicate 24 b1 ++ [b2; b3])), ex_env (t0 + 4)) (s, c) = Val (s', c', x) /\
  map chain_events xs = [[]; []; [SoConnected 1 a1; SoConnected 2 a2; SoImported false (exH a2) 2 [] [(1, a1); (2, a2)]]; []] /\
  outstanding 30000 1 [(SNegotiated 1 0 true false true, ex_env t0); (SHeaders 1 (hdrs (replicate 24 a1 ++ [a2])), ex_env (t0 + 1));
    (SHeaders 1 (hdrs (replicate 23 a1 ++ [a2])), ex_env (t0 + 2)); (SInv 1 [Some 7], ex_env (t0 + 3))] xs None = Some (t0 + 3) /\
  active c = [ex_g; a1; a2] /\ active c' = [ex_g; b1; b2; b3].
Proof.
  apply (ex_sync ex_cf ex_store (ex_params Regtest) [] _ (SHeaders 1 (hdrs (replicate 24 b1 ++ [b2; b3])), ex_env (t0 + 4)) (fun xs s c s' c' x => _)).
  vm_compute. repeat split.
Qed.

(** ** C90 *)
(** A listener that applies the events to its copy of the chain has the active
    chain, if headers come one at a time and the store works. *)
Theorem C90_replay_partial H ng cf st ps cps c0 os s c xs : params_ok ps ->
  from_store H ng st ps cps = Val (Ok c0) -> linked_from H (H (s_genesis st)) (s_tail st) ->
  sync_run H cf os (sync_init, c0) = Val (s, c, xs) ->
  acyclic H (s_tail st ++ presented (imports os)) -> fair (imports os) -> io_ok (imports os) ->
  Forall (fun o => (length (op_inputs o) <= 1)%nat) (imports os) ->
  replay (active c0) (concat xs) = Some (active c).
Proof. intros P E L. exact (run_replay H ng cf st ps cps c0 P E L os s c xs). Qed.
Print Assumptions C90_replay_partial.

Example C90_case : exists c0 s c xs s' c' x,
  from_store exH ex_ng ex_store (ex_params Regtest) [] = Val (Ok c0) /\
  sync_run exH ex_cf [(SNegotiated 1 0 true false true, ex_env t0); (SHeaders 1 (hdrs [a1]), ex_env (t0 + 1)); (SHeaders 1 (hdrs [b1]), ex_env (t0 + 2));
    (SHeaders 1 (hdrs [b2]), ex_env (t0 + 3)); (SHeaders 1 (hdrs [b3]), ex_env (t0 + 4))] (sync_init, c0) = Val (s, c, xs) /\
  sync_step exH ex_cf (STimer, ex_env (t0 + 5)) (s, c) = Val (s', c', x) /\
  concat (map chain_events xs) =
    [SoConnected 1 a1; SoImported false (exH a1) 1 [] [(1, a1)];
     SoDisconnected 1 a1; SoConnected 1 b1; SoConnected 2 b2; SoImported true (exH b2) 2 [(1, a1)] [(1, b1); (2, b2)];
     SoConnected 3 b3; SoImported false (exH b3) 3 [] [(3, b3)]] /\
  replay [ex_g] (concat xs) = Some [ex_g; b1; b2; b3] /\ active c = [ex_g; b1; b2; b3].
Proof.
  apply (ex_sync ex_cf ex_store (ex_params Regtest) [] _ (STimer, ex_env (t0 + 5)) (fun xs s c s' c' x => _)).
  vm_compute. repeat split.
Qed.

(** It is false of batches: *)
Theorem C90_batch_refuted : exists H ng cf st ps cps os c0 s c xs,
  params_ok ps /\ from_store H ng st ps cps = Val (Ok c0) /\ sync_run H cf os (sync_init, c0) = Val (s, c, xs) /\
  io_ok (imports os) /\ replay (active c0) (concat xs) = None.
Proof.
  set (os := [(SImport (hdrs [a1; a2]), ex_env t0); (SImport (hdrs [b1; b2; b3; a3; a4]), ex_env (t0 + 1))]).
  destruct (ex_sync ex_cf ex_store (ex_params Regtest) [] os (STimer, ex_env (t0 + 5))
    (fun xs s c s' c' x => replay [ex_g] (concat xs) = None)) as (c0 & s & c & xs & s' & c' & x & E0 & R & _ & Q).
  { vm_compute. reflexivity. }
  exists exH, ex_ng, ex_cf, ex_store, (ex_params Regtest), [], os, c0, s, c, xs. split; [apply ex_params_ok|]. split; [exact E0|]. split; [exact R|].
  split; [ex_io|].
  assert (active c0 = [ex_g]) as ->; [|exact Q].
  clear -E0. assert (X : match from_store exH ex_ng ex_store (ex_params Regtest) [] with Val (Ok c) => active c = [ex_g] | _ => False end) by (vm_compute; reflexivity).
  rewrite E0 in X. exact X.
Qed.
Print Assumptions C90_batch_refuted.

(** ** C91 *)
(** When the node says that it is synced, the tip and height are those of the
    active chain, no connected peer has told a greater height, and the tip is
    less than two hours old. *)
Theorem C91_synced H cf os c0 s c xs oe s' c' x k h : sync_run H cf os (sync_init, c0) = Val (s, c, xs) ->
  sync_step H cf oe (s, c) = Val (s', c', x) -> SoSynced k h ∈ x ->
  k = (c_tip H c').1 /\ h = c_height c' /\ (7200000 <= se_now oe.2 -> se_now oe.2 < h_time (c_tip H c').2 * 1000 + 7200000) /\
  forall a n, told a (os ++ [oe]) None = Some n -> n <= h.
Proof.
  intros R E I. destruct (synced_truthful H cf os c0 s c xs oe s' c' x k h 0 0 R E I) as (A & B & C & _).
  split; [exact A|]. split; [exact B|]. split; [exact C|]. intros a n. exact (proj2 (proj2 (proj2 (synced_truthful H cf os c0 s c xs oe s' c' x k h a n R E I)))).
Qed.
Print Assumptions C91_synced.
(** Nor has any peer shown a greater height by its headers. *)
Theorem C91_shown H cf os c0 s c xs oe s' c' x k h a p : fair_envs os -> fair_env oe.2 -> sync_run H cf os (sync_init, c0) = Val (s, c, xs) ->
  sync_step H cf oe (s, c) = Val (s', c', x) -> SoSynced k h ∈ x -> peer_view os xs oe x a = Some p -> pv_height p <= h.
Proof. exact (synced_seen H cf os c0 s c xs oe s' c' x k h a p). Qed.
Print Assumptions C91_shown.

Example C91_case : exists c0 s c xs s' c' x,
  from_store exH ex_ng ex_store (ex_params Regtest) [] = Val (Ok c0) /\
  sync_run exH ex_cf [(SNegotiated 1 2 true false true, ex_env 7200000); (SNegotiated 2 1 true false false, ex_env 7200001)] (sync_init, c0) = Val (s, c, xs) /\
  sync_step exH ex_cf (SHeaders 1 (hdrs [a1; a2]), ex_env 7200002) (s, c) = Val (s', c', x) /\
  forallb (fun o => match o with SoSynced _ _ => false | _ => true end) (concat xs) = true /\
  last x = Some (SoSynced (exH a2) 2).
Proof.
  apply (ex_sync ex_cf ex_store (ex_params Regtest) [] _ (SHeaders 1 (hdrs [a1; a2]), ex_env 7200002) (fun xs s c s' c' x => _)).
  vm_compute. repeat split.
Qed.

(** ** C92 *)
(** A request for headers changes nothing.  It is not answered while a request
    of the node itself is outstanding; otherwise with the headers located by
    it (C19), if there are any. *)
Theorem C92_getheaders H cf os c0 s c xs a l e s' c' x : fair_envs os -> sync_run H cf os (sync_init, c0) = Val (s, c, xs) ->
  sync_step H cf (SGetHeaders a l, e) (s, c) = Val (s', c', x) ->
  s' = s /\ c' = c /\
  ((exists b, outstanding (sc_timeout cf) b os xs None <> None) -> x = []) /\
  ((forall b, outstanding (sc_timeout cf) b os xs None = None) -> 0 < sc_max cf ->
    exists hds, locate_headers c l.1 l.2 (sc_max cf) = Val hds /\ x = match hds with [] => [] | _ => [SoHeaders a hds] end).
Proof. exact (getheaders_answer H cf os c0 s c xs a l e s' c' x). Qed.
Print Assumptions C92_getheaders.

(** After an announcement of blocks only the peer that sent it is asked, only
    up to an unknown block that it has announced; and it is asked if it has
    announced one, unless a request is outstanding or the message is too long. *)
Theorem C92_inv H cf os c0 s c xs a inv e s' c' x : fair_envs os -> sync_run H cf os (sync_init, c0) = Val (s, c, xs) ->
  sync_step H cf (SInv a inv, e) (s, c) = Val (s', c', x) ->
  (forall b, b <> a -> asks b x = []) /\
  (asks a x <> [] -> exists l stop, asks a x = [(l, stop)] /\ Some stop ∈ inv /\ is_known c stop = false /\ locator_hashes H c (c_height c) = Val l) /\
  ((forall b, outstanding (sc_timeout cf) b os xs None = None) -> joined a os false = true -> lenN inv <= 50000 ->
    (exists k, Some k ∈ inv /\ is_known c k = false) -> asks a x <> []).
Proof. exact (inv_answer H cf os c0 s c xs a inv e s' c' x). Qed.
Print Assumptions C92_inv.

Example C92_case : exists c0 s c xs s' c' x,
  from_store exH ex_ng ex_store (ex_params Regtest) [] = Val (Ok c0) /\
  sync_run exH ex_cf [(SNegotiated 1 0 true false false, ex_env t0); (SImport (hdrs [a1; a2]), ex_env (t0 + 1)); (SGetHeaders 1 ([exH a1], 0), ex_env (t0 + 2));
    (SInv 1 [Some (exH a1); None; Some 7; Some (exH a2)], ex_env (t0 + 3)); (SGetHeaders 1 ([exH a1], 0), ex_env (t0 + 4)); (SHeaders 1 [], ex_env (t0 + 5))] (sync_init, c0) = Val (s, c, xs) /\
  sync_step exH ex_cf (SInv 1 [Some (exH a1); None], ex_env (t0 + 6)) (s, c) = Val (s', c', x) /\
  x = [] /\ map (fun x => List.filter (fun o => match o with SoHeaders _ _ => true | _ => false end) x) xs = [[]; [SoHeaders 1 [a2]]; [SoHeaders 1 [a2]]; []; []; []] /\
  map (asks 1) xs = [[]; []; []; [([exH a2; exH a1; exH ex_g], 7)]; []; []].
Proof.
  apply (ex_sync ex_cf ex_store (ex_params Regtest) [] _ (SInv 1 [Some (exH a1); None], ex_env (t0 + 6)) (fun xs s c s' c' x => _)).
  vm_compute. repeat split.
Qed.

(** ** C97 *)
(** Over any history the requests for headers up to an announced block that
    are made at timers are at most three for each that was made for an announcement. *)
Theorem C97_retries H cf os c0 s c xs : fair_envs os -> sync_run H cf os (sync_init, c0) = Val (s, c, xs) ->
  (asked_by at_timer os xs <= 3 * asked_by at_inv os xs)%nat.
Proof. exact (retries_bounded H cf os c0 s c xs). Qed.
Print Assumptions C97_retries.

(** One announcement, three retries with other peers, and then the last of them is dropped. *)
Example C97_case : exists c0 s c xs s' c' x,
  from_store exH ex_ng ex_store (ex_params Regtest) [] = Val (Ok c0) /\
  sync_run exH ex_cf [(SInitialize, ex_env t0); (SNegotiated 1 0 true false true, ex_env t0); (SNegotiated 2 0 true false true, ex_env t0); (SNegotiated 3 0 true false true, ex_env t0);
    (SNegotiated 4 0 true false true, ex_env t0); (SNegotiated 5 0 true false true, ex_env t0);
    (SInv 1 [Some 7], ex_env (t0 + 1)); (STimer, ex_env (t0 + 30001)); (STimer, ex_env (t0 + 60001)); (STimer, ex_env (t0 + 90001))] (sync_init, c0) = Val (s, c, xs) /\
  sync_step exH ex_cf (STimer, ex_env (t0 + 120001)) (s, c) = Val (s', c', x) /\
  map (count upto) xs = [0; 0; 0; 0; 0; 0; 1; 1; 1; 1]%nat /\ count upto x = 0%nat /\ exists a, SoDisconnect a ∈ x.
Proof.
  apply (ex_sync ex_cf ex_store (ex_params Regtest) [] _ (STimer, ex_env (t0 + 120001)) (fun xs s c s' c' x => _)).
  vm_compute. split; [reflexivity|]. split; [reflexivity|]. eexists. by left.
Qed.

(** ** C100 *)
(** Headers are asked for only for one of the six reasons of SyncSpec.v, from
    the peer and with the locators that the reason says. *)
Theorem C100_reason H cf os c0 s c xs oe s' c' x a l : fair_envs os -> fair_env oe.2 -> sync_run H cf os (sync_init, c0) = Val (s, c, xs) ->
  sync_step H cf oe (s, c) = Val (s', c', x) -> SoGetHeaders a l ∈ x -> reason H cf os xs oe c c' x a l.
Proof. exact (step_reason H cf os c0 s c xs oe s' c' x a l). Qed.
Print Assumptions C100_reason.

(** If a peer is ahead, no request is outstanding and a peer without filters
    is connected, a peer is asked after each handshake, after headers that
    changed the tip, and every ten minutes. *)
Theorem C100_started H cf os c0 s c xs oe s' c' x : fair_envs os -> fair_env oe.2 -> sync_run H cf os (sync_init, c0) = Val (s, c, xs) ->
  sync_step H cf oe (s, c) = Val (s', c', x) -> occasion os xs oe x -> (forall b, outstanding (sc_timeout cf) b os xs None = None) ->
  (exists b p, peer_view os xs oe x b = Some p /\ pv_filters p = false) -> (exists b, is_ahead os xs oe c' x b) ->
  exists a l, asks a x = [(l, 0)].
Proof. exact (step_started H cf os c0 s c xs oe s' c' x). Qed.
Print Assumptions C100_started.

(** Peers are asked just because the tip is old at most once an hour. *)
Theorem C100_hourly H cf os1 c0 s1 c1 xs1 oe1 s2 c2 x1 os2 s3 c3 xs2 oe2 s4 c4 x2 : fair_envs (os1 ++ oe1 :: os2) -> fair_env oe2.2 ->
  sync_run H cf os1 (sync_init, c0) = Val (s1, c1, xs1) -> sync_step H cf oe1 (s1, c1) = Val (s2, c2, x1) ->
  sync_run H cf os2 (s2, c2) = Val (s3, c3, xs2) -> sync_step H cf oe2 (s3, c3) = Val (s4, c4, x2) ->
  sampling cf os1 xs1 oe1 c2 x1 -> sampling cf (os1 ++ oe1 :: os2) (xs1 ++ x1 :: xs2) oe2 c4 x2 ->
  se_now oe1.2 + 3600000 <= se_now oe2.2.
Proof. exact (sampling_hourly H cf os1 c0 s1 c1 xs1 oe1 s2 c2 x1 os2 s3 c3 xs2 oe2 s4 c4 x2). Qed.
Print Assumptions C100_hourly.

(** A peer with filters and one without; the second is asked, though only the
    first is ahead; it sends a header that does not connect, then none, and is
    asked again at the next idle timer. *)
Definition c100_os : list (sync_op * senv) :=
  [(SInitialize, ex_env t0); (SNegotiated 1 5 true true true, ex_env (t0 + 1)); (SNegotiated 2 0 true false true, ex_env (t0 + 2)); (STimer, ex_env (t0 + 40000));
   (SHeaders 2 (hdrs [a2]), ex_env (t0 + 40001)); (SHeaders 2 [], ex_env (t0 + 40002))].
Example C100_case : exists c0 s c xs s' c' x,
  from_store exH ex_ng ex_store (ex_params Regtest) [] = Val (Ok c0) /\
  sync_run exH ex_cf c100_os (sync_init, c0) = Val (s, c, xs) /\
  sync_step exH ex_cf (STimer, ex_env (t0 + 600000)) (s, c) = Val (s', c', x) /\
  map (asks 1) xs = [[]; []; []; []; []; []] /\
  map (asks 2) xs = [[]; []; [([exH ex_g], 0)]; []; [([exH ex_g], exH a2)]; []] /\
  idled c100_os xs None = Some t0 /\ seen 2 c100_os xs None = Some (PView 0 false true (Some ([exH ex_g], exH a2))) /\
  seen 1 c100_os xs None = Some (PView 5 true true None) /\ asks 2 x = [([exH ex_g], 0)].
Proof.
  apply (ex_sync ex_cf ex_store (ex_params Regtest) [] _ (STimer, ex_env (t0 + 600000)) (fun xs s c s' c' x => _)).
  vm_compute. repeat split.
Qed.
(** The tip is old: both outbound peers are asked, and then an hour later. *)
Definition old_os : list (sync_op * senv) :=
  [(SNegotiated 1 0 true true true, ex_env t0); (SNegotiated 2 0 true false true, ex_env t0); (SNegotiated 3 0 true true false, ex_env t0)].
Definition old_now : N := 2000000000000.
Example C100_old : exists c0 s c xs s' c' x,
  from_store exH ex_ng ex_store (ex_params Regtest) [] = Val (Ok c0) /\
  sync_run exH ex_cf (old_os ++ [(SInitialize, ex_env old_now); (STimer, ex_env (old_now + 600000)); (SNegotiated 4 0 true true true, ex_env (old_now + 600001)); (STimer, ex_env (old_now + 1200000)); (STimer, ex_env (old_now + 1800000))]) (sync_init, c0) = Val (s, c, xs) /\
  sync_step exH ex_cf (STimer, ex_env (old_now + 3600000)) (s, c) = Val (s', c', x) /\
  map (fun x => map (fun a => length (asks a x)) [1; 2; 3; 4]) xs = [[0; 0; 0; 0]; [0; 0; 0; 0]; [0; 0; 0; 0]; [1; 1; 0; 0]; [0; 0; 0; 0]; [0; 0; 0; 0]; [0; 0; 0; 0]; [0; 0; 0; 0]]%nat /\
  map (fun a => length (asks a x)) [1; 2; 3; 4] = [0; 0; 0; 1]%nat.
Proof.
  apply (ex_sync ex_cf ex_store (ex_params Regtest) [] _ (STimer, ex_env (old_now + 3600000)) (fun xs s c s' c' x => _)).
  vm_compute. repeat split.
Qed.

(** If the peers that are connected all offer filters, none is asked, though
    they are ahead: not after the handshake, and not when idle as long as the
    peers were sampled in the last hour, which happens at startup with no peer. *)
Theorem C100_filters_refuted : exists c0 s c xs s' c' x,
  from_store exH ex_ng ex_store (ex_params Regtest) [] = Val (Ok c0) /\
  sync_run exH ex_cf [(SInitialize, ex_env old_now); (SNegotiated 1 5 true true true, ex_env (old_now + 1)); (SNegotiated 2 7 true true true, ex_env (old_now + 2)); (STimer, ex_env (old_now + 600000)); (STimer, ex_env (old_now + 1200000)); (STimer, ex_env (old_now + 1800000)); (STimer, ex_env (old_now + 2400000)); (STimer, ex_env (old_now + 3000000))] (sync_init, c0) = Val (s, c, xs) /\
  sync_step exH ex_cf (STimer, ex_env (old_now + 3600000)) (s, c) = Val (s', c', x) /\
  c_height c = 0 /\ map (asks 1) xs = [[]; []; []; []; []; []; []; []] /\ map (asks 2) xs = [[]; []; []; []; []; []; []; []] /\
  asks 1 x = [([exH ex_g], 0)] /\ asks 2 x = [([exH ex_g], 0)].
Proof.
  apply (ex_sync ex_cf ex_store (ex_params Regtest) [] _ (STimer, ex_env (old_now + 3600000)) (fun xs s c s' c' x => _)).
  vm_compute. repeat split.
Qed.
Print Assumptions C100_filters_refuted.
