(** Property theorems about the address manager (C41-C43, C70-C72, C96). *)
From Verif Require Import Base AddrModel AddrSpec AddrProofs AddrFacts AddrMore AddrWord.
Open Scope N_scope.

(** Concrete cases: run, then look at one more step. *)
Lemma ex_addr cf store e0 e1 os oe (P : amgr -> amgr -> list aout -> Prop) : fair_aenv e0 -> fair_aenvs os ->
  match addr_new e0 store with
  | Val s0 =>
      match addr_step cf (AInitialize, e1) s0 with
      | Val (s1, _) =>
          match addr_run cf os s1 with
          | Val (s, _) => match addr_step cf oe s with Val (s', x) => P s s' x | _ => False end
          | _ => False
          end
      | _ => False
      end
  | _ => False
  end ->
  exists s s' x, addr_history cf store (ae_now e1) os s /\ addr_step cf oe s = Val (s', x) /\ P s s' x.
Proof.
  intros F0 Fs. destruct (addr_new e0 store) as [s0|] eqn:E0; [|done]. destruct (addr_step cf (AInitialize, e1) s0) as [[s1 x1]|] eqn:E1; [|done].
  destruct (addr_run cf os s1) as [[s xs]|] eqn:R; [|done]. destruct (addr_step cf oe s) as [[s' x]|] eqn:E; [|done].
  intros p. exists s, s', x. split; [|split; [exact E|exact p]].
  exists e0, e1, s0, s1, x1, xs. split; [done|]. split; [done|]. split; [exact E0|]. split; [done|]. split; [exact E1|exact R].
Qed.
Definition ex_aenv (now : N) : aenv := AEnv now (fun _ l => l) (fun l => l) (fun l => l) true.
Lemma fair_ex now : fair_aenv (ex_aenv now).
Proof. by split. Qed.
Ltac fair_all := repeat (apply Forall_cons; split; [apply fair_ex|]); apply Forall_nil; exact I.
Definition v4 (a b c d : N) : N := a * 2 ^ 24 + b * 2 ^ 16 + c * 2 ^ 8 + d.
Definition ad (x sv : N) : address := Address sv (0xffff * 2 ^ 32 + x) 8333.
Definition ex_acf : aconf := AConf 1 true false.
Definition T : N := 1000000000.
Definition sec : N := 1000000.
Definition alice : sockaddr := ((true, v4 33 33 33 33), 8333).
Definition bob : sockaddr := ((true, v4 44 44 44 44), 8333).

(** ** C41 *)
(** The ranges and the store hold the same addresses, each in one range; no
    range is empty or over its limit. *)
Theorem C41_index cf store t0 os s : addr_history cf store t0 os s ->
  (forall k r, am_ranges s !! k = Some r -> r <> ∅ /\ lenN (elements r) <= 256 /\ forall i, i ∈ r -> is_Some (am_peers s !! i)) /\
  (forall i, is_Some (am_peers s !! i) -> exists k r, am_ranges s !! k = Some r /\ i ∈ r /\
     forall k' r', am_ranges s !! k' = Some r' -> i ∈ r' -> k' = k).
Proof. exact (index_agree cf store t0 os s). Qed.
Print Assumptions C41_index.

(** So the book does not grow beyond 65280 addresses, whatever peers send. *)
Theorem C41_bounded cf store t0 os s : addr_history cf store t0 os s -> N.of_nat (size (am_peers s)) <= 65280.
Proof. exact (book_bounded cf store t0 os s). Qed.
Print Assumptions C41_bounded.

(** and at most 256 of them belong to the same network. *)
Theorem C41_group cf store t0 os s i (l : list ip) : addr_history cf store t0 os s -> NoDup l ->
  (forall j, j ∈ l -> is_Some (am_peers s !! j) /\ same_group i j) -> lenN l <= 256.
Proof. exact (group_bound cf store t0 os s i l). Qed.
Print Assumptions C41_group.

(** Of 258 addresses in the same range the book keeps 256. *)
Definition crowded (n : nat) : list (N * address) := map (fun k => (sec, ad (v4 33 33 (N.of_nat k / 256) (N.of_nat k mod 256)) 1)) (seq 0 n).
Example C41_case : exists s s' x,
  addr_history ex_acf ∅ T [(AAddr bob (crowded 258), ex_aenv (T + 1)); (AAddr bob [(sec, ad (v4 9 9 9 9) 1)], ex_aenv (T + 1))] s /\
  addr_step ex_acf (AMessage bob, ex_aenv (T + 2)) s = Val (s', x) /\
  crowd alice.1 s = 256 /\ size (am_peers s) = 257%nat.
Proof.
  apply (ex_addr ex_acf ∅ (ex_aenv 0) (ex_aenv T) _ (AMessage bob, ex_aenv (T + 2)) (fun s s' x => _)); [apply fair_ex|fair_all|].
  vm_compute. by split.
Qed.

(** ** C42 *)
Theorem C42_usable cf store t0 os s e sv s' a src : keyed store -> addr_history cf store t0 os s -> fair_aenv e ->
  addr_step cf (ASample sv, e) s = Val (s', [AoSample (Some (a, src))]) ->
  exists i port ka, socket_addr a = Some (i, port) /\ am_peers s !! i = Some ka /\ ka_addr ka = a /\ ka_source ka = src /\
    (if i.1 then ac_ipv4 cf else ac_ipv6 cf) = true /\ has_services (ad_services a) sv = true /\
    online i os false = false /\
    (store !! i = None -> is_routable i = true /\ is_local i = false) /\
    (ka_attempt ka = None \/ ka_success ka <> None) /\
    (forall t, ka_sampled ka = Some t -> 180000 <= idled os t0 - t).
Proof. exact (sample_usable cf store t0 os s e sv s' a src). Qed.
Print Assumptions C42_usable.

(** What routable means for IPv4; local addresses are never routable. *)
Theorem C42_routable a : a < 2 ^ 32 ->
  is_routable (true, a) = true <-> a = v4 192 0 0 9 \/ a = v4 192 0 0 10 \/ ~ reserved a.
Proof. exact (routable_spec a). Qed.
Print Assumptions C42_routable.
Theorem C42_local i : is_local i = true -> is_routable i = false.
Proof. exact (local_unroutable i). Qed.
Print Assumptions C42_local.

(** Nothing is returned only if nothing is usable. *)
Theorem C42_complete cf store t0 os s e sv s' : addr_history cf store t0 os s -> fair_aenv e ->
  addr_step cf (ASample sv, e) s = Val (s', [AoSample None]) ->
  forall i ka, am_peers s !! i = Some ka ->
    socket_addr (ka_addr ka) = None \/ (exists na, socket_addr (ka_addr ka) = Some na /\ (if na.1.1 then ac_ipv4 cf else ac_ipv6 cf) = false) \/
    has_services (ad_services (ka_addr ka)) sv = false \/ online i os false = true \/
    (ka_attempt ka <> None /\ ka_success ka = None) \/ idled os t0 - default 0 (ka_sampled ka) < 180000.
Proof. exact (sample_complete cf store t0 os s e sv s'). Qed.
Print Assumptions C42_complete.

(** A known address that a connection was attempted to is not returned before
    a handshake with it, as long as its range has room. *)
Theorem C42_failed cf store t0 os1 s1 i port e s2 x2 os2 s3 xs sv e' s4 a src ka : keyed store ->
  addr_history cf store t0 os1 s1 -> am_peers s1 !! i = Some ka -> ka_success ka = None ->
  addr_step cf (AConnecting (i, port), e) s1 = Val (s2, x2) -> addr_run cf os2 s2 = Val (s3, xs) -> fair_aenv e -> fair_aenvs os2 -> fair_aenv e' ->
  Forall (fun oe => ~ handshake i oe.1) os2 -> crowd i s1 + newcomers i (heard os2) <= 256 ->
  addr_step cf (ASample sv, e') s3 = Val (s4, [AoSample (Some (a, src))]) -> forall p, socket_addr a <> Some (i, p).
Proof. exact (failed_not_sampled cf store t0 os1 s1 i port e s2 x2 os2 s3 xs sv e' s4 a src ka). Qed.
Print Assumptions C42_failed.

(** The same address is returned again after three minutes at the earliest, as
    measured by the times the manager last idled. *)
Theorem C42_gap cf store t0 os1 s1 sv e s2 a1 src1 os2 s3 xs sv' e' s4 a2 src2 i p1 p2 : keyed store ->
  addr_history cf store t0 os1 s1 -> fair_aenv e -> fair_aenvs os2 -> fair_aenv e' ->
  addr_step cf (ASample sv, e) s1 = Val (s2, [AoSample (Some (a1, src1))]) -> socket_addr a1 = Some (i, p1) ->
  addr_run cf os2 s2 = Val (s3, xs) -> crowd i s1 + newcomers i (heard os2) <= 256 ->
  addr_step cf (ASample sv', e') s3 = Val (s4, [AoSample (Some (a2, src2))]) -> socket_addr a2 = Some (i, p2) ->
  180000 <= idled (os1 ++ os2) t0 - idled os1 t0.
Proof. exact (sample_gap cf store t0 os1 s1 sv e s2 a1 src1 os2 s3 xs sv' e' s4 a2 src2 i p1 p2). Qed.
Print Assumptions C42_gap.

(** Private, foreign, old and connected addresses are passed over. *)
Example C42_case : exists s s' x,
  addr_history ex_acf ∅ T
    [(AAddr bob [(sec, ad (v4 10 0 0 1) 1); (sec, Address 1 (2 ^ 125) 8333); (sec, ad (v4 55 5 5 5) 5); (0, ad (v4 56 5 5 5) 1); (sec, ad (v4 33 33 33 33) 9);
       (sec, ad (v4 66 6 6 6) 1); (sec, ad (v4 77 7 7 7) 9); (sec, ad (v4 88 8 8 8) 9)], ex_aenv (T + 1));
     (AConnected ((true, v4 77 7 7 7), 8333), ex_aenv (T + 2)); (AConnecting ((true, v4 88 8 8 8), 8333), ex_aenv (T + 3))] s /\
  addr_step ex_acf (ASample 8, ex_aenv (T + 4)) s = Val (s', x) /\
  x = [AoSample (Some (ad (v4 33 33 33 33) 9, FromPeer bob))] /\ size (am_peers s) = 4%nat /\
  match addr_step ex_acf (ASample 8, ex_aenv (T + 5)) s' with Val (_, y) => y = [AoSample None] | _ => False end.
Proof.
  apply (ex_addr ex_acf ∅ (ex_aenv 0) (ex_aenv T) _ (ASample 8, ex_aenv (T + 4)) (fun s s' x => _)); [apply fair_ex|fair_all|].
  vm_compute. repeat split.
Qed.

(** By the clock, an address may be returned again after two minutes: *)
Theorem C42_clock_refuted : exists s s' x,
  addr_history ex_acf ∅ T
    [(AAddr bob [(sec, ad (v4 33 33 33 33) 1)], ex_aenv (T + 1)); (ASample 1, ex_aenv (T + 59999));
     (ATimer, ex_aenv (T + 60000)); (ATimer, ex_aenv (T + 120000)); (ATimer, ex_aenv (T + 180000))] s /\
  addr_step ex_acf (ASample 1, ex_aenv (T + 180000)) s = Val (s', x) /\ x = [AoSample (Some (ad (v4 33 33 33 33) 1, FromPeer bob))] /\
  (exists s1 s1' x1, addr_history ex_acf ∅ T [(AAddr bob [(sec, ad (v4 33 33 33 33) 1)], ex_aenv (T + 1))] s1 /\
    addr_step ex_acf (ASample 1, ex_aenv (T + 59999)) s1 = Val (s1', x1) /\ x1 = [AoSample (Some (ad (v4 33 33 33 33) 1, FromPeer bob))]).
Proof.
  assert (exists s1 s1' x1, addr_history ex_acf ∅ T [(AAddr bob [(sec, ad (v4 33 33 33 33) 1)], ex_aenv (T + 1))] s1 /\
    addr_step ex_acf (ASample 1, ex_aenv (T + 59999)) s1 = Val (s1', x1) /\ x1 = [AoSample (Some (ad (v4 33 33 33 33) 1, FromPeer bob))]) as X.
  { apply (ex_addr ex_acf ∅ (ex_aenv 0) (ex_aenv T) _ (ASample 1, ex_aenv (T + 59999)) (fun s s' x => _)); [apply fair_ex|fair_all|]. vm_compute. repeat split. }
  destruct (ex_addr ex_acf ∅ (ex_aenv 0) (ex_aenv T)
    [(AAddr bob [(sec, ad (v4 33 33 33 33) 1)], ex_aenv (T + 1)); (ASample 1, ex_aenv (T + 59999));
     (ATimer, ex_aenv (T + 60000)); (ATimer, ex_aenv (T + 120000)); (ATimer, ex_aenv (T + 180000))] (ASample 1, ex_aenv (T + 180000))
    (fun s s' x => x = [AoSample (Some (ad (v4 33 33 33 33) 1, FromPeer bob))])) as (s & s' & x & A & B & C); [apply fair_ex|fair_all|vm_compute; reflexivity|].
  exists s, s', x. split; [exact A|]. split; [exact B|]. split; [exact C|exact X].
Qed.
Print Assumptions C42_clock_refuted.

(** An address with an open connection is returned if another connection from
    the same IP address was closed: *)
Theorem C42_connected_refuted : exists os s s' x,
  addr_history ex_acf ∅ T os s /\ addr_step ex_acf (ASample 1, ex_aenv (T + 5)) s = Val (s', x) /\
  x = [AoSample (Some (ad (v4 33 33 33 33) 1, FromPeer bob))] /\
  socket_addr (ad (v4 33 33 33 33) 1) = Some alice /\ linked alice os false = true.
Proof.
  eexists. apply (ex_addr ex_acf ∅ (ex_aenv 0) (ex_aenv T)
    [(AAddr bob [(sec, ad (v4 33 33 33 33) 1)], ex_aenv (T + 1)); (AConnected alice, ex_aenv (T + 2)); (AConnected (alice.1, 5555), ex_aenv (T + 3));
     (ADisconnected (alice.1, 5555) DConnection, ex_aenv (T + 4))] (ASample 1, ex_aenv (T + 5)) (fun s s' x => _)); [apply fair_ex|fair_all|].
  vm_compute. repeat split.
Qed.
Print Assumptions C42_connected_refuted.

(** An attempted address is returned again if it was evicted and learned anew: *)
Definition bring (v : ip) (l : list ip) : list ip := List.filter (fun i => bool_decide (i = v)) l ++ List.filter (fun i => negb (bool_decide (i = v))) l.
Lemma bring_perm v l : Permutation (bring v l) l.
Proof. unfold bring. induction l as [|i l IH]; [done|]. cbn [List.filter]. destruct (bool_decide (i = v)); cbn [negb app]; [by constructor|]. rewrite <- Permutation_middle. by constructor. Qed.
Definition evict_env (now : N) : aenv := AEnv now (fun _ l => bring alice.1 l) (fun l => l) (fun l => l) true.
Lemma fair_evict now : fair_aenv (evict_env now).
Proof. split; [intros n l; apply bring_perm|by split]. Qed.
Theorem C42_forgotten_refuted : exists s s' x,
  addr_history ex_acf ∅ T
    [(AAddr bob ((sec, ad (v4 33 33 33 33) 1) :: crowded 255), ex_aenv (T + 1)); (AConnecting alice, ex_aenv (T + 2));
     (AAddr bob [(sec, ad (v4 33 33 100 100) 1)], evict_env (T + 3)); (AAddr bob [(sec, ad (v4 33 33 33 33) 1)], ex_aenv (T + 4))] s /\
  addr_step ex_acf (ASample 1, evict_env (T + 5)) s = Val (s', x) /\
  x = [AoSample (Some (ad (v4 33 33 33 33) 1, FromPeer bob))].
Proof.
  apply (ex_addr ex_acf ∅ (ex_aenv 0) (ex_aenv T) _ (ASample 1, evict_env (T + 5)) (fun s s' x => _)); [apply fair_ex| |vm_compute; reflexivity].
  apply Forall_cons. split; [apply fair_ex|]. apply Forall_cons. split; [apply fair_ex|]. apply Forall_cons. split; [apply fair_evict|].
  apply Forall_cons. split; [apply fair_ex|]. by apply Forall_nil.
Qed.
Print Assumptions C42_forgotten_refuted.

(** ** C43 *)
(** A known peer that was disconnected for a severe reason is dropped from the
    book for good, *)
Theorem C43_gone cf store t0 os1 s1 i port r e s2 x os2 s3 xs : addr_history cf store t0 os1 s1 ->
  online i os1 false = true -> severe r -> is_Some (am_peers s1 !! i) -> fair_aenv e -> fair_aenvs os2 ->
  addr_step cf (ADisconnected (i, port) r, e) s1 = Val (s2, x) -> addr_run cf os2 s2 = Val (s3, xs) ->
  am_peers s3 !! i = None.
Proof. exact (banned_gone cf store t0 os1 s1 i port r e s2 x os2 s3 xs). Qed.
Print Assumptions C43_gone.
(** and never returned. *)
Theorem C43_not_sampled cf store t0 os1 s1 i port r e s2 x os2 s3 xs sv e' s4 a src : keyed store -> addr_history cf store t0 os1 s1 ->
  online i os1 false = true -> severe r -> is_Some (am_peers s1 !! i) -> fair_aenv e -> fair_aenvs os2 -> fair_aenv e' ->
  addr_step cf (ADisconnected (i, port) r, e) s1 = Val (s2, x) -> addr_run cf os2 s2 = Val (s3, xs) ->
  addr_step cf (ASample sv, e') s3 = Val (s4, [AoSample (Some (a, src))]) -> forall p, socket_addr a <> Some (i, p).
Proof. exact (banned_not_sampled cf store t0 os1 s1 i port r e s2 x os2 s3 xs sv e' s4 a src). Qed.
Print Assumptions C43_not_sampled.

Example C43_case : exists s s' x,
  addr_history ex_acf ∅ T
    [(AAddr bob [(sec, ad (v4 33 33 33 33) 1)], ex_aenv (T + 1)); (AConnected alice, ex_aenv (T + 2));
     (ADisconnected alice (DMachine RMisbehaving), ex_aenv (T + 3)); (AAddr bob [(sec, ad (v4 33 33 33 33) 1); (sec, ad (v4 55 5 5 5) 1)], ex_aenv (T + 4))] s /\
  addr_step ex_acf (ASample 1, ex_aenv (T + 5)) s = Val (s', x) /\
  x = [AoSample (Some (ad (v4 55 5 5 5) 1, FromPeer bob))] /\ size (am_peers s) = 1%nat.
Proof.
  apply (ex_addr ex_acf ∅ (ex_aenv 0) (ex_aenv T) _ (ASample 1, ex_aenv (T + 5)) (fun s s' x => _)); [apply fair_ex|fair_all|].
  vm_compute. repeat split.
Qed.

(** A misbehaving peer that is not in the book is not banned: *)
Theorem C43_unknown_refuted : exists s s' x,
  addr_history ex_acf ∅ T
    [(AConnected alice, ex_aenv (T + 2)); (ADisconnected alice (DMachine RMisbehaving), ex_aenv (T + 3));
     (AAddr bob [(sec, ad (v4 33 33 33 33) 1)], ex_aenv (T + 4))] s /\
  addr_step ex_acf (ASample 1, ex_aenv (T + 5)) s = Val (s', x) /\
  x = [AoSample (Some (ad (v4 33 33 33 33) 1, FromPeer bob))].
Proof.
  apply (ex_addr ex_acf ∅ (ex_aenv 0) (ex_aenv T) _ (ASample 1, ex_aenv (T + 5)) (fun s s' x => _)); [apply fair_ex|fair_all|].
  vm_compute. repeat split.
Qed.
Print Assumptions C43_unknown_refuted.
(** and an address that cannot be dialled is not either. *)
Theorem C43_dial_refuted : exists s s' x,
  addr_history ex_acf ∅ T
    [(AAddr bob [(sec, ad (v4 33 33 33 33) 1)], ex_aenv (T + 1)); (AConnected alice, ex_aenv (T + 2));
     (ANegotiated alice 1 true (ad 0 0), ex_aenv (T + 3)); (ADisconnected alice DConnection, ex_aenv (T + 4));
     (AConnecting alice, ex_aenv (T + 5)); (ADisconnected alice DDial, ex_aenv (T + 6))] s /\
  addr_step ex_acf (ASample 1, ex_aenv (T + 7)) s = Val (s', x) /\
  x = [AoSample (Some (ad (v4 33 33 33 33) 1, FromPeer bob))].
Proof.
  apply (ex_addr ex_acf ∅ (ex_aenv 0) (ex_aenv T) _ (ASample 1, ex_aenv (T + 7)) (fun s s' x => _)); [apply fair_ex|fair_all|].
  vm_compute. repeat split.
Qed.
Print Assumptions C43_dial_refuted.

(** ** C70 *)
(** Once initialized, the address manager never panics. *)
Theorem C70_no_panic cf store e0 e1 os : fair_aenv e0 -> fair_aenvs os ->
  exists s0 s1 x1 s xs, addr_new e0 store = Val s0 /\ addr_step cf (AInitialize, e1) s0 = Val (s1, x1) /\ addr_run cf os s1 = Val (s, xs).
Proof. exact (total cf store e0 e1 os). Qed.
Print Assumptions C70_no_panic.

(** Before, it does. *)
Example C70_case : match addr_new (ex_aenv 0) ∅ with Val s => addr_step ex_acf (AInsert [(sec, ad 0 0)] FromImport, ex_aenv 0) s = Panic (PAssert 359) | _ => False end.
Proof. vm_compute. reflexivity. Qed.

(** ** C71 *)
(** The answer to [getaddr] holds stored addresses, no two of them of the same
    network, along with the time they were last active. *)
Theorem C71_reply cf store t0 os s from e s' x : addr_history cf store t0 os s -> fair_aenv e ->
  addr_step cf (AGetAddr from, e) s = Val (s', x) ->
  exists l ips, x = [AoAddr from l] /\ lenN l <= 255 /\ NoDup ips /\ (forall i j, i ∈ ips -> j ∈ ips -> same_group i j -> i = j) /\
    Forall2 (fun p i => exists ka, am_peers s' !! i = Some ka /\ p = (stamp (ka_active ka), ka_addr ka)) l ips.
Proof. exact (reply_groups cf store t0 os s from e s' x). Qed.
Print Assumptions C71_reply.

(** The activity and services kept for an address are those it came with, from
    the store or in a message, updated by every message received from it and
    every handshake with it since. *)
Theorem C71_known cf store t0 os s i ka : addr_history cf store t0 os s -> am_peers s !! i = Some ka ->
  (exists ks, store !! i = Some ks /\ (ka_active ka, ad_services (ka_addr ka)) = word i os false (ka_active ks, ad_services (ka_addr ks))) \/
  (exists os1 oe os2 active a port, os = os1 ++ oe :: os2 /\ (active, a) ∈ op_addrs oe.1 /\ socket_addr a = Some (i, port) /\
     (ka_active ka, ad_services (ka_addr ka)) = word i os2 (online i (os1 ++ [oe]) false) (Some (active * 1000), ad_services a)).
Proof. exact (known_word cf store t0 os s i ka). Qed.
Print Assumptions C71_known.

(** Told by a peer to have service 1, then connected, and found to have more. *)
Example C71_known_case : exists s s' x,
  addr_history ex_acf ∅ T
    [(AAddr bob [(sec, ad (v4 33 33 33 33) 1)], ex_aenv (T + 1)); (AConnected alice, ex_aenv (T + 1000));
     (ANegotiated alice 9 true (ad (v4 1 1 1 1) 0), ex_aenv (T + 2000))] s /\
  addr_step ex_acf (AGetAddr bob, ex_aenv (T + 5000)) s = Val (s', x) /\
  x = [AoAddr bob [(sec + 2, ad (v4 33 33 33 33) 9)]].
Proof.
  apply (ex_addr ex_acf ∅ (ex_aenv 0) (ex_aenv T) _ (AGetAddr bob, ex_aenv (T + 5000)) (fun s s' x => _)); [apply fair_ex|fair_all|].
  vm_compute. repeat split.
Qed.

Example C71_case : exists s s' x,
  addr_history ex_acf ∅ T
    [(AAddr bob [(sec, ad (v4 33 33 33 33) 1); (sec, ad (v4 33 33 33 34) 1); (sec, ad (v4 55 5 5 5) 1)], ex_aenv (T + 1)); (AMessage alice, ex_aenv (T + 2000))] s /\
  addr_step ex_acf (AGetAddr bob, ex_aenv (T + 5000)) s = Val (s', x) /\
  x = [AoAddr bob [(sec, ad (v4 55 5 5 5) 1); (sec + 2, ad (v4 33 33 33 33) 1)]].
Proof.
  apply (ex_addr ex_acf ∅ (ex_aenv 0) (ex_aenv T) _ (AGetAddr bob, ex_aenv (T + 5000)) (fun s s' x => _)); [apply fair_ex|fair_all|].
  vm_compute. repeat split.
Qed.

(** ** C72 *)
(** Every address that was not in the store was presented by a peer or the
    user, with the services and recent activity asked for, and is routable. *)
Theorem C72_learned cf store t0 os s i ka : addr_history cf store t0 os s -> am_peers s !! i = Some ka -> store !! i = None ->
  exists os1 o e os2 active a port, os = os1 ++ (o, e) :: os2 /\ (active, a) ∈ op_addrs o /\
    ad_bits (ka_addr ka) = ad_bits a /\ ad_port (ka_addr ka) = ad_port a /\ socket_addr a = Some (i, port) /\
    acceptable_addr cf (idled os1 t0) active a i.
Proof. exact (learned cf store t0 os s i ka). Qed.
Print Assumptions C72_learned.

(** Such an address of a message of at most 1000 is learned if its range has
    room, unless a peer called it ours or it was disconnected for a severe
    reason. *)
Theorem C72_stored cf store t0 os s from l e s' x active a i port : addr_history cf store t0 os s -> fair_aenv e ->
  addr_step cf (AAddr from l, e) s = Val (s', x) -> lenN l <= 1000 -> (active, a) ∈ l -> socket_addr a = Some (i, port) ->
  acceptable_addr cf (idled os t0) active a i -> Forall (fun oe => ~ told_own (i, port) oe.1) os -> Forall (fun oe => ~ faulted i oe.1) os ->
  crowd i s + newcomers i l <= 256 -> is_Some (am_peers s' !! i).
Proof. exact (stored cf store t0 os s from l e s' x active a i port). Qed.
Print Assumptions C72_stored.
(** Nothing is learned from a larger message. *)
Theorem C72_oversized cf e from l s s' x i : lenN l = 0 \/ 1000 < lenN l -> addr_step cf (AAddr from l, e) s = Val (s', x) ->
  is_Some (am_peers s' !! i) <-> is_Some (am_peers s !! i).
Proof. exact (oversized cf e from l s s' x i). Qed.
Print Assumptions C72_oversized.

(** Of two addresses, the one a peer called ours is not learned. *)
Example C72_case : exists s s' x,
  addr_history ex_acf ∅ T [(AConnected bob, ex_aenv (T + 1)); (ANegotiated bob 1 true (ad (v4 33 33 33 33) 1), ex_aenv (T + 2))] s /\
  addr_step ex_acf (AAddr bob [(sec, ad (v4 33 33 33 33) 1); (sec, ad (v4 55 5 5 5) 1)], ex_aenv (T + 3)) s = Val (s', x) /\
  map fst (map_to_list (am_peers s')) = [(true, v4 55 5 5 5)] /\ crowd (true, v4 55 5 5 5) s + newcomers (true, v4 55 5 5 5) [(sec, ad (v4 33 33 33 33) 1); (sec, ad (v4 55 5 5 5) 1)] = 1.
Proof.
  apply (ex_addr ex_acf ∅ (ex_aenv 0) (ex_aenv T) _ (AAddr bob [(sec, ad (v4 33 33 33 33) 1); (sec, ad (v4 55 5 5 5) 1)], ex_aenv (T + 3)) (fun s s' x => _)); [apply fair_ex|fair_all|].
  vm_compute. repeat split.
Qed.

(** The user's command to import addresses passes zero as their last activity
    (p2p/src/fsm.rs:689-694), so nothing is ever imported. *)
Theorem C72_import_refuted cf e s s' x l : addr_step cf (AInsert (map (fun a => (0, a)) l) FromImport, e) s = Val (s', x) -> s' = s.
Proof. exact (import_ignored cf e s s' x l). Qed.
Print Assumptions C72_import_refuted.

(** ** C96 *)
(** The manager reports that it has run out of addresses when a timer fires, at
    most once a minute, and exactly if none of its addresses can be used: *)
Theorem C96_exhausted cf store t0 os xs s o e s' x : addr_story cf store t0 os xs s -> fair_aenv e -> addr_step cf (o, e) s = Val (s', x) ->
  AoExhausted ∈ x <-> o = ATimer /\ 60000 <= ae_now e - ran_out os xs 0 /\
    forall i ka, am_peers s !! i = Some ka -> (ka_attempt ka <> None /\ ka_success ka = None) \/ idled os t0 - default 0 (ka_sampled ka) < 180000 \/ online i os false = true.
Proof. intros St Fe E. exact (proj1 (exhausted_iff cf store t0 os xs s o e s' x St Fe E)). Qed.
Print Assumptions C96_exhausted.
(** it then asks every outbound peer for addresses; otherwise it asks a peer
    only after the first handshake with an address it knows. *)
Theorem C96_asks cf store t0 os xs s o e s' x a : addr_story cf store t0 os xs s -> fair_aenv e -> addr_step cf (o, e) s = Val (s', x) ->
  AoGetAddr a ∈ x <-> (exists sv ob rc ka, o = ANegotiated a sv ob rc /\ online a.1 os false = true /\ am_peers s !! a.1 = Some ka /\ ka_success ka = None) \/
    (o = ATimer /\ AoExhausted ∈ x /\ source_of a os false false = true).
Proof. intros St Fe E. exact (proj2 (exhausted_iff cf store t0 os xs s o e s' x St Fe E) a). Qed.
Print Assumptions C96_asks.

(** Asked at the first handshake, and again after running out; not twice in a
    minute. *)
Definition ex_ask : list (addr_op * aenv) :=
  [(AAddr bob [(sec, ad (v4 33 33 33 33) 1)], ex_aenv (T + 1)); (AConnected alice, ex_aenv (T + 2)); (AConnected bob, ex_aenv (T + 2));
   (ANegotiated alice 1 true (ad 0 0), ex_aenv (T + 3)); (ANegotiated bob 1 true (ad 0 0), ex_aenv (T + 3)); (ATimer, ex_aenv (T + 60000)); (ATimer, ex_aenv (T + 90000));
   (ADisconnected bob DConnection, ex_aenv (T + 100000))].
Example C96_case : match addr_new (ex_aenv 0) ∅ with
  | Val s0 =>
      match addr_step ex_acf (AInitialize, ex_aenv T) s0 with
      | Val (s1, _) =>
          match addr_run ex_acf ex_ask s1 with
          | Val (s, xs) => map (List.filter (fun y => match y with AoGetAddr _ | AoExhausted => true | _ => false end)) xs =
              [[]; []; []; [AoGetAddr alice]; []; [AoExhausted; AoGetAddr alice; AoGetAddr bob]; []; []] /\ ran_out ex_ask xs 0 = T + 60000 /\
              match addr_step ex_acf (ATimer, ex_aenv (T + 120000)) s with Val (_, x) => x = [AoExhausted; AoGetAddr alice; AoTimer 60000; AoTimer 60000] | _ => False end
          | _ => False
          end
      | _ => False
      end
  | _ => False
  end.
Proof. vm_compute. repeat split. Qed.
