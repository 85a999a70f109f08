(** Proof-of-work arithmetic and the difficulty rule. *)
From Verif Require Import Base.
Open Scope N_scope.

Definition two256 : N := 2 ^ 256.

(** Block header.  /repo uses bitcoin 0.29.2 [BlockHeader]; the fields
    [version] and [merkle_root] play no role in the code of /repo and are
    folded with the nonce into [h_nonce], so distinct headers stay distinct. *)
Record header := mkHeader {
  h_prev : N;    (* prev_blockhash *)
  h_time : N;    (* time, u32 *)
  h_bits : N;    (* bits, u32 *)
  h_nonce : N;   (* version, merkle_root, nonce *)
}.
Global Instance header_eq_dec : EqDecision header.
Proof. solve_decision. Defined.

Inductive network := Bitcoin | Testnet | Regtest | Signet.
Global Instance network_eq_dec : EqDecision network.
Proof. solve_decision. Defined.

(** bitcoin::consensus::Params, the fields read in /repo
    (chain/src/block/cache.rs:440-492, common/src/block/tree.rs:204-248). *)
Record params := mkParams {
  p_network : network;
  p_pow_limit : N;
  p_spacing : N;        (* pow_target_spacing, u64 *)
  p_timespan : N;       (* pow_target_timespan, u64 *)
  p_allow_min : bool;   (* allow_min_difficulty_blocks *)
  p_no_retarget : bool; (* no_pow_retargeting *)
}.

(** External code: [Params::difficulty_adjustment_interval] of bitcoin 0.29.2,
    used at cache.rs:449,507 and tree.rs:213,218. *)
Definition adj_interval (ps : params) : N := p_timespan ps / p_spacing ps.

(** External code: [BlockHeader::u256_from_compact_target] of bitcoin 0.29.2
    (called at cache.rs:460 and through [header.target()]). *)
Definition target_of_bits (bits : N) : N :=
  let e := bits / 16777216 in
  let m := bits mod 16777216 in
  let '(mant, expt) :=
    if e <=? 3 then (N.shiftr m (8 * (3 - e)), 0) else (m, 8 * (e - 3)) in
  if 8388607 <? mant then 0 else N.shiftl mant expt mod two256.

(** External code: [BlockHeader::compact_target_from_u256] of bitcoin 0.29.2
    (called at tree.rs:214,247). *)
Definition bits_of_target (t : N) : N :=
  let size := (N.size t + 7) / 8 in
  let compact :=
    if size <=? 3
    then wrap32 (N.shiftl (t mod 2 ^ 64) (8 * (3 - size)))
    else wrap32 (N.shiftr t (8 * (size - 3))) in
  let '(compact, size) :=
    if N.testbit compact 23 then (N.shiftr compact 8, size + 1) else (compact, size) in
  N.lor compact (N.shiftl size 24).

(** External code: [BlockHeader::work] of bitcoin 0.29.2:
    [!target / (target + 1) + 1] in 256-bit wrapping arithmetic. *)
Definition work_of_target (t : N) : N :=
  ((two256 - 1 - t) / ((t + 1) mod two256) + 1) mod two256.

Definition h_target (h : header) : N := target_of_bits (h_bits h).
Definition h_work (h : header) : N := work_of_target (h_target h).

(** A block hash is represented by the big-endian value of its 32 bytes, so
    that the derived [Ord] of [BlockHash] (lexicographic on bytes,
    cache.rs:306) is [N.lt].  [pow_value] is the little-endian value that
    [validate_pow] compares with the target. *)
Fixpoint rev_bytes (n : nat) (x acc : N) : N :=
  match n with
  | O => acc
  | S n' => rev_bytes n' (x / 256) (acc * 256 + x mod 256)
  end.
Definition pow_value (hash : N) : N := rev_bytes 32 hash 0.

Inductive pow_error := BadTarget | BadPow.

(** External code: [BlockHeader::validate_pow] of bitcoin 0.29.2. *)
Definition validate_pow (hash : N) (own required : N) : option pow_error :=
  if negb (own =? required) then Some BadTarget
  else if pow_value hash <=? own then None else Some BadPow.

(** common/src/block.rs:59-66 [pow_limit_bits]. *)
Definition pow_limit_bits (n : network) : N :=
  match n with
  | Bitcoin => 0x1d00ffff
  | Testnet => 0x1d00ffff
  | Regtest => 0x207fffff
  | Signet => 0x1e0377ae
  end.

(** common/src/block/tree.rs:228-235: the clamped time span.  [u32]
    subtraction, casts and products wrap as in a release build. *)
Definition adjusted_timespan (ps : params) (last_time first_time : N) : N :=
  let span := wrap32 (p_timespan ps) in
  let actual := wsub32 last_time first_time in
  if actual <? span / 4 then span / 4
  else if wmul32 span 4 <? actual then wmul32 span 4
  else actual.

(** common/src/block/tree.rs:237-247: scaling, the difficulty floor and the
    compact encoding of the result. *)
Definition scaled_target (ps : params) (last_target timespan : N) : N :=
  let t := (last_target * timespan) mod two256 / p_timespan ps in
  if p_pow_limit ps <? t then p_pow_limit ps else t.

(** common/src/block/tree.rs:204-248 [BlockReader::next_difficulty_target].
    [get] is [get_block_by_height], [g] the genesis header.  The divisions by
    the interval and by the time span panic when zero. *)
Definition next_difficulty_target (ps : params) (get : N -> option header) (g : header)
    (last_height last_time last_target : N) : M N :=
  if p_spacing ps =? 0 then Panic (PDivZero 213) else
  if adj_interval ps =? 0 then Panic (PDivZero 213) else
  if negb ((last_height + 1) mod adj_interval ps =? 0)
  then Val (bits_of_target last_target)
  else
    let last_adjustment_height := last_height - (adj_interval ps - 1) in
    let last_adjustment_block :=
      match get last_adjustment_height with Some b => b | None => g end in
    if p_no_retarget ps then Val (h_bits last_adjustment_block)
    else
      let ts := adjusted_timespan ps last_time (h_time last_adjustment_block) in
      Val (bits_of_target (scaled_target ps last_target ts)).
