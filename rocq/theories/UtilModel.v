(** Models of small components: the chain iterator, network-adjusted time,
    the timer queue, the stream decoder and the filter cache. *)
From Verif Require Import Base.
Open Scope N_scope.

(** ** Chain iterator *)

(** common/src/block/iter.rs:8-12.  The chain itself is an argument of the
    steps, the iterator only borrows it. *)
Record iter_st := IterSt { it_next : nat; it_back : nat }.

(** common/src/block/iter.rs:16-22 *)
Definition iter_new {T} (chain : list T) : iter_st := IterSt 0 (length chain).

(** common/src/block/iter.rs:28-36 *)
Definition iter_next {T} (chain : list T) (s : iter_st) : iter_st * option (N * T) :=
  if Nat.eqb (it_next s) (it_back s) then (s, None)
  else
    let height := it_next s in
    (IterSt (it_next s + 1) (it_back s),
     (fun item => (N.of_nat height, item)) <$> (chain !! height)).

(** common/src/block/iter.rs:63-72 *)
Definition iter_next_back {T} (chain : list T) (s : iter_st) : iter_st * option (N * T) :=
  if Nat.eqb (it_back s) (it_next s) then (s, None)
  else
    let height := (it_back s - 1)%nat in
    (IterSt (it_next s) height,
     (fun item => (N.of_nat height, item)) <$> (chain !! height)).

(** A call made by the user of the iterator. *)
Inductive side := Front | Back.

Fixpoint iter_run {T} (chain : list T) (s : iter_st) (calls : list side)
    : iter_st * list (option (N * T)) :=
  match calls with
  | [] => (s, [])
  | d :: calls' =>
      let '(s1, r) := match d with
                      | Front => iter_next chain s
                      | Back => iter_next_back chain s
                      end in
      let '(s2, rs) := iter_run chain s1 calls' in
      (s2, r :: rs)
  end.

(** ** Network-adjusted time *)

(** common/src/block/time.rs:20-32 *)
Definition max_time_adjustment : Z := 4200.
Definition min_time_samples : nat := 5.
Definition max_time_samples : nat := 200.

(** [i64::abs] of a release build: [i64::MIN] maps to itself (a debug build
    panics instead). *)
Definition i64_min : Z := - (2 ^ 63).
Definition abs64 (z : Z) : Z := if (z =? i64_min)%Z then i64_min else Z.abs z.

(** common/src/block/time.rs:139-151.  Sources are numbered; [at_local] is
    the local time in seconds. *)
Record adjusted := Adjusted {
  at_sources : list N;
  at_samples : list Z;
  at_offset : Z;
  at_local : N
}.

(** common/src/block/time.rs:176-190 *)
Definition at_new (local : N) : adjusted := Adjusted [] [0%Z] 0 local.

(** common/src/block/time.rs:193-243 *)
Definition record_offset (source : N) (sample : Z) (a : adjusted) : adjusted :=
  if Nat.eqb (length (at_sources a)) max_time_samples then a
  else if bool_decide (source ∈ at_sources a) then a
  else
    let sources := source :: at_sources a in
    let samples := at_samples a ++ [sample] in
    let offsets := sortZ samples in
    let count := length offsets in
    if Nat.ltb count min_time_samples
    then Adjusted sources samples (at_offset a) (at_local a)
    else if Nat.eqb (Nat.modulo count 2) 1
    then
      let median := nth (Nat.div count 2) offsets 0%Z in
      Adjusted sources samples
        (if (abs64 median <=? max_time_adjustment)%Z then median else 0%Z) (at_local a)
    else Adjusted sources samples (at_offset a) (at_local a).

(** common/src/block/time.rs:251-259, with [u32] arithmetic wrapping. *)
Definition at_from (a : adjusted) (time : N) : N :=
  let adjustment := at_offset a in
  if (0 <? adjustment)%Z
  then wadd32 time (wrap32 (Z.to_N adjustment))
  else wsub32 time (wrap32 (Z.to_N (- adjustment))).

(** common/src/block/time.rs:262-264 *)
Definition at_get (a : adjusted) : N := at_from a (wrap32 (at_local a)).

(** common/src/block/time.rs:267-269 *)
Definition set_local_time (t : N) (a : adjusted) : adjusted :=
  Adjusted (at_sources a) (at_samples a) (at_offset a) t.

Inductive at_op := ARecord (source : N) (sample : Z) | ALocal (t : N).
Definition at_step (a : adjusted) (o : at_op) : adjusted :=
  match o with ARecord s z => record_offset s z a | ALocal t => set_local_time t a end.
Definition at_run (local : N) (os : list at_op) : adjusted := foldl at_step (at_new local) os.

(** ** Timer queue *)

(** net/poll/src/time.rs:5-8.  Times and durations in milliseconds.  The
    sorting routine is an argument, because [sort_unstable_by] may order
    entries with equal times arbitrarily. *)
Definition timers (K : Type) := list (K * N).

(** net/src/time.rs:62-68 *)
Definition time_diff (a b : N) : N := if b <? a then a - b else b - a.

(** net/poll/src/time.rs:53-68 *)
Definition tm_register {K} (sort : timers K -> timers K) (threshold : N)
    (key : K) (time : N) (ts : timers K) : timers K * bool :=
  if existsb (fun e => time_diff e.2 time <? threshold) ts then (ts, false)
  else (sort (ts ++ [(key, time)]), true).

(** net/poll/src/time.rs:92-102 *)
Definition tm_next {K} (now : N) (ts : timers K) : option N :=
  match last ts with
  | None => None
  | Some (_, t) => Some (if now <=? t then t - now else 0)
  end.

(** net/poll/src/time.rs:124-136, with [revts] the vector back to front. *)
Fixpoint tm_wake_rev {K} (now : N) (revts : timers K) : timers K * list K :=
  match revts with
  | [] => ([], [])
  | (k, t) :: revts' =>
      if t <=? now
      then let '(rest, woken) := tm_wake_rev now revts' in (rest, k :: woken)
      else ((k, t) :: revts', [])
  end.
Definition tm_wake {K} (now : N) (ts : timers K) : timers K * list K :=
  let '(rest, woken) := tm_wake_rev now (reverse ts) in (reverse rest, woken).

Inductive tm_op (K : Type) := TRegister (key : K) (time : N) | TWake (now : N).
Arguments TRegister {K} key time.
Arguments TWake {K} now.
Inductive tm_out (K : Type) := TRegistered (ok : bool) | TWoken (keys : list K).
Arguments TRegistered {K} ok.
Arguments TWoken {K} keys.

Definition tm_step {K} (sort : timers K -> timers K) (threshold : N) (ts : timers K)
    (o : tm_op K) : timers K * tm_out K :=
  match o with
  | TRegister k t =>
      let '(ts', b) := tm_register sort threshold k t ts in (ts', TRegistered b)
  | TWake now => let '(ts', ks) := tm_wake now ts in (ts', TWoken ks)
  end.
Fixpoint tm_run {K} (sort : timers K -> timers K) (threshold : N) (ts : timers K)
    (os : list (tm_op K)) : timers K * list (tm_out K) :=
  match os with
  | [] => (ts, [])
  | o :: os' =>
      let '(ts1, r) := tm_step sort threshold ts o in
      let '(ts2, rs) := tm_run sort threshold ts1 os' in
      (ts2, r :: rs)
  end.

(** ** Stream decoder *)

(** Outcome of [deserialize_partial] of the bitcoin crate, as distinguished
    by p2p/src/stream.rs:29-40: a message and the number of bytes it took,
    an unexpected end of input, or another error. *)
Inductive parsed (Msg : Type) :=
| Done (m : Msg) (n : nat)
| Incomplete
| Malformed.
Arguments Done {Msg} m n.
Arguments Incomplete {Msg}.
Arguments Malformed {Msg}.

(** p2p/src/stream.rs:28-41 *)
Definition decode_next {Msg} (parse : list N -> parsed Msg) (unparsed : list N)
    : list N * result (option Msg) unit :=
  match parse unparsed with
  | Done m n => (drop n unparsed, Ok (Some m))
  | Incomplete => (unparsed, Ok None)
  | Malformed => (unparsed, Err tt)
  end.

(** client/src/service.rs:102-117: decode until there is nothing left or an
    error occurs.  Result: what is left in the buffer, the messages handed to
    the state machine, and whether the peer was disconnected for an error;
    [None] if the fuel runs out. *)
Fixpoint drain {Msg} (parse : list N -> parsed Msg) (fuel : nat) (unparsed : list N)
    : option (list N * list Msg * bool) :=
  match fuel with
  | O => None
  | S fuel' =>
      match decode_next parse unparsed with
      | (rest, Ok (Some m)) =>
          match drain parse fuel' rest with
          | Some (buf, ms, e) => Some (buf, m :: ms, e)
          | None => None
          end
      | (rest, Ok None) => Some (rest, [], false)
      | (rest, Err _) => Some (rest, [], true)
      end
  end.

(** client/src/service.rs:98-122 with p2p/src/stream.rs:23-25: append a chunk
    to the buffer of the peer, then drain it. *)
Definition bytes_received {Msg} (parse : list N -> parsed Msg) (unparsed chunk : list N)
    : option (list N * list Msg * bool) :=
  let buf := unparsed ++ chunk in
  drain parse (S (length buf)) buf.

(** A sequence of chunks read from one connection. *)
Fixpoint chunks_received {Msg} (parse : list N -> parsed Msg) (unparsed : list N)
    (chunks : list (list N)) : option (list N * list Msg * bool) :=
  match chunks with
  | [] => Some (unparsed, [], false)
  | c :: cs =>
      match bytes_received parse unparsed c with
      | None => None
      | Some (buf, ms, e) =>
          match chunks_received parse buf cs with
          | None => None
          | Some (buf', ms', e') => Some (buf', ms ++ ms', e || e')
          end
      end
  end.

(** Little-endian value of bytes. *)
Fixpoint le_value (bs : list N) : N :=
  match bs with [] => 0 | b :: bs' => b + 256 * le_value bs' end.

(** Framing of network messages in the bitcoin crate
    ([RawNetworkMessage::consensus_decode], outside /repo): magic (4 bytes),
    command (12), payload length (4), checksum (4), payload.  The checksum
    function and the payload decoder are arguments; a payload decoder that
    runs past the end of the payload reports [Incomplete]. *)
Definition frame_parse {Msg} (checksum : list N -> list N)
    (payload : list N -> list N -> list N -> parsed Msg) (bs : list N) : parsed Msg :=
  if Nat.ltb (length bs) 24 then Incomplete
  else
    let magic := take 4 bs in
    let cmd := take 12 (drop 4 bs) in
    let len := N.to_nat (le_value (take 4 (drop 16 bs))) in
    let sum := take 4 (drop 20 bs) in
    if Nat.ltb (length bs) (24 + len) then Incomplete
    else
      let body := take len (drop 24 bs) in
      if bool_decide (checksum body = sum) then
        match payload magic cmd body with
        | Done m _ => Done m (24 + len)
        | Incomplete => Incomplete
        | Malformed => Malformed
        end
      else Malformed.

(** ** Filter cache *)

(** p2p/src/fsm/filter_cache.rs:24-31.  The B-tree is a list sorted by
    height; [flen] is the [HeapSize]-like length of a filter. *)
Record fcache (T : Type) := FCache {
  fc_cache : list (N * T);
  fc_size : N;
  fc_capacity : N
}.
Arguments FCache {T}.
Arguments fc_cache {T}.
Arguments fc_size {T}.
Arguments fc_capacity {T}.

(** p2p/src/fsm/filter_cache.rs:41-47 *)
Definition fc_new {T} (capacity : N) : fcache T := FCache [] 0 capacity.

(** p2p/src/fsm/filter_cache.rs:130-136.  With an empty tree the loop body
    does nothing and the loop never ends. *)
Fixpoint fc_evict {T} (flen : T -> N) (cache : list (N * T)) (size capacity : N)
    : M (list (N * T) * N) :=
  if size <=? capacity then Val (cache, size)
  else match cache with
       | [] => Panic (PDiverge 130)
       | (_, f) :: cache' =>
           if size <? flen f then Panic (POverflow 133)
           else fc_evict flen cache' (size - flen f) capacity
       end.

(** p2p/src/fsm/filter_cache.rs:119-138 *)
Definition fc_push {T} (flen : T -> N) (height : N) (f : T) (c : fcache T)
    : M (fcache T * bool) :=
  assertM (fc_size c <=? fc_capacity c) 120
    (let size := flen f in
     if fc_capacity c <? size then Val (c, false)
     else
       let cache := bt_insert N.compare height f (fc_cache c) in
       '(cache', size') <-- fc_evict flen cache (fc_size c + size) (fc_capacity c) ;;
       Val (FCache cache' size' (fc_capacity c), true)).

(** p2p/src/fsm/filter_cache.rs:155-162 *)
Definition fc_start {T} (c : fcache T) : option N := fst <$> head (fc_cache c).
Definition fc_end {T} (c : fcache T) : option N := fst <$> last (fc_cache c).

(** p2p/src/fsm/filter_cache.rs:191-193 *)
Definition fc_get {T} (c : fcache T) (height : N) : option T :=
  snd <$> List.find (fun e => e.1 =? height) (fc_cache c).

(** p2p/src/fsm/filter_cache.rs:217-229, with the tree back to front. *)
Fixpoint fc_rollback_rev {T} (flen : T -> N) (height : N) (revc : list (N * T)) (size : N)
    : M (list (N * T) * N) :=
  match revc with
  | [] => Val ([], size)
  | (h, f) :: revc' =>
      if height <? h then
        if size <? flen f then Panic (POverflow 222)
        else fc_rollback_rev flen height revc' (size - flen f)
      else Val ((h, f) :: revc', size)
  end.
Definition fc_rollback {T} (flen : T -> N) (height : N) (c : fcache T) : M (fcache T) :=
  '(revc, size) <-- fc_rollback_rev flen height (reverse (fc_cache c)) (fc_size c) ;;
  Val (FCache (reverse revc) size (fc_capacity c)).

Inductive fc_op (T : Type) := FPush (height : N) (f : T) | FRollback (height : N).
Arguments FPush {T}.
Arguments FRollback {T}.
Definition fc_step {T} (flen : T -> N) (c : fcache T) (o : fc_op T) : M (fcache T) :=
  match o with
  | FPush h f => '(c', _) <-- fc_push flen h f c ;; Val c'
  | FRollback h => fc_rollback flen h c
  end.
Fixpoint fc_run {T} (flen : T -> N) (c : fcache T) (os : list (fc_op T)) : M (fcache T) :=
  match os with
  | [] => Val c
  | o :: os' => c1 <-- fc_step flen c o ;; fc_run flen c1 os'
  end.
