(** Model of the compact filter manager, p2p/src/fsm/cbfmgr.rs, its rescan
    state, p2p/src/fsm/cbfmgr/rescan.rs, and the filter header cache,
    chain/src/filter/cache.rs. *)
From Verif Require Import Base UtilModel.
Open Scope N_scope.

(** ** Arguments

    Hashing and filter matching are in the bitcoin crate.  A filter is its
    bytes.  [p_hash] is the filter hash, [p_header h prev] the filter header
    made of a filter hash and the previous header, [p_any]/[p_all] match a
    filter of a block against a set of scripts ([None]: the filter does not
    decode), [p_genesis] is the hash of the genesis filter and [p_timeout]
    the configured request timeout. *)
Definition bfilter := list N.
Record params := Params {
  p_hash : bfilter -> N;
  p_header : N -> N -> N;
  p_any : bfilter -> N -> gset N -> option bool;
  p_all : bfilter -> N -> gset N -> option bool;
  p_genesis : N;
  p_timeout : N
}.

(** What is asked of the block tree: the hashes of the active chain and the
    height of the last checkpoint. *)
Record tree := Tree { tr_genesis : N; tr_chain : list N; tr_checkpoint : option N }.
Definition tr_height (t : tree) : N := lenN (tr_chain t).
Definition tr_at (t : tree) (h : N) : option N := (tr_genesis t :: tr_chain t) !! N.to_nat h.
Definition tr_get (t : tree) (hash : N) : option N :=
  (fun p => N.of_nat p.1) <$> list_find (fun x => x = hash) (tr_genesis t :: tr_chain t).

(** Random and environment choices of one step: which peer is sampled for a
    header request, for the i-th expired request, in which order hash maps
    are traversed or shuffled (per call), how many records a failing store
    write leaves ([None]: it succeeds), and whether a store rollback
    succeeds. *)
Record choices := Choices {
  k_sync : nat;
  k_sample : nat -> nat;
  k_order : nat -> list N -> list N;
  k_put : option nat;
  k_rollback_ok : bool
}.

(** cbfmgr.rs:31-46 (milliseconds). *)
Definition cbf_idle_timeout : N := 60000.
Definition max_cfheaders : N := 2000.
Definition max_cfilters : N := 1000.
Definition default_request_timeout : N := 6000.

(** rescan.rs:15-38 [Rescan]. *)
Record rescan := Rescan {
  r_active : bool;
  r_current : N;
  r_start : N;
  r_end : option N;
  r_cache : fcache bfilter;
  r_watch : gset N;
  r_txs : gmap N (gset N);
  r_requested : gset N;
  r_received : gmap N (bfilter * N * bool)
}.

(** cbfmgr.rs:112-134 [FilterManager], without configuration, clock, random
    number generator and outbox.  [c_filters] is the filter header chain
    above genesis as (filter hash, filter header), [c_store] the same on
    disk.  A peer is represented by its [persistent] flag; the other fields
    are dead code. *)
Record cbf := Cbf {
  c_rescan : rescan;
  c_filters : list (N * N);
  c_store : list (N * N);
  c_peers : gmap N bool;
  c_idle : option N;
  c_processed : option N;
  c_pending : gset N;
  c_inflight : gmap N (N * N * N)
}.

Definition set_rescan r (s : cbf) := Cbf r (c_filters s) (c_store s) (c_peers s) (c_idle s) (c_processed s) (c_pending s) (c_inflight s).
Definition set_filters f st (s : cbf) := Cbf (c_rescan s) f st (c_peers s) (c_idle s) (c_processed s) (c_pending s) (c_inflight s).
Definition set_cpeers p (s : cbf) := Cbf (c_rescan s) (c_filters s) (c_store s) p (c_idle s) (c_processed s) (c_pending s) (c_inflight s).
Definition set_idle i (s : cbf) := Cbf (c_rescan s) (c_filters s) (c_store s) (c_peers s) i (c_processed s) (c_pending s) (c_inflight s).
Definition set_processed p (s : cbf) := Cbf (c_rescan s) (c_filters s) (c_store s) (c_peers s) (c_idle s) p (c_pending s) (c_inflight s).
Definition set_pending p (s : cbf) := Cbf (c_rescan s) (c_filters s) (c_store s) (c_peers s) (c_idle s) (c_processed s) p (c_inflight s).
Definition set_inflight i (s : cbf) := Cbf (c_rescan s) (c_filters s) (c_store s) (c_peers s) (c_idle s) (c_processed s) (c_pending s) i.

Inductive cout :=
| CoGetCFHeaders (peer start stop_hash : N)
| CoGetCFilters (peer start stop_hash : N)
| CoCFHeaders (peer stop_hash prev : N) (hashes : list N)
| CoDisconnect (peer : N)
| CoTimer (d : N)
| CoMisbehaved (peer : N)
| CoError
| CoFilterReceived (from block height : N) (f : bfilter)
| CoFilterProcessed (block height : N) (valid matched cached : bool)
| CoRescanStarted (start : N) (stop : option N)
| CoRescanStopped (height : N)
| CoHeadersSynced (height : N)
| CoBlockMatched (block height : N)
| CoScanned (height : N)
| CoGetBlock (hash : N)
| CoReply (ok : bool).

(** ** Rescan *)

(** The heights [a..=b]. *)
Definition heights (a b : N) : list N := (fun i => a + N.of_nat i) <$> seq 0 (N.to_nat (b + 1 - a)).

(** rescan.rs:52-65 [restart]. *)
Definition r_restart start stop watch (r : rescan) : rescan :=
  Rescan true start start stop (r_cache r) (list_to_set watch) (r_txs r) ∅ (r_received r).
(** rescan.rs:80-82 [reset]. *)
Definition r_reset (r : rescan) : rescan :=
  Rescan (r_active r) (r_current r) (r_start r) (r_end r) (r_cache r) (r_watch r) (r_txs r) ∅ (r_received r).
(** rescan.rs:85-87 [rollback]. *)
Definition r_rollback to (r : rescan) : M rescan :=
  c <-- fc_rollback lenN to (r_cache r) ;;
  Val (Rescan (r_active r) (r_current r) (r_start r) (r_end r) c (r_watch r) (r_txs r) (r_requested r) (r_received r)).
(** rescan.rs:90-102 [received]. *)
Definition r_receive height (f : bfilter) hash (r : rescan) : M (rescan * bool) :=
  if decide (height ∈ r_requested r) then
    '(c, _) <-- fc_push lenN height f (r_cache r) ;;
    Val (Rescan (r_active r) (r_current r) (r_start r) (r_end r) c (r_watch r) (r_txs r)
           (r_requested r ∖ {[height]}) (<[height := (f, hash, false)]> (r_received r)), true)
  else Val (r, false).

(** rescan.rs:145-164 [match_filter]; [None] is an error. *)
Definition match_filter (P : params) (r : rescan) (f : bfilter) (hash : N) : option bool :=
  match (if decide (r_watch r = ∅) then Some false else p_any P f hash (r_watch r)) with
  | None => None
  | Some true => Some true
  | Some false => Some (existsb (fun outs => default false (p_all P f hash outs)) (snd <$> map_to_list (r_txs r)))
  end.

(** rescan.rs:113-133: the loop of [process].  Every round removes an
    element of the queue, so its size is enough fuel. *)
Fixpoint process_loop (P : params) (fuel : nat) (r : rescan) (current : N)
    (recv : gmap N (bfilter * N * bool)) : M (N * gmap N (bfilter * N * bool) * list (N * N) * list cout) :=
  match recv !! current with
  | None => Val (current, recv, [], [])
  | Some (f, hash, cached) =>
      match fuel with
      | O => Panic (PDiverge 113)
      | S fuel =>
          let m := match_filter P r f hash in
          let matched := default false m in
          '(cur, recv', ms, es) <-- process_loop P fuel r (current + 1) (delete current recv) ;;
          Val (cur, recv', (if matched then (current, hash) :: ms else ms),
               CoFilterProcessed hash current (bool_decide (is_Some m)) matched cached :: es)
      end
  end.
(** rescan.rs:107-142 [process]; the number of processed filters is the
    advance of [r_current]. *)
Definition r_process (P : params) (r : rescan) : M (rescan * list (N * N) * list cout) :=
  '(cur, recv, ms, es) <-- process_loop P (size (r_received r)) r (r_current r) (r_received r) ;;
  let stop := bool_decide (r_end r = Some cur) in
  Val (Rescan (r_active r && negb stop) cur (r_start r) (r_end r) (r_cache r) (r_watch r) (r_txs r) (r_requested r) recv,
       ms, if stop then es ++ [CoRescanStopped cur] else es).

(** cbfmgr.rs:968-984 [HeightIterator]. *)
Fixpoint height_ranges (fuel : nat) (start stop step : N) : M (list (N * N)) :=
  if start <=? stop then
    match fuel with
    | O => Panic (PDiverge 971)
    | S fuel =>
        let last := N.min stop (start + step - 1) in
        l <-- height_ranges fuel (last + 1) stop step ;;
        Val ((start, last) :: l)
    end
  else Val [].

(** rescan.rs:199-213: grouping consecutive heights; the list is kept with
    the last range first. *)
Definition add_height (rs : list (N * N)) (h : N) : list (N * N) :=
  match rs with
  | (a, b) :: rs' => if h =? b + 1 then (a, b + 1) :: rs' else (h, h) :: rs
  | [] => [(h, h)]
  end.
Definition group_heights (hs : list N) : list (N * N) := reverse (foldl add_height [] hs).

(** rescan.rs:216-223. *)
Fixpoint limit_ranges (rs : list (N * N)) : M (list (N * N)) :=
  match rs with
  | [] => Val []
  | (a, b) :: rs' =>
      l <-- height_ranges (N.to_nat (b + 1 - a)) a b max_cfilters ;;
      l' <-- limit_ranges rs' ;;
      Val (l ++ l')
  end.

(** rescan.rs:178-187: cached filters of the range are queued. *)
Definition queue_cached (t : tree) (r : rescan) (hs : list N) : gmap N (bfilter * N * bool) :=
  foldl (fun m h => match fc_get (r_cache r) h, tr_at t h with
                    | Some f, Some hash => <[h := (f, hash, true)]> m
                    | _, _ => m
                    end) (r_received r) hs.

(** rescan.rs:169-229 [requests] for the range [a..=b]. *)
Definition r_requests (a b : N) (t : tree) (r : rescan) : M (rescan * list (N * N)) :=
  if b <? a then Val (r, []) else
  let hs := heights a b in
  let recv := queue_cached t r hs in
  let missing := filter (fun h => recv !! h = None /\ h ∉ r_requested r) hs in
  rs <-- limit_ranges (group_heights missing) ;;
  Val (Rescan (r_active r) (r_current r) (r_start r) (r_end r) (r_cache r) (r_watch r) (r_txs r)
         (foldl (fun req rg => list_to_set (heights rg.1 rg.2) ∪ req) (r_requested r) rs) recv, rs).

(** ** Filter header cache, chain/src/filter/cache.rs *)

Definition genesis_entry (P : params) : N * N := (p_genesis P, p_header P (p_genesis P) 0).
Definition f_entries (P : params) (s : cbf) : list (N * N) := genesis_entry P :: c_filters s.
(** cache.rs:169-171 [height]. *)
Definition f_height (s : cbf) : N := lenN (c_filters s).
(** cache.rs:135-139 [get_header]. *)
Definition f_get (P : params) (s : cbf) (h : N) : option (N * N) := f_entries P s !! N.to_nat h.
(** common/src/block/filter.rs:65-72 [get_prev_header]. *)
Definition f_prev (P : params) (s : cbf) (h : N) : option N :=
  if h =? 0 then Some 0 else snd <$> f_get P s (h - 1).
(** cache.rs:164-167 [tip]. *)
Definition f_tip (P : params) (s : cbf) : N * N := ne_last (genesis_entry P) (c_filters s).
(** cache.rs:141-150 [get_headers]; [end - start + 1] wraps (release
    builds; debug builds panic). *)
Definition two64 : N := 2 ^ 64.
Definition f_range (P : params) (s : cbf) (start stop : N) : list (N * N) :=
  take (N.to_nat (N.min (lenN (f_entries P s)) ((stop + two64 - start + 1) mod two64)))
    (drop (N.to_nat (N.min (lenN (f_entries P s)) start)) (f_entries P s)).
(** cache.rs:152-162 [import_headers]: memory first, then the store, which
    returns its own height. *)
Definition f_import (k : choices) (hs : list (N * N)) (s : cbf) : cbf * option N :=
  match k_put k with
  | None => let st := c_store s ++ hs in (set_filters (c_filters s ++ hs) st s, Some (lenN st))
  | Some n => (set_filters (c_filters s ++ hs) (c_store s ++ take n hs) s, None)
  end.
(** cache.rs:173-178 [rollback]: store first, then memory. *)
Definition f_rollback (k : choices) (h : N) (s : cbf) : cbf * bool :=
  if k_rollback_ok k then (set_filters (take (N.to_nat h) (c_filters s)) (take (N.to_nat h) (c_store s)) s, true)
  else (s, false).
(** cache.rs:77-97 [load_with], without the progress callback. *)
Definition f_load (st : list (N * N)) (s : cbf) : cbf := set_filters st st s.
(** cache.rs:105-130 [verify_with], without the progress callback. *)
Fixpoint verify_from (P : params) (prev : N) (l : list (N * N)) : bool :=
  match l with
  | [] => true
  | (hash, header) :: l' => (header =? p_header P hash prev) && verify_from P header l'
  end.
Definition f_verify (P : params) (s : cbf) : bool :=
  match f_entries P s with
  | (_, header) :: _ => (header =? p_header P (p_genesis P) 0) && verify_from P 0 (f_entries P s)
  | [] => false
  end.

(** ** Filter manager *)

(** common/src/collections.rs:84-105 [sample]. *)
Definition sample_peer (n : nat) (peers : gmap N bool) : option (N * bool) :=
  map_to_list peers !! (n mod Nat.max 1 (length (map_to_list peers)))%nat.
(** common/src/collections.rs:108-119 [cycle]: the i-th peer. *)
Definition cycle_peer (order : list N -> list N) (peers : gmap N bool) (i : nat) : option N :=
  let l := order (fst <$> map_to_list peers) in l !! (i mod Nat.max 1 (length l))%nat.

Inductive get_err := InvalidRange | NotConnected.

(** cbfmgr.rs:453-476: one request per range. *)
Fixpoint ask_ranges (order : list N -> list N) (t : tree) (peers : gmap N bool) (i : nat) (rs : list (N * N))
    : list cout * option get_err :=
  match rs with
  | [] => ([], None)
  | (a, b) :: rs' =>
      match cycle_peer order peers i with
      | None => ([], None)
      | Some p =>
          match tr_at t b with
          | None => ([], Some InvalidRange)
          | Some hash => let '(os, e) := ask_ranges order t peers (S i) rs' in (CoGetCFilters p a hash :: os, e)
          end
      end
  end.
(** cbfmgr.rs:438-479 [get_cfilters]. *)
Definition get_cfilters (order : list N -> list N) (a b : N) (t : tree) (s : cbf) : M (cbf * list cout * option get_err) :=
  if decide (c_peers s = ∅) then Val (s, [], Some NotConnected) else
  if b <? a then Val (s, [], Some InvalidRange) else
  assertM (b <=? f_height s) 449
   ('(r, rs) <-- r_requests a b t (c_rescan s) ;;
    let '(os, e) := ask_ranges order t (c_peers s) 0 rs in
    Val (set_rescan r s, os, e)).

(** cbfmgr.rs:901-931 [get_cfheaders]. *)
Definition get_cfheaders (P : params) (k : choices) (now start stop_hash : N) (s : cbf) : cbf * list cout :=
  match c_inflight s !! stop_hash with
  | Some _ => (s, [])
  | None =>
      match sample_peer (k_sync k) (c_peers s) with
      | Some (p, _) => (set_inflight (<[stop_hash := (start, p, now + p_timeout P)]> (c_inflight s)) s, [CoGetCFHeaders p start stop_hash])
      | None => (s, [])
      end
  end.
(** cbfmgr.rs:872-898 [send_getcfheaders]. *)
Definition send_getcfheaders (P : params) (k : choices) (now a b : N) (t : tree) (s : cbf) : M (cbf * list cout) :=
  if b <? a then Val (s, []) else
  match tr_at t (a + N.min max_cfheaders (b - a + 1) - 1) with
  | Some hash => Val (get_cfheaders P k now a hash s)
  | None => Panic (PAssert 892)
  end.

(** cbfmgr.rs:567-600 [sync]; [i] tells calls of [cycle] apart. *)
Definition sync (P : params) (k : choices) (i : nat) (now : N) (t : tree) (s : cbf) : M (cbf * list cout) :=
  assertM (f_height s <=? tr_height t) 571
   (if (match tr_checkpoint t with Some c => tr_height t <? c | None => false end) then Val (s, []) else
    '(s, o) <-- (if f_height s <? tr_height t then send_getcfheaders P k now (f_height s + 1) (tr_height t) t s else Val (s, [])) ;;
    if r_active (c_rescan s) then
      '(s, o', _) <-- get_cfilters (k_order k i) (r_current (c_rescan s)) (f_height s) t s ;;
      Val (s, o ++ o')
    else Val (s, o)).

(** cbfmgr.rs:856-864 [idle]. *)
Definition idle (P : params) (k : choices) (now : N) (t : tree) (s : cbf) : M (cbf * list cout) :=
  if cbf_idle_timeout <=? now - default 0 (c_idle s) then
    '(s, o) <-- sync P k 0 now t s ;;
    Val (set_idle (Some now) s, o ++ [CoTimer cbf_idle_timeout])
  else Val (s, []).

(** cbfmgr.rs:484-535 [rollback]; the flag is [false] on a store error. *)
Definition cbf_rollback (k : choices) (height : N) (s : cbf) : M (cbf * bool) :=
  if f_height s <=? height then Val (s, true) else
  r <-- r_rollback height (c_rescan s) ;;
  let '(s, ok) := f_rollback k height (set_rescan r s) in
  if ok then
    let r := c_rescan s in
    if r_active r && (height + 1 <? r_current r) then
      Val (set_rescan (Rescan (r_active r) (N.max (height + 1) (r_start r)) (r_start r) (r_end r) (r_cache r) (r_watch r)
                        (r_txs r) (r_requested r) (r_received r)) s, true)
    else Val (s, true)
  else Val (s, false).

(** cbfmgr.rs:935-953 [headers_imported]. *)
Definition headers_imported (k : choices) (start stop : N) (t : tree) (s : cbf) : M (cbf * list cout * option get_err) :=
  if r_active (c_rescan s) then
    let a := N.max start (r_current (c_rescan s)) in
    let b := N.min stop (default stop (r_end (c_rescan s))) in
    if b <? a then Val (s, [], None) else get_cfilters (k_order k 1) a b t s
  else Val (s, [], None).

(** cbfmgr.rs:698-705: headers from hashes. *)
Fixpoint chain_headers (P : params) (prev : N) (hashes : list N) : list (N * N) :=
  match hashes with
  | [] => []
  | h :: hs => let header := p_header P h prev in (h, header) :: chain_headers P header hs
  end.

(** cbfmgr.rs:610-722 [received_cfheaders] with its handler, 231-254. *)
Definition received_cfheaders (P : params) (k : choices) (now : N) (t : tree)
    (from ftype stop_hash prev : N) (hashes : list N) (s : cbf) : M (cbf * list cout) :=
  match c_inflight s !! stop_hash with
  | None => Val (s, [])
  | Some _ =>
      let s := set_inflight (delete stop_hash (c_inflight s)) s in
      if negb (ftype =? 0) then Val (s, [CoMisbehaved from]) else
      match tr_get t stop_hash with
      | None => Val (s, [CoMisbehaved from])
      | Some stop =>
          let start := f_height s in
          if stop <=? start then Val (s, []) else
          if negb (prev =? (f_tip P s).2) then Val (set_idle None s, [CoTimer 1000]) else
          if max_cfheaders <? lenN hashes then Val (s, [CoMisbehaved from]) else
          if lenN hashes =? 0 then Val (s, [CoMisbehaved from]) else
          if negb (stop - start =? lenN hashes) then Val (s, [CoMisbehaved from]) else
          match f_import k (chain_headers P prev hashes) s with
          | (s, None) => Val (s, [CoError])
          | (s, Some height) =>
              '(s, o, e) <-- headers_imported k start height t s ;;
              match e with
              | Some _ => Panic (PAssert 707)
              | None =>
                  assertM (height <=? tr_height t) 709
                   (if height =? tr_height t then Val (s, o ++ [CoHeadersSynced height])
                    else '(s, o') <-- sync P k 2 now t s ;; Val (s, o ++ o'))
              end
          end
      end
  end.

(** cbfmgr.rs:725-775 [received_getcfheaders] with its handler, 255-271. *)
Definition received_getcfheaders (P : params) (t : tree) (from ftype start stop_hash : N) (s : cbf) : M (cbf * list cout) :=
  if negb (ftype =? 0) then Val (s, [CoMisbehaved from]) else
  match tr_get t stop_hash with
  | None => Val (s, [])
  | Some stop =>
      match f_range P s start stop with
      | [] => Val (s, [])
      | hs =>
          match f_prev P s start with
          | None => Panic (PAssert 754)
          | Some prev => Val (s, [CoCFHeaders from stop_hash prev (fst <$> hs)])
          end
      end
  end.

(** cbfmgr.rs:274-283: blocks of matching filters are requested once. *)
Fixpoint want_blocks (ms : list (N * N)) (pending : gset N) : gset N * list cout :=
  match ms with
  | [] => (pending, [])
  | (h, hash) :: ms' =>
      if decide (h ∈ pending) then want_blocks ms' pending
      else let '(p, o) := want_blocks ms' ({[h]} ∪ pending) in (p, CoGetBlock hash :: o)
  end.

(** cbfmgr.rs:780-853 [received_cfilter] with its handler, 272-308. *)
Definition received_cfilter (P : params) (now : N) (t : tree) (from ftype hash : N) (f : bfilter) (s : cbf) : M (cbf * list cout) :=
  if negb (ftype =? 0) then Val (s, []) else
  match tr_get t hash with
  | None => Val (s, [])
  | Some height =>
      match f_get P s height with
      | None => Val (s, [])
      | Some (_, header) =>
          match f_prev P s height with
          | None => Panic (PAssert 821)
          | Some prev =>
              if negb (p_header P (p_hash P f) prev =? header) then Val (s, [CoMisbehaved from]) else
              '(r, requested) <-- r_receive height f hash (c_rescan s) ;;
              '(s, ms, es) <--
                (if requested : bool then
                   '(r', ms, es) <-- r_process P r ;;
                   let s' := set_rescan r' s in
                   Val (if r_current r <? r_current r' then set_processed (Some now) s' else s', ms, es)
                 else Val (s, [], [])) ;;
              let '(pending, o) := want_blocks ms (c_pending s) in
              let s := set_pending pending s in
              Val (s, CoFilterReceived from hash height f :: es ++ o ++
                      (if decide (pending = ∅) then [CoScanned (r_current (c_rescan s))] else []))
          end
      end
  end.

(** cbfmgr.rs:538-564 [peer_negotiated]. *)
Definition cbf_negotiated (P : params) (k : choices) (now : N) (t : tree) (addr : N) (outbound filters persistent : bool) (s : cbf)
    : M (cbf * list cout) :=
  if outbound && filters then sync P k 0 now t (set_cpeers (<[addr := persistent]> (c_peers s)) s) else Val (s, []).

(** cbfmgr.rs:326-348: the expired header requests, in some order.  The
    [persistent] flag that is looked at is that of the new peer. *)
Fixpoint expire (P : params) (k : choices) (now : N) (i : nat) (hashes : list N) (s : cbf) : cbf * list cout :=
  match hashes with
  | [] => (s, [])
  | h :: hs =>
      let '(s, o) :=
        match c_inflight s !! h with
        | Some (start, addr, expiry) =>
            if expiry <=? now then
              match sample_peer (k_sample k i) (c_peers s) with
              | Some (a, persistent) =>
                  let drop := negb (a =? addr) && negb persistent in
                  let s := if drop then set_cpeers (delete addr (c_peers s)) s else s in
                  (set_inflight (<[h := (start, a, now + p_timeout P)]> (c_inflight s)) s,
                   (if drop then [CoDisconnect addr] else []) ++ [CoGetCFHeaders a start h])
              | None => (s, [])
              end
            else (s, [])
        | None => (s, [])
        end in
      let '(s, o') := expire P k now (S i) hs s in
      (s, o ++ o')
  end.

(** cbfmgr.rs:318-359 [timer_expired]. *)
Definition cbf_timer (P : params) (k : choices) (now : N) (t : tree) (s : cbf) : M (cbf * list cout) :=
  '(s, o1) <-- idle P k now t s ;;
  let '(s, o2) := expire P k now 0 (k_order k 3 (fst <$> map_to_list (c_inflight s))) s in
  if (default_request_timeout <=? now - default 0 (c_processed s)) && r_active (c_rescan s) then
    let s := set_rescan (r_reset (c_rescan s)) s in
    '(s, o3, _) <-- get_cfilters (k_order k 1) (r_current (c_rescan s)) (f_height s) t s ;;
    Val (s, o1 ++ o2 ++ o3)
  else Val (s, o1 ++ o2).

(** cbfmgr.rs:375-432 [rescan], with the block requests for its matches,
    p2p/src/fsm.rs:728-733.  Only [h - 1] for an excluded end of zero wraps;
    heights are otherwise unbounded. *)
Inductive bound := Unbounded | Included (h : N) | Excluded (h : N).
Definition cbf_rescan (P : params) (k : choices) (t : tree) (from to : bound) (watch : list N) (s : cbf) : M (cbf * list cout) :=
  let start := match from with Unbounded => tr_height t + 1 | Included h => h | Excluded h => h + 1 end in
  let stop := match to with Unbounded => None | Included h => Some h
                          | Excluded h => Some (if h =? 0 then two64 - 1 else h - 1) end in
  let s := set_rescan (r_restart start stop watch (c_rescan s)) s in
  let o := [CoRescanStarted start stop] in
  if decide (r_watch (c_rescan s) = ∅) then Val (s, o) else
  let last := match stop with Some h => N.min h (f_height s) | None => f_height s end in
  if last <? start then Val (s, o) else
  '(s, o', e) <-- get_cfilters (k_order k 0) start last t s ;;
  match e with
  | Some InvalidRange => Panic (PAssert 423)
  | _ =>
      '(r, ms, es) <-- r_process P (c_rescan s) ;;
      Val (set_rescan r s, o ++ o' ++ es ++ (CoGetBlock <$> ms.*2))
  end.

(** cbfmgr.rs:171-315 [received_event] and the public functions. *)
Inductive cbf_op :=
| CInitialize
| CNegotiated (addr : N) (outbound filters persistent : bool)
| CDisconnected (addr : N)
| CBlockProcessed (block height : N)
| CBlockDisconnected (height : N)
| CImported (reverted : list N)
| CTxConfirmed (txid : N)
| CTxReverted (txid : N) (outs : list N)
| CCFHeaders (from ftype stop_hash prev : N) (hashes : list N)
| CGetCFHeaders (from ftype start stop_hash : N)
| CCFilter (from ftype hash : N) (f : bfilter)
| CTimer
| CWatch (scripts : list N)
| CWatchTx (txid : N) (outs : list N)
| CRescan (from to : bound) (watch : list N)
| CRequestFilters (a b : N).

Definition r_set_txs txs (r : rescan) :=
  Rescan (r_active r) (r_current r) (r_start r) (r_end r) (r_cache r) (r_watch r) txs (r_requested r) (r_received r).
Definition r_add_watch w (r : rescan) :=
  Rescan (r_active r) (r_current r) (r_start r) (r_end r) (r_cache r) (list_to_set w ∪ r_watch r) (r_txs r) (r_requested r) (r_received r).

(** The height of the last reverted block ([height - 1] for the genesis
    block cannot happen: it is never reverted). *)
Definition cbf_step (P : params) (k : choices) (now : N) (t : tree) (o : cbf_op) (s : cbf) : M (cbf * list cout) :=
  match o with
  | CInitialize => idle P k now t s
  | CNegotiated addr outbound filters persistent => cbf_negotiated P k now t addr outbound filters persistent s
  | CDisconnected addr => Val (set_cpeers (delete addr (c_peers s)) s, [])
  | CBlockProcessed block height =>
      if decide (height ∈ c_pending s) then
        let pending := c_pending s ∖ {[height]} in
        Val (set_pending pending s,
             [CoBlockMatched block height;
              CoScanned (if decide (pending = ∅) then N.max (r_current (c_rescan s)) height else height)])
      else Val (s, [])
  | CBlockDisconnected height => Val (set_pending (c_pending s ∖ {[height]}) s, [])
  | CImported reverted =>
      '(s, o) <-- match last reverted with
                  | Some h => '(s, ok) <-- cbf_rollback k (h - 1) s ;; Val (s, if ok : bool then [] else [CoError])
                  | None => Val (s, [])
                  end ;;
      '(s, o') <-- sync P k 0 now t s ;;
      Val (s, o ++ o')
  | CTxConfirmed txid => Val (set_rescan (r_set_txs (delete txid (r_txs (c_rescan s))) (c_rescan s)) s, [])
  | CTxReverted txid outs | CWatchTx txid outs =>
      Val (set_rescan (r_set_txs (<[txid := list_to_set outs]> (r_txs (c_rescan s))) (c_rescan s)) s, [])
  | CCFHeaders from ftype stop_hash prev hashes => received_cfheaders P k now t from ftype stop_hash prev hashes s
  | CGetCFHeaders from ftype start stop_hash => received_getcfheaders P t from ftype start stop_hash s
  | CCFilter from ftype hash f => received_cfilter P now t from ftype hash f s
  | CTimer => cbf_timer P k now t s
  | CWatch scripts => Val (set_rescan (r_add_watch scripts (c_rescan s)) s, [])
  | CRescan from to watch => cbf_rescan P k t from to watch s
  | CRequestFilters a b =>
      '(s, o, e) <-- get_cfilters (k_order k 0) a b t s ;;
      Val (s, o ++ [CoReply (bool_decide (e = None))])
  end.

(** cbfmgr.rs:147-163 [new] over a loaded filter header store, rescan.rs:42-49. *)
Definition cbf0 (capacity : N) (st : list (N * N)) : cbf :=
  Cbf (Rescan false 0 0 None (fc_new capacity) ∅ ∅ ∅ ∅) st st ∅ None None ∅ ∅.
