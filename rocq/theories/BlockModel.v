(** Model of the block header cache, chain/src/block/cache.rs. *)
From Verif Require Import Base PowModel.
Open Scope N_scope.

(** chain/src/block/cache.rs:34-38 [CachedBlock]. *)
Record cblock := mkCB { cb_height : N; cb_header : header }.
Global Instance cblock_eq_dec : EqDecision cblock.
Proof. solve_decision. Defined.

(** common/src/block/tree.rs:19-63 [Error].  [Store] errors carry no payload. *)
Inductive err :=
| EInvalidPow
| EInvalidTarget (own expected : N)
| EInvalidHash (hash height : N)
| EInvalidHeight (height : N)
| EInvalidTime (time : N) (o : comparison)
| EDuplicate (hash : N)
| EMissing (hash : N)
| EAborted (e : err) (index : nat) (height : N)
| EGenesisMismatch
| EStore
| EInterrupted.

(** common/src/block/tree.rs:80-101 [ImportResult]. *)
Inductive import_result :=
| TipChanged (hd : header) (hash height : N)
    (reverted connected : list (N * header))
| TipUnchanged.

(** The [Store] trait (common/src/block/store.rs) as BlockCache uses it: the
    genesis header and the headers after it.  Both implementations are related
    to this view in StoreModel.v/StoreProofs.v. *)
Record store := mkStore { s_genesis : header; s_tail : list header }.

(** chain/src/block/cache.rs:72-81 [BlockCache].  [chain] is the [NonEmpty]
    pair [c_head], [c_tail].  [chainwork] is an unbounded number: 256-bit
    overflow of the total work is out of scope. *)
Record cache := mkCache {
  c_head : cblock;
  c_tail : list cblock;
  c_index : gmap N N;         (* headers: hash -> height *)
  c_orphans : gmap N header;
  c_checkpoints : gmap N N;
  c_params : params;
  c_chainwork : N;
  c_store : store;
}.

Definition c_chain (c : cache) : list cblock := c_head c :: c_tail c.
Definition c_last (c : cache) : cblock := ne_last (c_head c) (c_tail c).

(** chain/src/block/cache.rs:62-67 [Candidate]. *)
Record candidate := mkCand {
  cd_tip : N;
  cd_headers : list header;
  cd_fork_height : N;
  cd_fork_header : header;
}.

(** Environment choices made while one header is imported: the iteration order
    of the [orphans] HashMap (cache.rs:375), whether the store's [rollback]
    call succeeds (cache.rs:524), and whether its [put] call succeeds
    ([None]) or fails after writing [k] whole headers ([Some k])
    (cache.rs:540,638). *)
Record choice := mkChoice {
  ch_perm : list N -> list N;
  ch_rollback_ok : bool;
  ch_put : option nat;
}.

(** common/src/block/time.rs:11-26 constants. *)
Definition MEDIAN_TIME_SPAN : N := 11.
Definition MAX_FUTURE_BLOCK_TIME : N := 7200.

Section Model.
(** SHA256d of the serialised header ([BlockHeader::block_hash]), and the
    genesis hash of each network (common/src/network.rs). *)
Context (hash_of : header -> N) (net_genesis : network -> N).

Definition cb_hash (b : cblock) : N := hash_of (cb_header b).

(** chain/src/block/cache.rs:724-726 [height]. *)
Definition c_height (c : cache) : N := cb_height (c_last c).

(** chain/src/block/cache.rs:690-692 [tip]. *)
Definition c_tip (c : cache) : N * header := (cb_hash (c_last c), cb_header (c_last c)).

(** chain/src/block/cache.rs:700-702 [genesis]. *)
Definition c_genesis (c : cache) : header := cb_header (c_head c).

(** chain/src/block/cache.rs:663-665 [get_block_by_height]. *)
Definition get_by_height (chain : list cblock) (h : N) : option header :=
  cb_header <$> chain !! N.to_nat h.
Definition get_block_by_height (c : cache) (h : N) : option header :=
  get_by_height (c_chain c) h.

(** chain/src/block/cache.rs:655-660 [get_block]. *)
Definition get_block (c : cache) (hash : N) : option (N * header) :=
  h ← c_index c !! hash;
  b ← c_chain c !! N.to_nat h;
  Some (cb_height b, cb_header b).

(** chain/src/block/cache.rs:746-753 [is_known], [contains]. *)
Definition contains (c : cache) (hash : N) : bool := bool_decide (is_Some (c_index c !! hash)).
Definition in_orphans (c : cache) (hash : N) : bool := bool_decide (is_Some (c_orphans c !! hash)).
Definition is_known (c : cache) (hash : N) : bool := contains c hash || in_orphans c hash.

(** chain/src/block/cache.rs:729-738 [last_checkpoint]: the greatest
    checkpoint height not above the chain height, 0 if there is none. *)
Definition last_checkpoint_of (cps : gmap N N) (height : N) : N :=
  foldr (fun k acc => if k <=? height then N.max k acc else acc) 0
    ((map_to_list cps).*1).
Definition last_checkpoint (c : cache) : N :=
  last_checkpoint_of (c_checkpoints c) (c_height c).

(** chain/src/block/cache.rs:705-707 [iter] and common/src/block/iter.rs:
    (height, header) pairs in ascending order; the iterator itself is modelled
    in IterModel.v. *)
Definition iter_chain (chain : list cblock) : list (N * header) :=
  imap (fun i b => (N.of_nat i, cb_header b)) chain.
Definition c_iter (c : cache) : list (N * header) := iter_chain (c_chain c).

(** chain/src/block/cache.rs:180-190 [range] (private): asserts start <= end. *)
Definition range_blocks (chain : list cblock) (start stop : N) : M (list cblock) :=
  assertM (start <=? stop) 181
    (Val (take (N.to_nat (stop - start)) (drop (N.to_nat start) chain))).

(** chain/src/block/cache.rs:198-215 [median_time_past]: the [times] array is
    zero-filled, so heights missing from the active chain count as time 0. *)
Definition median_time_past (chain : list cblock) (height : N) : M N :=
  assertM (negb (height =? 0)) 199 (
    let start := height - MEDIAN_TIME_SPAN in
    blks <-- range_blocks chain start height ;;
    let n := N.to_nat (height - start) in
    let ts := map (fun b => h_time (cb_header b)) blks in
    let available := sortN (ts ++ replicate (n - length ts) 0) in
    match available !! (length available / 2)%nat with
    | Some t => Val t
    | None => Panic (PIndex 214)
    end).

(** chain/src/block/cache.rs:498-511 [next_min_difficulty_target]. *)
Definition next_min_difficulty_target (ps : params) (chain : list cblock) : N :=
  let limit := pow_limit_bits (p_network ps) in
  match List.find (fun '(h, hd) =>
          negb (h_bits hd =? limit) || (h mod adj_interval ps =? 0))
        (rev (iter_chain chain)) with
  | Some (_, hd) => h_bits hd
  | None => limit
  end.

(** chain/src/block/cache.rs:448-458: the compact target required of [hd] as
    the block following [tip].  [wadd32]/[wmul32]: release-mode [u32]. *)
Definition required_bits (ps : params) (chain : list cblock) (g : header)
    (tip : cblock) (hd : header) : M N :=
  let th := cb_header tip in
  if p_allow_min ps && ((p_spacing ps =? 0) || (adj_interval ps =? 0))
  then Panic (PDivZero 449)
  else if p_allow_min ps && negb ((cb_height tip + 1) mod adj_interval ps =? 0)
  then
    if wadd32 (h_time th) (wmul32 (wrap32 (p_spacing ps)) 2) <? h_time hd
    then Val (pow_limit_bits (p_network ps))
    else Val (next_min_difficulty_target ps chain)
  else next_difficulty_target ps (get_by_height chain) g
         (cb_height tip) (h_time th) (h_target th).

(** chain/src/block/cache.rs:440-495 [validate].  [None] is [Ok(())].  Reads
    the active chain only through [chain]; [now] is [clock.block_time()]. *)
Definition validate (ps : params) (cps : gmap N N) (chain : list cblock) (g : header)
    (tip : cblock) (hd : header) (now : N) : M (option err) :=
  assertM (cb_hash tip =? h_prev hd) 446 (
    bits <-- required_bits ps chain g tip hd ;;
    let target := target_of_bits bits in
    match validate_pow (hash_of hd) (h_target hd) target with
    | Some BadPow => Val (Some EInvalidPow)
    | Some BadTarget => Val (Some (EInvalidTarget (h_target hd) target))
    | None =>
        let height := cb_height tip + 1 in
        let cp_ok :=
          match cps !! height with
          | Some cp => hash_of hd =? cp
          | None => true
          end in
        if negb cp_ok then Val (Some (EInvalidHash (hash_of hd) height)) else
        mtp <-- median_time_past chain height ;;
        if h_time hd <=? mtp then Val (Some (EInvalidTime (h_time hd) Lt))
        else if wadd32 now MAX_FUTURE_BLOCK_TIME <? h_time hd
        then Val (Some (EInvalidTime (h_time hd) Gt))
        else Val None
    end).

Definition c_validate (c : cache) := validate (c_params c) (c_checkpoints c) (c_chain c) (c_genesis c).

(** chain/src/block/cache.rs:403-406: the [while let] loop of [fork], walking
    parent links inside [orphans].  The fuel is one more than the number of
    orphans: a walk that long repeats an orphan and so never ends. *)
Fixpoint walk (fuel : nat) (orphans : gmap N header) (cursor : N) (acc : list header)
    : M (N * list header) :=
  match fuel with
  | O => Panic (PDiverge 403)
  | S fuel' =>
      match orphans !! cursor with
      | None => Val (cursor, acc)
      | Some hd => walk fuel' orphans (h_prev hd) (hd :: acc)
      end
  end.

(** chain/src/block/cache.rs:392-419 [fork]. *)
Definition fork (c : cache) (tip : N) : M (option candidate) :=
  assertM (negb (contains c tip)) 398 (
    '(cursor, headers) <-- walk (S (size (c_orphans c))) (c_orphans c) tip [] ;;
    match get_block c cursor with
    | Some (fh, fhd) =>
        match headers with
        | [] => Panic (PAssert 409)
        | _ => Val (Some (mkCand tip headers fh fhd))
        end
    | None => Val None
    end).

(** chain/src/block/cache.rs:422-437 [validate_branch]. *)
Fixpoint validate_headers (c : cache) (tip : cblock) (hds : list header) (now : N)
    : M (option err) :=
  match hds with
  | [] => Val None
  | hd :: hds' =>
      r <-- c_validate c tip hd now ;;
      match r with
      | Some e => Val (Some e)
      | None => validate_headers c (mkCB (cb_height tip + 1) hd) hds' now
      end
  end.
Definition validate_branch (c : cache) (cd : candidate) (now : N) : M (option err) :=
  validate_headers c (mkCB (cd_fork_height cd) (cd_fork_header cd)) (cd_headers cd) now.

(** chain/src/block/cache.rs:372-383 [chain_candidates], over the orphan
    hashes in HashMap iteration order. *)
Fixpoint candidates_of (c : cache) (tips : list N) (now : N) : M (list candidate) :=
  match tips with
  | [] => Val []
  | t :: tips' =>
      r <-- fork c t ;;
      match r with
      | None => candidates_of c tips' now
      | Some cd =>
          v <-- validate_branch c cd now ;;
          rest <-- candidates_of c tips' now ;;
          match v with
          | None => Val (cd :: rest)
          | Some _ => Val rest
          end
      end
  end.
Definition chain_candidates (c : cache) (ch : choice) (now : N) : M (list candidate) :=
  candidates_of c (ch_perm ch ((map_to_list (c_orphans c)).*1)) now.

(** common/src/block/tree.rs:109-115 [Branch::work] (unbounded sum). *)
Definition branch_work (hds : list header) : N :=
  foldr (fun h acc => h_work h + acc) 0 hds.

(** chain/src/block/cache.rs:556-558 [chain_suffix]. *)
Definition chain_suffix (c : cache) (height : N) : M (list cblock) :=
  if (N.to_nat height <=? length (c_tail c))%nat
  then Val (drop (N.to_nat height) (c_tail c)) else Panic (PIndex 557).

(** chain/src/block/cache.rs:289-322: best branch, its hash and added work. *)
Record selection := mkSel { sel_branch : option candidate; sel_hash : N; sel_work : N }.

(** chain/src/block/cache.rs:293-322: one iteration of the selection loop. *)
Definition select_step (c : cache) (s : selection) (cd : candidate) : M selection :=
  suffix <-- chain_suffix c (cd_fork_height cd) ;;
  let candidate_work := branch_work (cd_headers cd) in
  let lost_work := branch_work (map cb_header suffix) in
  if candidate_work <? lost_work then Val s else
  let added := candidate_work - lost_work in
  if sel_work s <? added then Val (mkSel (Some cd) (cd_tip cd) added)
  else if bool_decide (p_network (c_params c) ≠ Bitcoin) then
    if added =? sel_work s then
      if cd_tip cd <? sel_hash s then Val (mkSel (Some cd) (cd_tip cd) (sel_work s))
      else Val s
    else Val s
  else Val s.

Fixpoint select (c : cache) (s : selection) (cds : list candidate) : M selection :=
  match cds with
  | [] => Val s
  | cd :: cds' => s' <-- select_step c s cd ;; select c s' cds'
  end.

(** chain/src/block/cache.rs:324-336: drop orphans that are on the active chain. *)
Definition prune_orphans (c : cache) : cache :=
  mkCache (c_head c) (c_tail c) (c_index c)
    (filter (fun kv => contains c kv.1 = false) (c_orphans c))
    (c_checkpoints c) (c_params c) (c_chainwork c) (c_store c).

Definition with_store (c : cache) (tl : list header) : cache :=
  mkCache (c_head c) (c_tail c) (c_index c) (c_orphans c) (c_checkpoints c)
    (c_params c) (c_chainwork c) (mkStore (s_genesis (c_store c)) tl).

(** chain/src/block/cache.rs:517-523: the drain loop of [rollback]. *)
Definition drop_block (c : cache) (b : cblock) : cache :=
  mkCache (c_head c) (c_tail c) (delete (cb_hash b) (c_index c))
    (<[cb_hash b := cb_header b]> (c_orphans c))
    (c_checkpoints c) (c_params c) (c_chainwork c - h_work (cb_header b)) (c_store c).

(** chain/src/block/cache.rs:514-527 [rollback]; [ok] is the outcome of the
    store call.  A failing store call leaves the in-memory chain rolled back. *)
Definition rollback (c : cache) (height : N) (ok : bool)
    : M (cache * result (list (N * header)) err) :=
  let n := N.to_nat height in
  if negb (n <=? length (c_tail c))%nat then Panic (PIndex 517) else
  let drained := drop n (c_tail c) in
  let stale := imap (fun i b => (height + 1 + N.of_nat i, cb_header b)) drained in
  let c1 := mkCache (c_head c) (take n (c_tail c)) (c_index c) (c_orphans c)
              (c_checkpoints c) (c_params c) (c_chainwork c) (c_store c) in
  let c2 := foldl drop_block c1 drained in
  if ok then Val (with_store c2 (take n (s_tail (c_store c))), Ok stale)
  else Val (c2, Err EStore).

(** chain/src/block/cache.rs:546-553 [extend_chain]. *)
Definition extend_chain (c : cache) (height hash : N) (hd : header) : M cache :=
  assertM (h_prev hd =? cb_hash (c_last c)) 547 (
    Val (mkCache (c_head c) (c_tail c ++ [mkCB height hd])
      (<[hash := height]> (c_index c)) (delete hash (c_orphans c))
      (c_checkpoints c) (c_params c) (c_chainwork c + h_work hd) (c_store c))).

Fixpoint extend_all (c : cache) (height : N) (hds : list header) : M cache :=
  match hds with
  | [] => Val c
  | hd :: hds' =>
      c' <-- extend_chain c height (hash_of hd) hd ;;
      extend_all c' (height + 1) hds'
  end.

(** Store [put] (common/src/block/store.rs): appends all headers, or fails
    after [k] of them. *)
Definition store_put (c : cache) (put : option nat) (hds : list header)
    : cache * bool :=
  match put with
  | None => (with_store c (s_tail (c_store c) ++ hds), true)
  | Some k => (with_store c (s_tail (c_store c) ++ take k hds), false)
  end.

(** chain/src/block/cache.rs:530-543 [switch_to_fork]. *)
Definition switch_to_fork (c : cache) (cd : candidate) (ch : choice)
    : M (cache * result (list (N * header)) err) :=
  '(c1, r) <-- rollback c (cd_fork_height cd) (ch_rollback_ok ch) ;;
  match r with
  | Err e => Val (c1, Err e)
  | Ok stale =>
      c2 <-- extend_all c1 (cd_fork_height cd + 1) (cd_headers cd) ;;
      let '(c3, ok) := store_put c2 (ch_put ch) (cd_headers cd) in
      if ok then Val (c3, Ok stale) else Val (c3, Err EStore)
  end.

Definition with_orphan (c : cache) (hash : N) (hd : header) : cache :=
  mkCache (c_head c) (c_tail c) (c_index c) (<[hash := hd]> (c_orphans c))
    (c_checkpoints c) (c_params c) (c_chainwork c) (c_store c).

(** chain/src/block/cache.rs:242-267: the checks made before a header enters
    the orphan set; [None] means it may.  [validate_pow] is called with the
    header's own target. *)
Definition admission (c : cache) (hd : header) : option err :=
  if negb (pow_value (hash_of hd) <=? h_target hd) then Some EInvalidPow
  else if p_pow_limit (c_params c) <? h_target hd
  then Some (EInvalidTarget (h_target hd) (p_pow_limit (c_params c)))
  else match c_index c !! h_prev hd with
       | Some h => if h <? last_checkpoint c then Some (EInvalidHeight (h + 1)) else None
       | None => None
       end.

(** chain/src/block/cache.rs:338-368: activate the chosen branch and build the
    result. *)
Definition activate (c : cache) (cd : candidate) (ch : choice)
    : M (cache * result import_result err) :=
  '(c1, r) <-- switch_to_fork c cd ch ;;
  match r with
  | Err e => Val (c1, Err e)
  | Ok reverted =>
      let height := c_height c1 in
      match List.last (map Some (cd_headers cd)) None with
      | None => Panic (PAssert 346)
      | Some hd =>
          let start := cd_fork_height cd + 1 in
          let stop := height + 1 in
          assertM (start <? stop) 350 (
            blks <-- range_blocks (c_chain c1) start stop ;;
            let connected := map (fun b => (cb_height b, cb_header b)) blks in
            match connected with
            | [] => Panic (PAssert 357)
            | _ => Val (c1, Ok (TipChanged hd (cd_tip cd) height reverted connected))
            end)
      end
  end.

(** chain/src/block/cache.rs:219-369 [import_block]. *)
Definition import_block (c : cache) (hd : header) (now : N) (ch : choice)
    : M (cache * result import_result err) :=
  let hash := hash_of hd in
  let tip := c_last c in
  if is_known c hash then Val (c, Err (EDuplicate hash)) else
  v <-- (if h_prev hd =? cb_hash tip then c_validate c tip hd now else Val None) ;;
  match v with
  | Some e => Val (c, Err e)
  | None =>
      match admission c hd with
      | Some e => Val (c, Err e)
      | None =>
          let c1 := with_orphan c hash hd in
          if negb (in_orphans c1 (h_prev hd)) && negb (contains c1 (h_prev hd))
          then Val (c1, Err (EMissing (h_prev hd)))
          else
            cds <-- chain_candidates c1 ch now ;;
            match cds with
            | [] => Val (c1, Ok TipUnchanged)
            | _ =>
                s <-- select c1 (mkSel None (cb_hash tip) 0) cds ;;
                let c2 := prune_orphans c1 in
                match sel_branch s with
                | Some cd => activate c2 cd ch
                | None => Val (c2, Ok TipUnchanged)
                end
            end
      end
  end.

(** Lexicographic order of the [(Height, BlockHash)] keys, cache.rs:585. *)
Definition cmp_hh (a b : N * N) : comparison :=
  match N.compare a.1 b.1 with Eq => N.compare a.2 b.2 | o => o end.

(** chain/src/block/cache.rs:568-573: the local variables of [import_blocks]. *)
Record batch := mkBatch {
  b_seen : gset N;
  b_reverted : list ((N * N) * header);  (* BTreeMap, sorted by key *)
  b_connected : list (N * header);       (* BTreeMap, sorted by key *)
  b_height : N;
  b_hash : N;
  b_header : header;
}.

(** chain/src/block/cache.rs:584-590. *)
Definition batch_add (b : batch) (hd : header) (hash height : N)
    (r cn : list (N * header)) : batch :=
  mkBatch
    (b_seen b ∪ list_to_set (map (fun p => hash_of p.2) cn))
    (foldl (fun m p => bt_insert cmp_hh (p.1, hash_of p.2) p.2 m) (b_reverted b) r)
    (foldl (fun m p => bt_insert N.compare p.1 p.2 m) (b_connected b) cn)
    height hash hd.

(** chain/src/block/cache.rs:599-621: the final result. *)
Definition batch_finish (c : cache) (b : batch) : M (result import_result err) :=
  match b_connected b with
  | [] => Val (Ok TipUnchanged)
  | _ =>
      let reverted := List.filter (fun kv =>
        negb (bool_decide (kv.1.2 ∈ b_seen b)) && negb (contains c kv.1.2)) (b_reverted b) in
      let connected := List.filter (fun kv => contains c (hash_of kv.2)) (b_connected b) in
      match connected with
      | [] => Panic (PAssert 615)
      | _ => Val (Ok (TipChanged (b_header b) (b_hash b) (b_height b)
                (map (fun kv => (kv.1.1, kv.2)) (rev reverted)) connected))
      end
  end.

(** chain/src/block/cache.rs:575-597: the import loop. *)
Fixpoint import_loop (c : cache) (b : batch) (i : nat) (hds : list (header * choice))
    (now : N) : M (cache * result import_result err) :=
  match hds with
  | [] => r <-- batch_finish c b ;; Val (c, r)
  | (hd, ch) :: hds' =>
      '(c', r) <-- import_block c hd now ch ;;
      match r with
      | Ok (TipChanged h hash height rv cn) =>
          import_loop c' (batch_add b h hash height rv cn) (S i) hds' now
      | Ok TipUnchanged => import_loop c' b (S i) hds' now
      | Err (EDuplicate _) => import_loop c' b (S i) hds' now
      | Err (EMissing _) => import_loop c' b (S i) hds' now
      | Err e => Val (c', Err (EAborted e i (c_height c')))
      end
  end.

(** chain/src/block/cache.rs:563-622 [import_blocks]; each header is paired
    with the environment choices made while it is imported. *)
Definition import_blocks (c : cache) (hds : list (header * choice)) (now : N)
    : M (cache * result import_result err) :=
  import_loop c (mkBatch ∅ [] [] (c_height c) (cb_hash (c_last c)) (cb_header (c_last c)))
    0 hds now.

(** chain/src/block/cache.rs:625-650 [extend_tip]. *)
Definition extend_tip (c : cache) (hd : header) (now : N) (ch : choice)
    : M (cache * result import_result err) :=
  let tip := c_last c in
  if h_prev hd =? cb_hash tip then
    let height := cb_height tip + 1 in
    v <-- c_validate c tip hd now ;;
    match v with
    | Some e => Val (c, Err e)
    | None =>
        c1 <-- extend_chain c height (hash_of hd) hd ;;
        let '(c2, ok) := store_put c1 (ch_put ch) [hd] in
        if ok then Val (c2, Ok (TipChanged hd (hash_of hd) height [] [(height, hd)]))
        else Val (c2, Err EStore)
    end
  else Val (c, Ok TipUnchanged).

(** chain/src/block/cache.rs:85-115 [new]; a repeated checkpoint height keeps
    the last hash, as [BTreeMap]'s [collect] does. *)
Definition new_cache (s : store) (ps : params) (cps : list (N * N)) : cache :=
  let g := s_genesis s in
  mkCache (mkCB 0 g) [] {[ hash_of g := 0 ]} ∅
    (foldl (fun m kv => <[kv.1 := kv.2]> m) ∅ cps) ps (h_work g) s.

(** chain/src/block/cache.rs:138-147: the loading loop.  [progress] returns
    [true] to interrupt. *)
Fixpoint load_loop (c : cache) (progress : N -> bool) (height : N) (hds : list header)
    : result cache err :=
  match hds with
  | [] => Ok c
  | hd :: hds' =>
      let c' := mkCache (c_head c) (c_tail c ++ [mkCB height hd]) (c_index c) (c_orphans c)
                  (c_checkpoints c) (c_params c) (c_chainwork c + h_work hd) (c_store c) in
      if progress height then Err EInterrupted
      else load_loop c' progress (height + 1) hds'
  end.

(** chain/src/block/cache.rs:162-165: building the header index. *)
Definition build_index (c : cache) : gmap N N :=
  <[cb_hash (c_last c) := c_height c]>
    (foldl (fun m b => <[h_prev (cb_header b) := cb_height b - 1]> m)
       (c_index c) (c_tail c)).

(** chain/src/block/cache.rs:134-172 [load_with]. *)
Definition load_with (c : cache) (progress : N -> bool) : M (result cache err) :=
  match load_loop c progress 1 (s_tail (c_store c)) with
  | Err e => Val (Err e)
  | Ok c1 =>
      let mismatch :=
        match c_tail c1 with
        | [] => false
        | b :: _ =>
            negb (hash_of (s_genesis (c_store c1)) =? h_prev (cb_header b))
            || negb (net_genesis (p_network (c_params c1)) =? hash_of (s_genesis (c_store c1)))
        end in
      if mismatch then Val (Err EGenesisMismatch) else
      let c2 := mkCache (c_head c1) (c_tail c1) (build_index c1) (c_orphans c1)
                  (c_checkpoints c1) (c_params c1) (c_chainwork c1) (c_store c1) in
      let len := S (length (s_tail (c_store c2))) in
      assertM (len =? length (c_chain c2))%nat 168 (
        assertM (len =? size (c_index c2))%nat 169 (Val (Ok c2)))
  end.

(** chain/src/block/cache.rs:119-125 [from]. *)
Definition from_store (s : store) (ps : params) (cps : list (N * N)) : M (result cache err) :=
  load_with (new_cache s ps cps) (fun _ => false).

(** chain/src/block/cache.rs:668-687 [find_branch]. *)
Definition find_branch (c : cache) (to : N) : M (option (N * list header)) :=
  match get_block c to with
  | Some (h, hd) => Val (Some (h, [hd]))
  | None =>
      r <-- fork c to ;;
      match r with
      | Some cd => Val (Some (cd_fork_height cd, cd_fork_header cd :: cd_headers cd))
      | None => Val None
      end
  end.

(** chain/src/block/cache.rs:765-799 [locate_headers].  Heights are [u64] in
    the code; here unbounded. *)
Definition locate_headers (c : cache) (locators : list N) (stop_hash : N) (max_headers : N)
    : M (list header) :=
  match locators with
  | [] =>
      match get_block c stop_hash with
      | Some (_, hd) => Val [hd]
      | None => Val []
      end
  | _ =>
      start <-- match List.find (contains c) locators with
                | Some h =>
                    match get_block c h with
                    | Some (height, _) => Val height
                    | None => Panic (PAssert 781)
                    end
                | None => Val 0
                end ;;
      let start := start + 1 in
      let stop := match get_block c stop_hash with Some (h, _) => h | None => c_height c end in
      let stop := N.min (start + max_headers) (stop + 1) in
      if stop <? start then Val []
      else blks <-- range_blocks (c_chain c) start stop ;; Val (map cb_header blks)
  end.

(** common/src/block.rs:41-56 [locators_indexes].  [count] is [indexes.len()].
    [step] is a [u64]: doubling it past 2^64 is an overflow.  The fuel covers
    8 unit steps and one halving step per bit of [from]. *)
Fixpoint locators_loop (fuel : nat) (from step : N) (count : nat) : M (list N) :=
  match fuel with
  | O => Panic (PDiverge 45)
  | S fuel' =>
      if from =? 0 then Val [0]
      else
        let step := if (8 <=? count)%nat then step * 2 else step in
        if 2 ^ 64 <=? step then Panic (POverflow 48) else
        rest <-- locators_loop fuel' (from - step) step (S count) ;;
        Val (from :: rest)
  end.
Definition locators_indexes (from : N) : M (list N) :=
  locators_loop (N.size_nat from + 10) from 1 0.

(** chain/src/block/cache.rs:812-821: the loop of [locator_hashes]. *)
Fixpoint locator_loop (c : cache) (cp : N) (idx : list N) : list N :=
  match idx with
  | [] => []
  | h :: idx' =>
      if h <? cp then []
      else match c_chain c !! N.to_nat h with
           | Some b => cb_hash b :: locator_loop c cp idx'
           | None => locator_loop c cp idx'
           end
  end.

(** chain/src/block/cache.rs:805-823 [locator_hashes]. *)
Definition locator_hashes (c : cache) (from : N) : M (list N) :=
  assertM (from <=? c_height c) 808 (
    idx <-- locators_indexes from ;;
    Val (locator_loop c (last_checkpoint c) idx)).

(** Operations of the [BlockTree] trait (common/src/block/tree.rs:119-133). *)
Inductive op :=
| OImport (hds : list (header * choice)) (now : N)
| OExtend (hd : header) (now : N) (ch : choice).

Definition step (c : cache) (o : op) : M (cache * result import_result err) :=
  match o with
  | OImport hds now => import_blocks c hds now
  | OExtend hd now ch => extend_tip c hd now ch
  end.

(** A run of operations; the outputs in order. *)
Fixpoint run (c : cache) (os : list op) : M (cache * list (result import_result err)) :=
  match os with
  | [] => Val (c, [])
  | o :: os' =>
      '(c1, r) <-- step c o ;;
      '(c2, rs) <-- run c1 os' ;;
      Val (c2, r :: rs)
  end.
End Model.
