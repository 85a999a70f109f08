(** Vocabulary for the compact filter properties. *)
From Coq Require Import Sorting.Sorted.
From Verif Require Import Base UtilModel CbfModel.
Open Scope N_scope.

(** ** Histories *)

(** One input: the choices made by the environment, the time, the block tree
    at this moment and the operation. *)
Record input := Input { i_k : choices; i_now : N; i_tree : tree; i_op : cbf_op }.
Definition step_on (P : params) (i : input) (s : cbf) : M (cbf * list cout) :=
  cbf_step P (i_k i) (i_now i) (i_tree i) (i_op i) s.
Fixpoint cbf_run (P : params) (ins : list input) (s : cbf) : M (cbf * list (list cout)) :=
  match ins with
  | [] => Val (s, [])
  | i :: ins' =>
      '(s, x) <-- step_on P i s ;;
      '(s, xs) <-- cbf_run P ins' s ;;
      Val (s, x :: xs)
  end.
(** A history of a manager started over the stored filter headers [st]. *)
Definition cbf_reach (P : params) (cap : N) (st : list (N * N)) (ins : list input) (s : cbf) (outs : list (list cout)) : Prop :=
  cbf_run P ins (cbf0 cap st) = Val (s, outs).

(** The block header chain changes from [old] to [new] and the heights in
    [reverted] are reported, tip first. *)
Definition reorganises (old new : tree) (reverted : list N) : Prop :=
  tr_genesis new = tr_genesis old /\
  exists n added, (n <= length (tr_chain old))%nat /\ tr_chain new = take n (tr_chain old) ++ added /\
    reverted = N.of_nat <$> reverse (seq (S n) (length (tr_chain old) - n)).
(** The chain changes only as it is reported to the manager. *)
Fixpoint faithful (old : tree) (ins : list input) : Prop :=
  match ins with
  | [] => True
  | i :: ins' =>
      match i_op i with
      | CImported reverted => reorganises old (i_tree i) reverted
      | _ => i_tree i = old
      end /\ faithful (i_tree i) ins'
  end.
(** Writes to the filter header store succeed. *)
Definition io_ok (i : input) : Prop := k_put (i_k i) = None /\ k_rollback_ok (i_k i) = true.

(** The genesis block is never reported as reverted. *)
Definition keeps_genesis (i : input) : Prop :=
  match i_op i with CImported reverted => last reverted <> Some 0 | _ => True end.

(** ** Filter headers *)

(** The entries (filter hash, filter header) form a chain from genesis. *)
Definition chained (P : params) (l : list (N * N)) : Prop :=
  head l = Some (p_genesis P, p_header P (p_genesis P) 0) /\
  forall i e e', l !! i = Some e -> l !! S i = Some e' -> e'.2 = p_header P e'.1 e.2.
(** The filter commits to the filter header held for this height. *)
Definition authentic (P : params) (s : cbf) (h : N) (f : bfilter) : Prop :=
  exists hash header, f_entries P s !! N.to_nat h = Some (hash, header) /\
    ((h = 0 /\ header = p_header P (p_hash P f) 0) \/
     exists e, 0 < h /\ f_entries P s !! N.to_nat (h - 1) = Some e /\ header = p_header P (p_hash P f) e.2).

Definition asks_headers (stop_hash : N) (o : cout) : bool :=
  match o with CoGetCFHeaders _ _ h => h =? stop_hash | _ => false end.
Definition count {A} (f : A -> bool) (l : list A) : nat := length (List.filter f l).
(** How often a [cfheaders] message with this stop hash makes the filter
    header chain longer. *)
Fixpoint imports (P : params) (stop_hash : N) (ins : list input) (s : cbf) : nat :=
  match ins with
  | [] => 0%nat
  | i :: ins' =>
      match step_on P i s with
      | Panic _ => 0%nat
      | Val (s', _) =>
          ((match i_op i with
            | CCFHeaders _ _ h _ _ => if ((h =? stop_hash) && (f_height s <? f_height s'))%N then 1 else 0
            | _ => 0
            end) + imports P stop_hash ins' s')%nat
      end
  end.

(** ** Ranges *)
Definition covered (rs : list (N * N)) (h : N) : Prop := exists a b, (a, b) ∈ rs /\ a <= h <= b.
Definition ascending (rs : list (N * N)) : Prop := StronglySorted (fun x y => x.2 < y.1) rs.

(** ** Scans *)

(** What an observer expects of a scan: where it began, which height comes
    next, and whether it has been reported stopped. *)
Record scan := Scan { sc_start : N; sc_next : N; sc_running : bool }.
Definition scan_out (sc : scan) (o : cout) : option scan :=
  match o with
  | CoRescanStarted start _ => Some (Scan start start true)
  | CoFilterProcessed _ h _ _ _ => if h =? sc_next sc then Some (Scan (sc_start sc) (h + 1) (sc_running sc)) else None
  | CoRescanStopped h => if h =? sc_next sc then Some (Scan (sc_start sc) (sc_next sc) false) else None
  | _ => Some sc
  end.
Fixpoint scan_outs (sc : scan) (x : list cout) : option scan :=
  match x with
  | [] => Some sc
  | o :: x' => match scan_out sc o with Some sc' => scan_outs sc' x' | None => None end
  end.
(** A re-org down to the height [h - 1] that reverts filter headers sends a
    running scan back to [h], or to its start if that is higher. *)
Definition scan_reorg (i : input) (filter_height : N) (sc : scan) : scan :=
  match i_op i with
  | CImported reverted =>
      match last reverted with
      | Some h => if (h - 1 <? filter_height) && k_rollback_ok (i_k i) && sc_running sc && (h <? sc_next sc)
                  then Scan (sc_start sc) (N.max h (sc_start sc)) true else sc
      | None => sc
      end
  | _ => sc
  end.
Fixpoint scan_follows (P : params) (ins : list input) (s : cbf) (sc : scan) : Prop :=
  match ins with
  | [] => True
  | i :: ins' =>
      match step_on P i s with
      | Panic _ => True
      | Val (s', x) =>
          match scan_outs (scan_reorg i (f_height s) sc) x with
          | None => False
          | Some sc' => scan_follows P ins' s' sc'
          end
      end
  end.

(** The filter of a block matches what is watched: one of the scripts, or
    all outputs of one of the transactions. *)
Definition wanted (P : params) (r : rescan) (f : bfilter) (hash : N) : Prop :=
  (r_watch r <> ∅ /\ p_any P f hash (r_watch r) = Some true) \/
  ((r_watch r <> ∅ -> p_any P f hash (r_watch r) <> None) /\
   exists txid outs, r_txs r !! txid = Some outs /\ p_all P f hash outs = Some true).

(** The filter [f] of the block [hash] at height [h] is held, after some step of
    the history, to be the one the filter header chain commits to, and the
    block is on the active chain of that step. *)
Fixpoint vouched (P : params) (h hash : N) (f : bfilter) (ins : list input) (s : cbf) : Prop :=
  match ins with
  | [] => False
  | i :: ins' =>
      match step_on P i s with
      | Panic _ => False
      | Val (s', _) => (tr_at (i_tree i) h = Some hash /\ authentic P s' h f) \/ vouched P h hash f ins' s'
      end
  end.

Definition processed_heights (x : list cout) : list N :=
  omap (fun o => match o with CoFilterProcessed _ h _ _ _ => Some h | _ => None end) x.
(** The [n] heights from [a] on. *)
Definition heights_from (a : N) (n : nat) : list N := (fun i => a + N.of_nat i) <$> seq 0 n.
(** Neither a new scan nor a change of the chain. *)
Definition scan_goes_on (i : input) : Prop :=
  match i_op i with CRescan _ _ _ | CImported _ => False | _ => True end.
(** The filter for a height is at hand: cached, with the block known, or waiting in the queue. *)
Definition at_hand (t : tree) (r : rescan) (h : N) : Prop :=
  is_Some (r_received r !! h) \/ (is_Some (fc_get (r_cache r) h) /\ is_Some (tr_at t h)).
(** The block at this height is neither delivered nor disconnected. *)
Definition block_awaited (h : N) (i : input) : Prop :=
  match i_op i with CBlockProcessed _ h' | CBlockDisconnected h' => h' <> h | _ => True end.

(** ** Requests *)

(** What an observer notes of inputs and outputs: the outbound peers with
    filters that are connected, and when filter headers up to a block were
    last asked for, and from which height, if no answer has come. *)
Record watch := Watch { w_peers : gset N; w_asked : gmap N (N * N) }.
Definition watch_in (w : watch) (i : input) : watch :=
  match i_op i with
  | CNegotiated a true true _ => Watch ({[a]} ∪ w_peers w) (w_asked w)
  | CDisconnected a => Watch (w_peers w ∖ {[a]}) (w_asked w)
  | CCFHeaders _ _ stop _ _ => Watch (w_peers w) (delete stop (w_asked w))
  | _ => w
  end.
Definition watch_out (i : input) (w : watch) (o : cout) : watch :=
  match o with
  | CoDisconnect a => Watch (w_peers w ∖ {[a]}) (w_asked w)
  | CoGetCFHeaders _ start stop => Watch (w_peers w) (<[stop := (start, i_now i)]> (w_asked w))
  | _ => w
  end.
Fixpoint watches (ins : list input) (outs : list (list cout)) (w : watch) : watch :=
  match ins, outs with
  | i :: ins', x :: outs' => watches ins' outs' (foldl (watch_out i) (watch_in w i) x)
  | _, _ => w
  end.
Definition watch0 : watch := Watch ∅ ∅.
(** The last block to ask filter headers for, at most 2000 at a time. *)
Definition next_stop (t : tree) (height : N) : option N := tr_at t (N.min (height + 2000) (tr_height t)).
(** The block headers have reached the last checkpoint. *)
Definition past_checkpoints (t : tree) : Prop := match tr_checkpoint t with Some c => c <= tr_height t | None => True end.
(** Hash maps are traversed completely. *)
Definition complete (i : input) : Prop := forall n l, k_order (i_k i) n l ≡ₚ l.
(** Inputs after which the node looks for the next filter headers. *)
Definition looks_for_headers (i : input) (s s' : cbf) : Prop :=
  match i_op i with
  | CNegotiated _ outbound filters _ => outbound = true /\ filters = true
  | CImported _ => True
  | CCFHeaders _ _ _ _ _ => f_height s < f_height s'
  | _ => False
  end.

(** ** Awaited blocks *)

(** A block is awaited from the arrival of the filter that completes the scan
    up to it and matches, until it is processed or disconnected. *)
Definition matched_at (h : N) (o : cout) : bool :=
  match o with CoFilterProcessed _ h' _ true _ => h' =? h | _ => false end.
Definition wait_step (h : N) (i : input) (x : list cout) (v : bool) : bool :=
  match i_op i with
  | CCFilter _ _ _ _ => v || existsb (matched_at h) x
  | CBlockProcessed _ h' | CBlockDisconnected h' => if h' =? h then false else v
  | _ => v
  end.
Fixpoint waiting (h : N) (ins : list input) (outs : list (list cout)) (v : bool) : bool :=
  match ins, outs with
  | i :: ins', x :: outs' => waiting h ins' outs' (wait_step h i x v)
  | _, _ => v
  end.

(** ** Requested filters *)

(** A request for filters up to this block covers the height. *)
Definition asks_filter (t : tree) (h : N) (o : cout) : bool :=
  match o with
  | CoGetCFilters _ start stop => (start <=? h) && bool_decide (stop ∈ drop (N.to_nat h) (tr_genesis t :: tr_chain t))
  | _ => false
  end.
(** A filter that has come from a peer is processed. *)
Definition processes_new (h : N) (o : cout) : bool :=
  match o with CoFilterProcessed _ h' _ _ cached => (h' =? h) && negb cached | _ => false end.
Fixpoint asked_filter (h : N) (ins : list input) (outs : list (list cout)) : nat :=
  match ins, outs with
  | i :: ins', x :: outs' => (count (asks_filter (i_tree i) h) x + asked_filter h ins' outs')%nat
  | _, _ => 0%nat
  end.

(** ** What is watched *)

(** The scripts of the last rescan and of the watch commands since, and the
    transactions that were submitted or reverted and not confirmed since. *)
Definition scripts_in (w : list N) (i : input) : list N :=
  match i_op i with CWatch l => l ++ w | CRescan _ _ l => l | _ => w end.
Definition txs_in (m : gmap N (list N)) (i : input) : gmap N (list N) :=
  match i_op i with CTxConfirmed t => delete t m | CTxReverted t outs | CWatchTx t outs => <[t := outs]> m | _ => m end.
Definition watched_scripts (ins : list input) : list N := foldl scripts_in [] ins.
Definition watched_txs (ins : list input) : gmap N (list N) := foldl txs_in ∅ ins.
(** The filter of a block matches one of the scripts, or all outputs of one
    of the transactions; a filter that does not decode matches nothing. *)
Definition looked_for (P : params) (ins : list input) (f : bfilter) (block : N) : Prop :=
  (watched_scripts ins <> [] /\ p_any P f block (list_to_set (watched_scripts ins)) = Some true) \/
  ((watched_scripts ins <> [] -> p_any P f block (list_to_set (watched_scripts ins)) <> None) /\
   exists txid outs, watched_txs ins !! txid = Some outs /\ p_all P f block (list_to_set outs) = Some true).

(** ** Timers *)

(** When the idle timer last expired, unless the manager asked to be woken
    up early since. *)
Definition sets_timer (d : N) (o : cout) : bool := match o with CoTimer d' => d' =? d | _ => false end.
Definition idle_step (i : input) (x : list cout) (v : option N) : option N :=
  if existsb (sets_timer 60000) x then Some (i_now i) else if existsb (sets_timer 1000) x then None else v.
(** When a filter from a peer last moved the scan on. *)
Definition is_processed (o : cout) : bool := match o with CoFilterProcessed _ _ _ _ _ => true | _ => false end.
Definition moved_step (i : input) (x : list cout) (v : option N) : option N :=
  match i_op i with CCFilter _ _ _ _ => if existsb is_processed x then Some (i_now i) else v | _ => v end.
Fixpoint since_when (f : input -> list cout -> option N -> option N) (ins : list input) (outs : list (list cout)) (v : option N) : option N :=
  match ins, outs with
  | i :: ins', x :: outs' => since_when f ins' outs' (f i x v)
  | _, _ => v
  end.
(** No authentic filter for this height has come. *)
Definition never_received (h : N) (outs : list (list cout)) : Prop :=
  forall from block f, CoFilterReceived from block h f ∉ concat outs.

(** ** Answers with filter headers

    [fh] and [tip] are height and last header of the filter header chain. *)
(** The headers from the tip up to the stop block. *)
Definition well_formed (t : tree) (fh tip : N) (ftype stop prev : N) (hashes : list N) : Prop :=
  ftype = 0 /\ exists h, tr_get t stop = Some h /\ fh < h /\ prev = tip /\ 1 <= lenN hashes <= 2000 /\ fh + lenN hashes = h.
(** Another filter type, an unknown stop block or the wrong number of headers. *)
Definition malformed (t : tree) (fh tip : N) (ftype stop prev : N) (hashes : list N) : Prop :=
  ftype <> 0 \/ tr_get t stop = None \/
  exists h, tr_get t stop = Some h /\ fh < h /\ prev = tip /\ ~ (1 <= lenN hashes <= 2000 /\ fh + lenN hashes = h).
(** Nothing new. *)
Definition old_news (t : tree) (fh : N) (ftype stop : N) : Prop := ftype = 0 /\ exists h, tr_get t stop = Some h /\ h <= fh.
(** They do not connect to the tip. *)
Definition elsewhere (t : tree) (fh tip : N) (ftype stop prev : N) : Prop :=
  ftype = 0 /\ exists h, tr_get t stop = Some h /\ fh < h /\ prev <> tip.

(** ** Who is dropped *)

(** The connected filter peers, with whether they are persistent, and the
    filter headers that are asked for: from where, whom and when. *)
Record held := Held { hd_peers : gmap N bool; hd_asked : gmap N (N * N * N) }.
Definition held_in (w : held) (i : input) : held :=
  match i_op i with
  | CNegotiated a true true persistent => Held (<[a := persistent]> (hd_peers w)) (hd_asked w)
  | CDisconnected a => Held (delete a (hd_peers w)) (hd_asked w)
  | CCFHeaders _ _ stop _ _ => Held (hd_peers w) (delete stop (hd_asked w))
  | _ => w
  end.
Definition held_out (i : input) (w : held) (o : cout) : held :=
  match o with
  | CoDisconnect a => Held (delete a (hd_peers w)) (hd_asked w)
  | CoGetCFHeaders p start stop => Held (hd_peers w) (<[stop := (start, p, i_now i)]> (hd_asked w))
  | _ => w
  end.
Fixpoint helds (ins : list input) (outs : list (list cout)) (w : held) : held :=
  match ins, outs with
  | i :: ins', x :: outs' => helds ins' outs' (foldl (held_out i) (held_in w i) x)
  | _, _ => w
  end.
Definition held0 : held := Held ∅ ∅.
(** A timer fired, the peer was asked for filter headers and the time is up,
    and right away the same is asked of another peer that is not persistent. *)
Definition dropped_for (P : params) (i : input) (w : held) (p : N) (next : list cout) : Prop :=
  i_op i = CTimer /\ exists q start stop t0 rest, next = CoGetCFHeaders q start stop :: rest /\ q <> p /\
    hd_asked w !! stop = Some (start, p, t0) /\ t0 + p_timeout P <= i_now i /\ hd_peers w !! q = Some false.
