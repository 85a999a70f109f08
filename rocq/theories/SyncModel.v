(** Model of the header sync manager, p2p/src/fsm/syncmgr.rs, on top of the
    block header cache of BlockModel.v.  Times are milliseconds; the
    difference of two times does not go below zero (net/src/time.rs:91-93),
    taking a duration from a time wraps at 2^128 as in a release build
    (net/src/time.rs:100-104).  Peer addresses are numbers. *)
From Verif Require Import Base PowModel BlockModel.
Open Scope N_scope.

(** syncmgr.rs:20-36, the constants; the request timeout (line 20) and
    maximum headers per reply are configuration (lines 62-69). *)
Definition TIP_STALE_DURATION : N := 7200000.
Definition MAX_MESSAGE_HEADERS : N := 2000.
Definition MAX_MESSAGE_INVS : N := 50000.
Definition IDLE_TIMEOUT : N := 600000.
Definition MAX_UNSOLICITED_HEADERS : N := 24.
Definition PEER_SAMPLE_INTERVAL : N := 3600000.

(** p2p/src/fsm.rs [Locators]: hashes and a stop hash. *)
Definition locators : Type := list N * N.

(** syncmgr.rs:40-47 [OnTimeout]. *)
Inductive on_timeout := TDisconnect | TIgnore | TRetry (n : nat).

(** syncmgr.rs:51-58 [Peer]. *)
Record speer := SPeer {
  sp_height : N;
  sp_preferred : bool;
  sp_tip : N;
  sp_outbound : bool;
  sp_active : option N;
  sp_asked : option locators;
}.

(** syncmgr.rs:103-110 [GetHeaders]. *)
Record greq := GReq { gr_locators : locators; gr_sent : N; gr_timeout : on_timeout }.

(** syncmgr.rs:62-69 [Config]; the spacing is [pow_target_spacing] in seconds. *)
Record sconf := SConf { sc_max : N; sc_timeout : N; sc_spacing : N }.

(** syncmgr.rs:73-91 [SyncManager], without the outbox and the clock. *)
Record sync := Sync {
  sy_peers : gmap N speer;
  sy_update : option N;
  sy_sample : option N;
  sy_idle : option N;
  sy_inflight : gmap N greq;
}.
Definition sync_init : sync := Sync ∅ None None None ∅.

(** What is put in the outbox.  [SoDebugAssert] is not an output of a release
    build: it marks the places at which the [debug_assert] of line 389 fails,
    which in a debug build is a panic. *)
Inductive sout :=
| SoGetHeaders (addr : N) (l : locators)
| SoHeaders (addr : N) (hds : list header)
| SoTimer (d : N)
| SoDisconnect (addr : N)
| SoMisbehaved (addr : N)
| SoDisconnected (height : N) (hd : header)
| SoConnected (height : N) (hd : header)
| SoImported (reorg : bool) (hash height : N) (reverted connected : list (N * header))
| SoSynced (hash height : N)
| SoPeerHeight (height : N)
| SoError
| SoDebugAssert (addr : N).

Definition with_peers (s : sync) (p : gmap N speer) : sync :=
  Sync p (sy_update s) (sy_sample s) (sy_idle s) (sy_inflight s).
Definition with_inflight (s : sync) (i : gmap N greq) : sync :=
  Sync (sy_peers s) (sy_update s) (sy_sample s) (sy_idle s) i.

(** Times: net/src/time.rs:100-104. *)
Definition two128 : N := 2 ^ 128.
Definition time_minus (now d : N) : N := if now <? d then now + two128 - d else now - d.

Section Model.
Context (hash_of : header -> N) (cf : sconf).

(** What one operation sees of the environment: the time, the (adjusted) block
    time, and the orders in which hash maps are traversed or peers drawn; each
    place that makes a choice uses its own index. *)
Record senv := SEnv { se_now : N; se_block_time : N; se_order : nat -> list N -> list N }.

Definition addrs (s : sync) : list N := (map_to_list (sy_peers s)).*1.

(** syncmgr.rs:500-502 [best_height]. *)
Definition best_height (s : sync) : option N :=
  match (fun p => sp_height p.2) <$> map_to_list (sy_peers s) with
  | [] => None
  | h :: t => Some (foldr N.max h t)
  end.

(** syncmgr.rs:377-404 [request]. *)
Definition request (e : senv) (a : N) (l : locators) (t : on_timeout) (s : sync) : sync * list sout :=
  match sy_inflight s !! a with
  | Some _ => (s, [])
  | None =>
      match sy_peers s !! a with
      | Some p =>
          (with_inflight
             (with_peers s (<[a := SPeer (sp_height p) (sp_preferred p) (sp_tip p) (sp_outbound p) (sp_active p) (Some l)]> (sy_peers s)))
             (<[a := GReq l (se_now e) t]> (sy_inflight s)),
           (if bool_decide (sp_asked p = Some l) then [SoDebugAssert a] else []) ++ [SoGetHeaders a l; SoTimer (sc_timeout cf)])
      | None => (s, [])
      end
  end.

(** syncmgr.rs:521-542 [stale_tip]. *)
Definition stale_tip (e : senv) (c : cache) (s : sync) : option N :=
  let old := match sy_update s with
             | Some u => if u <? time_minus (se_now e) (sc_spacing cf * 3 * 1000) then Some u else None
             | None => None
             end in
  match old with
  | Some u => Some u
  | None =>
      let t := h_time (c_tip hash_of c).2 * 1000 in
      if t <=? time_minus (se_now e) TIP_STALE_DURATION then Some t else None
  end.

(** syncmgr.rs:585-589 [is_request_candidate]. *)
Definition is_candidate (s : sync) (l : list N) (a : N) : bool :=
  match sy_peers s !! a with
  | Some p =>
      bool_decide (sy_inflight s !! a = None) && sp_outbound p &&
      match sp_asked p with Some l' => negb (bool_decide (l'.1 = l)) | None => true end
  | None => false
  end.

Definition is_preferred (s : sync) (a : N) : bool :=
  match sy_peers s !! a with Some p => sp_preferred p | None => false end.
Definition higher (s : sync) (h : N) (a : N) : bool :=
  match sy_peers s !! a with Some p => h <? sp_height p | None => false end.

(** syncmgr.rs:570-581 [preferred_peer]. *)
Definition preferred_peer (e : senv) (c : cache) (l : list N) (s : sync) : option N :=
  let ps := se_order e 1 (addrs s) in
  match List.find (fun a => is_preferred s a && higher s (c_height c) a) (List.filter (is_candidate s l) ps) with
  | Some a => Some a
  | None => List.find (is_preferred s) ps
  end.

(** syncmgr.rs:592-605 [is_synced]. *)
Definition is_synced (e : senv) (c : cache) (s : sync) : bool :=
  match stale_tip e c s with
  | Some _ => false
  | None => match best_height s with Some h => h <=? c_height c | None => false end
  end.

(** syncmgr.rs:608-610 [syncing]. *)
Definition syncing (s : sync) (l : locators) : bool :=
  existsb (fun r => bool_decide (gr_locators r.2 = l)) (map_to_list (sy_inflight s)).

(** syncmgr.rs:615-652 [sync]; the result is in the third component. *)
Definition do_sync (e : senv) (c : cache) (s : sync) : M (sync * list sout * bool) :=
  match addrs s with
  | [] => Val (s, [], false)
  | _ =>
      if is_synced e c s then Val (s, [SoSynced (c_tip hash_of c).1 (c_height c)], false)
      else
        l <-- locator_hashes hash_of c (c_height c) ;;
        if syncing s (l, 0) then Val (s, [], false)
        else
          match preferred_peer e c l s with
          | Some a =>
              let best := default (c_height c) (best_height s) in
              if c_height c <? best then
                let '(s, x) := request e a (l, 0) TIgnore s in Val (s, x, true)
              else Val (s, [], false)
          | None => Val (s, [], false)
          end
  end.

(** Several requests in a row. *)
Fixpoint request_all (e : senv) (l : locators) (ps : list N) (s : sync) : sync * list sout :=
  match ps with
  | [] => (s, [])
  | a :: ps' =>
      let '(s, x) := request e a l TIgnore s in
      let '(s, x') := request_all e l ps' s in (s, x ++ x')
  end.

(** syncmgr.rs:667-696 [sample_peers]. *)
Definition sample_peers (e : senv) (c : cache) (s : sync) : M (sync * list sout) :=
  if se_now e - default 0 (sy_sample s) <? PEER_SAMPLE_INTERVAL then Val (s, [])
  else match stale_tip e c s with
       | None => Val (s, [])
       | Some _ =>
           let s := Sync (sy_peers s) (sy_update s) (Some (se_now e)) (sy_idle s) (sy_inflight s) in
           l <-- locator_hashes hash_of c (c_height c) ;;
           Val (request_all e (l, 0) (List.filter (is_candidate s l) (se_order e 2 (addrs s))) s)
       end.

(** syncmgr.rs:140-151 [idle] (and [initialize], 135-137). *)
Definition idle (e : senv) (c : cache) (s : sync) : M (sync * list sout) :=
  if IDLE_TIMEOUT <=? se_now e - default 0 (sy_idle s) then
    '(s, x, started) <-- do_sync e c s ;;
    '(s, x') <-- (if started : bool then Val (s, []) else sample_peers e c s) ;;
    Val (Sync (sy_peers s) (sy_update s) (sy_sample s) (Some (se_now e)) (sy_inflight s), x ++ x' ++ [SoTimer IDLE_TIMEOUT])
  else Val (s, []).

(** syncmgr.rs:193-218 [peer_negotiated], 545-561 [register]. *)
Definition sync_negotiated (e : senv) (a height : N) (network filters outbound : bool) (c : cache) (s : sync)
    : M (sync * list sout) :=
  if outbound && negb network then Val (s, [])
  else
    let x := if default (c_height c) (best_height s) <? height then [SoPeerHeight height] else [] in
    let s := with_peers s (<[a := SPeer height (negb filters) 0 outbound None None]> (sy_peers s)) in
    '(s, x', _) <-- do_sync e c s ;;
    Val (s, x ++ x').

(** syncmgr.rs:564-567 [unregister]. *)
Definition unregister (a : N) (s : sync) : sync :=
  with_peers (with_inflight s (delete a (sy_inflight s))) (delete a (sy_peers s)).

(** syncmgr.rs:505-507 [is_syncing]. *)
Definition is_syncing (s : sync) : bool := negb (bool_decide (map_to_list (sy_inflight s) = [])).

(** syncmgr.rs:221-238 [received_getheaders]. *)
Definition received_getheaders (a : N) (l : locators) (c : cache) (s : sync) : M (list sout) :=
  if is_syncing s || (sc_max cf =? 0) then Val []
  else
    hds <-- locate_headers c l.1 l.2 (sc_max cf) ;;
    Val (match hds with [] => [] | _ => [SoHeaders a hds] end).

(** syncmgr.rs:655-664 [broadcast_tip]. *)
Definition broadcast_tip (order : list N -> list N) (hash : N) (c : cache) (s : sync) : list sout :=
  match get_block c hash with
  | Some (height, best) =>
      (fun a => SoHeaders a [best]) <$>
      List.filter (fun a => match sy_peers s !! a with
                            | Some p => negb (sp_outbound p) && (sp_height p <? height)
                            | None => false
                            end) (order (addrs s))
  | None => []
  end.

(** syncmgr.rs:241-275 [import_blocks]; also [Command::ImportHeaders],
    p2p/src/fsm.rs:674-687. *)
Definition sync_import (e : senv) (hds : list (header * choice)) (c : cache) (s : sync)
    : M (cache * list sout * result import_result err) :=
  '(c, r) <-- import_blocks hash_of c hds (se_block_time e) ;;
  let x := match r with
           | Ok (TipChanged _ hash height reverted connected) =>
               ((fun p => SoDisconnected p.1 p.2) <$> reverted) ++ ((fun p => SoConnected p.1 p.2) <$> connected) ++
               [SoImported (negb (bool_decide (reverted = []))) hash height reverted connected] ++
               broadcast_tip (se_order e 3) hash c s
           | _ => []
           end in
  Val (c, x, r).

(** syncmgr.rs:303-307. *)
Definition touch_peer (e : senv) (a : N) (p : speer) (s : sync) : sync :=
  with_peers s (<[a := SPeer (sp_height p) (sp_preferred p) (sp_tip p) (sp_outbound p) (Some (se_now e)) (sp_asked p)]> (sy_peers s)).
(** syncmgr.rs:328-333. *)
Definition raise_peer (a hash height : N) (s : sync) : sync :=
  match sy_peers s !! a with
  | Some p =>
      if sp_height p <? height then
        with_peers s (<[a := SPeer height (sp_preferred p) hash (sp_outbound p) (sp_active p) (sp_asked p)]> (sy_peers s))
      else s
  | None => s
  end.

(** syncmgr.rs:310-374: the part of [received_headers] that imports. *)
Definition process_headers (e : senv) (from : N) (hd : header * choice) (hds : list (header * choice)) (c : cache) (s : sync)
    : M (sync * cache * list sout) :=
  let length := lenN (hd :: hds) in
  let root := hash_of hd.1 in
  let best := hash_of (ne_last hd hds).1 in
  if contains c best then Val (s, c, [])
  else
    '(c, x, r) <-- sync_import e (hd :: hds) c s ;;
    match r with
    | Ok TipUnchanged =>
        l <-- locator_hashes hash_of c (c_height c) ;;
        let '(s, x') := request e from (l, root) TIgnore s in Val (s, c, x ++ x')
    | Ok (TipChanged _ hash height _ _) =>
        let s := raise_peer from hash height s in
        let s := Sync (sy_peers s) (Some (se_now e)) (sy_sample s) (sy_idle s) (sy_inflight s) in
        if length <? MAX_MESSAGE_HEADERS then
          '(s', x', _) <-- do_sync e c s ;;
          Val (s', c, x ++ broadcast_tip (se_order e 4) hash c s ++ x')
        else
          let '(s, x') := request e from ([hash], 0) TDisconnect s in Val (s, c, x ++ x')
    | Err EStore => Val (s, c, x ++ [SoError])
    | Err EInvalidPow | Err (EInvalidTarget _ _) | Err (EInvalidHash _ _)
    | Err (EInvalidHeight _) | Err (EInvalidTime _ _) => Val (s, c, x ++ [SoMisbehaved from])
    | Err (EDuplicate _) | Err (EMissing _) => Val (s, c, x)
    | Err (EAborted _ _ _) => Val (s, c, x)
    | Err EInterrupted | Err EGenesisMismatch => Val (s, c, x)
    end.

(** syncmgr.rs:278-308 and above: [received_headers]. *)
Definition received_headers (e : senv) (from : N) (hds : list (header * choice)) (c : cache) (s : sync)
    : M (sync * cache * list sout) :=
  let req := sy_inflight s !! from in
  let s := with_inflight s (delete from (sy_inflight s)) in
  match hds with
  | [] => Val (s, c, [])
  | hd :: rest =>
      let length := lenN hds in
      if MAX_MESSAGE_HEADERS <? length then Val (s, c, [SoMisbehaved from])
      else if (MAX_UNSOLICITED_HEADERS <? length) && bool_decide (req = None) then Val (s, c, [])
      else match sy_peers s !! from with
           | Some p => process_headers e from hd rest c (touch_peer e from p s)
           | None => Val (s, c, [])
           end
  end.

(** syncmgr.rs:408-447 [received_inv]; an inventory is a block hash or
    something else ([None]). *)
Definition received_inv (e : senv) (a : N) (inv : list (option N)) (c : cache) (s : sync)
    : M (sync * list sout) :=
  if is_syncing s then Val (s, [])
  else if MAX_MESSAGE_INVS <? lenN inv then Val (s, [])
  else match sy_peers s !! a with
       | None => Val (s, [])
       | Some p =>
           let blocks := omap id inv in
           let s := with_peers s (<[a := SPeer (sp_height p) (sp_preferred p) (default (sp_tip p) (last blocks)) (sp_outbound p) (sp_active p) (sp_asked p)]> (sy_peers s)) in
           match last (List.filter (fun h => negb (is_known c h)) blocks) with
           | Some stop =>
               l <-- locator_hashes hash_of c (c_height c) ;;
               Val (request e a (l, stop) (TRetry 3) s)
           | None => Val (s, [])
           end
       end.

(** syncmgr.rs:453-463: the requests that have timed out. *)
Definition timed_out (e : senv) (s : sync) : list N :=
  List.filter (fun a => match sy_inflight s !! a with
                        | Some r => sc_timeout cf <=? se_now e - gr_sent r
                        | None => false
                        end) (se_order e 0 (map_to_list (sy_inflight s)).*1).

(** syncmgr.rs:465-489: the loop over them, which were collected before it
    ([i0]); the third component is the local variable [sync]. *)
Fixpoint time_out (e : senv) (i : nat) (i0 : gmap N greq) (ps : list N) (s : sync) : sync * list sout * bool :=
  match ps with
  | [] => (s, [], false)
  | a :: ps' =>
      let s := with_inflight s (delete a (sy_inflight s)) in
      let '(s, x, b) :=
        match i0 !! a with
        | None => (s, [], false)
        | Some r =>
            match gr_timeout r with
            | TIgnore => (s, [], false)
            | TRetry O | TDisconnect => (s, [SoDisconnect a], true)
            | TRetry (S n) =>
                match head (se_order e (5 + i) (List.filter (fun a' => negb (a' =? a) && is_candidate s (gr_locators r).1 a') (addrs s))) with
                | Some a' => let '(s, x) := request e a' (gr_locators r) (TRetry n) s in (s, x, false)
                | None => (s, [], false)
                end
            end
        end in
      let '(s, x', b') := time_out e (S i) i0 ps' s in
      (s, x ++ x', b || b')
  end.

(** syncmgr.rs:450-497 [timer_expired]. *)
Definition sync_timer (e : senv) (c : cache) (s : sync) : M (sync * list sout) :=
  let '(s, x, b) := time_out e 0 (sy_inflight s) (timed_out e s) s in
  if b : bool then '(s, x', _) <-- do_sync e c s ;; Val (s, x ++ x')
  else '(s, x') <-- idle e c s ;; Val (s, x ++ x').

(** The entry points: syncmgr.rs:135, 154-190, 241, 450. *)
Inductive sync_op :=
| SInitialize
| SNegotiated (addr height : N) (network filters outbound : bool)
| SDisconnect (addr : N)
| SHeaders (from : N) (hds : list (header * choice))
| SGetHeaders (from : N) (l : locators)
| SInv (from : N) (inv : list (option N))
| STimer
| SImport (hds : list (header * choice)).
Definition sync_step (oe : sync_op * senv) (sc : sync * cache) : M (sync * cache * list sout) :=
  let '(o, e) := oe in
  let '(s, c) := sc in
  match o with
  | SInitialize => '(s, x) <-- idle e c s ;; Val (s, c, x)
  | SNegotiated a h nw fl ob => '(s, x) <-- sync_negotiated e a h nw fl ob c s ;; Val (s, c, x)
  | SDisconnect a => Val (unregister a s, c, [])
  | SHeaders a hds => received_headers e a hds c s
  | SGetHeaders a l => x <-- received_getheaders a l c s ;; Val (s, c, x)
  | SInv a inv => '(s, x) <-- received_inv e a inv c s ;; Val (s, c, x)
  | STimer => '(s, x) <-- sync_timer e c s ;; Val (s, c, x)
  | SImport hds => '(c, x, _) <-- sync_import e hds c s ;; Val (s, c, x)
  end.

End Model.
