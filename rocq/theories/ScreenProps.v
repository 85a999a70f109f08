(** Property theorems about the wallet's screen (C129-C131), each followed by
    a concrete case. *)
From Verif Require Import Base RunEx WalletModel WalletSpec ScreenModel ScreenSpec ScreenProofs ScreenPanic ScreenLoad ScreenEnds.
Open Scope N_scope.

(** After every turn the loop takes up, the screen shows the tab selected by
    the keys, the balance of the coins, in the tab of coins every coin with its
    address and value, in that of addresses the addresses, and the status that
    the last event about progress calls for. The coins are those of the matched
    blocks heard of (C58 says which these are). *)
Theorem C129_screen addr_of script_of blen slen watch off db addrs size now l t w :
  wrun addr_of script_of blen slen watch db addrs off size now (l ++ [t]) = Val w -> w_over w = false -> taken off l t = true ->
  exists st b a, w_screen w = {| sc_header := Some (selected (l ++ [t]), st, b); sc_main := Some a; sc_footer := true |} /\
    handle_events addr_of script_of watch db (blocks (heard off (l ++ [t]))) = Val (w_db w) /\
    balance (w_db w) = Ok b /\
    is_area addr_of script_of (selected (l ++ [t])) (w_db w) addrs a /\
    forall s, progress off (rev (heard off (l ++ [t]))) = Some s -> st = s.
Proof.
  intros E O T. destruct (shows_run addr_of script_of blen slen watch off db addrs size now l t w E O T) as (I & (st & H & F) & (a & M & A) & FT).
  destruct I as (I1 & _ & _ & I4 & _ & _ & I7 & I8 & _). rewrite I1 in H, A. rewrite I7 in A.
  exists st, (ui_balance (w_ui w)), a. split; [|split; [exact I8|split; [exact I4|split; [exact A|]]]].
  - destruct (w_screen w) as [h m f]. cbn in H, M, FT. by subst.
  - intros s P. unfold prog in F. rewrite P in F. exact F.
Qed.
Print Assumptions C129_screen.

(** When the screen says that all is scanned up to a height, the last event
    about progress was a scan of that height, and it was the height of the last
    header import before it (zero if there was none). *)
Theorem C129_synced addr_of script_of blen slen watch off db addrs size now l t w tb b h :
  wrun addr_of script_of blen slen watch db addrs off size now (l ++ [t]) = Val w -> w_over w = false -> taken off l t = true ->
  sc_header (w_screen w) = Some (tb, Synced h, b) ->
  exists p q, heard off (l ++ [t]) = p ++ EScanned h :: q /\ imported p = h /\ Forall (fun e => speaks e = false) q.
Proof. exact (synced_run addr_of script_of blen slen watch off db addrs size now l t w tb b h). Qed.
Print Assumptions C129_synced.

(** Witnesses: scripts below 100 are those of addresses; texts are of thirty
    bytes at most. *)
Definition sc_addr (s : N) : option N := if s <? 100 then Some (s + 1000) else None.
Definition sc_script (a : N) : N := a - 1000.
Definition sc_blen (b : N) : N := if b <? 2 ^ 64 then 12 else 30.
Definition sc_slen (s : status) : N := match s with Synced _ => 20 | _ => 30 end.
Notation sc_run := (wrun sc_addr sc_script sc_blen sc_slen).
Notation big := (80, 24).
Definition pay : tx := {| tx_id := 1; tx_in := [(90, 0)]; tx_out := [(7, 50); (200, 3); (8, 20)] |}.
Definition at_ (p : pick) : turn := Turn p big 5.

(** A payment is found, the scan reaches the tip, and the keys go round to the
    coins. *)
Definition session : list turn := [at_ (PLoad (BlockHeaderLoaded 9)); at_ (PLoad LClosed); at_ (PEvent (EReady 9)); at_ (PKey KRight);
  at_ (PEvent (EImported 10)); at_ (PEvent (EFilterProcessed 10)); at_ (PEvent (EMatched [pay])); at_ (PKey KLeft)].
Example C129_screen_case : exists w, sc_run [7; 8] [] [(0, 1007, 0)] false big 0 (session ++ [at_ (PEvent (EScanned 10))]) = Val w /\
  w_over w = false /\ taken false session (at_ (PEvent (EScanned 10))) = true /\
  w_screen w = {| sc_header := Some (TUtxos, Synced 10, 70); sc_main := Some (MCoins [((1, 0), (1007, 50)); ((1, 2), (1008, 20))]); sc_footer := true |}.
Proof.
  destruct (val_ex (sc_run [7; 8] [] [(0, 1007, 0)] false big 0 (session ++ [at_ (PEvent (EScanned 10))])) (fun w => w_over w = false /\
    w_screen w = {| sc_header := Some (TUtxos, Synced 10, 70); sc_main := Some (MCoins [((1, 0), (1007, 50)); ((1, 2), (1008, 20))]); sc_footer := true |})) as (w & E & O & S);
    [vm_compute; done|].
  exists w. split; [exact E|]. split; [exact O|]. split; [reflexivity|exact S].
Qed.
(** And it says so until the next scan. *)
Example C129_synced_case : exists w, sc_run [7; 8] [] [] false big 0 ((session ++ [at_ (PEvent (EScanned 10)); at_ (PEvent (EPeerHeight 12))]) ++ [at_ (PKey KTab)]) = Val w /\
  w_over w = false /\ sc_header (w_screen w) = Some (THistory, Synced 10, 70).
Proof. apply val_ex. vm_compute. done. Qed.

(** A client that starts with all headers and scans them to the tip says so in
    its events; the screen says it is scanning up to block zero. *)
Theorem C129_restart_refuted : exists l w, sc_run [7] [] [] false big 0 l = Val w /\ w_over w = false /\
  heard false l = [EReady 10; EScanned 9; EScanned 10] /\
  sc_header (w_screen w) = Some (TUtxos, Syncing 10 0, 0).
Proof.
  exists [at_ (PLoad LClosed); at_ (PEvent (EReady 10)); at_ (PEvent (EScanned 9)); at_ (PEvent (EScanned 10))].
  apply val_ex. vm_compute. done.
Qed.
Print Assumptions C129_restart_refuted.

(** The tab of addresses shows amounts received; they stay as they were though
    a coin has come in. *)
Theorem C129_received_refuted : exists l w, sc_run [7] [] [(0, 1007, 0)] false big 0 l = Val w /\ w_over w = false /\
  w_screen w = {| sc_header := Some (TAddresses, Ready 9 false, 50); sc_main := Some (MAddresses [(0, 1007, 0)]); sc_footer := true |}.
Proof.
  exists [at_ (PLoad LClosed); at_ (PEvent (EReady 9)); at_ (PEvent (EMatched [pay])); at_ (PKey KLeft)].
  apply val_ex. vm_compute. done.
Qed.
Print Assumptions C129_received_refuted.

(** While loading, what is loaded more than 16 ms after everything before it is
    shown. *)
Theorem C129_loading addr_of script_of blen slen watch off db addrs size now l t w :
  wrun addr_of script_of blen slen watch db addrs off size now (l ++ [t]) = Val w -> w_over w = false ->
  loaded off l = false -> Forall (fun u => u + 16 < tn_now t) (now :: map tn_now l) ->
  forall st, loads t = Some st -> exists tb b, sc_header (w_screen w) = Some (tb, st, b).
Proof. exact (loading_run addr_of script_of blen slen watch off db addrs size now l t w). Qed.
Print Assumptions C129_loading.
Example C129_loading_case : exists w, sc_run [7] [] [] false big 0 ([Turn (PLoad (BlockHeaderLoaded 8)) big 100; Turn (PLoad (BlockHeaderLoaded 9)) big 110] ++ [Turn (PLoad (FilterHeaderVerified 1)) big 127]) = Val w /\
  w_over w = false /\ sc_header (w_screen w) = Some (TUtxos, VerifyingFilterHeaders 1, 0) /\ Forall (fun u => u + 16 < 127) [0; 100; 110].
Proof.
  destruct (val_ex (sc_run [7] [] [] false big 0 ([Turn (PLoad (BlockHeaderLoaded 8)) big 100; Turn (PLoad (BlockHeaderLoaded 9)) big 110] ++ [Turn (PLoad (FilterHeaderVerified 1)) big 127]))
    (fun w => w_over w = false /\ sc_header (w_screen w) = Some (TUtxos, VerifyingFilterHeaders 1, 0))) as (w & E & O & S); [vm_compute; done|].
  exists w. repeat (split; [assumption|]). repeat constructor.
Qed.
(** While loading, and after it until the first event about progress, the
    status may be an old one: the last header loaded within 16 ms of the last
    redraw is not shown, however long nothing else happens. *)
Theorem C129_loading_refuted : exists l w, sc_run [7] [] [] false big 0 l = Val w /\ w_over w = false /\
  ui_status (w_ui w) = LoadingBlockHeaders 9 /\ sc_header (w_screen w) = Some (TUtxos, LoadingBlockHeaders 8, 0).
Proof.
  exists [Turn (PLoad (BlockHeaderLoaded 8)) big 100; Turn (PLoad (BlockHeaderLoaded 9)) big 110; Turn (PLoad LClosed) big 110; Turn (PEvent (EPeerHeight 12)) big 9000].
  apply val_ex. vm_compute. done.
Qed.
Print Assumptions C129_loading_refuted.

(** The wallet panics only if the terminal has no place for its top line (for
    the text of a balance or a status), has no line or column at all or 65535
    columns, or if the addresses or the coins ever received are more than 65533.
    In particular watching and drawing coins does not panic. *)
Theorem C130_panics addr_of script_of blen slen watch off db addrs size now l p :
  watch_ok addr_of script_of watch -> table_ok addr_of script_of db -> Forall turn_fits l ->
  wrun addr_of script_of blen slen watch db addrs off size now l = Panic p ->
  exists sz, sz ∈ size :: map tn_size l /\ cause blen slen (lenN db + all_brings l) (lenN addrs) sz p.
Proof. intros W. exact (panics_run addr_of script_of blen slen watch W db addrs off size now l p). Qed.
Print Assumptions C130_panics.

(** Hence on a terminal of usual size it does not panic. *)
Theorem C130_roomy addr_of script_of blen slen watch off db addrs size now l :
  watch_ok addr_of script_of watch -> table_ok addr_of script_of db -> Forall turn_fits l ->
  (forall b, b < 2 ^ 64 -> blen b <= 40) -> (forall s, status_fits s -> slen s <= 80) ->
  Forall (fun sz => 80 <= sz.1 /\ sz.1 < 1000 /\ 0 < sz.2) (size :: map tn_size l) ->
  lenN addrs < 2 ^ 15 -> lenN db + all_brings l < 2 ^ 15 ->
  exists w, wrun addr_of script_of blen slen watch db addrs off size now l = Val w.
Proof.
  intros W T F B S R NA ND. destruct (wrun addr_of script_of blen slen watch db addrs off size now l) as [w|p] eqn:E; [by exists w|].
  destruct (C130_panics addr_of script_of blen slen watch off db addrs size now l p W T F E) as (sz & I & C). exfalso.
  rewrite Forall_forall in R. destruct (R sz I) as (R1 & R2 & R3).
  destruct C as [[_ [(b & Bb & L)|L]]|[[_ (s & Sf & L)]|[[_ L]|[[_ L]|[[_ L]|[_ L]]]]]].
  - specialize (B b Bb). lia.
  - lia.
  - specialize (S s Sf). lia.
  - lia.
  - lia.
  - change (2 ^ 15) with 32768 in NA. change (2 ^ 16) with 65536 in L. lia.
  - change (2 ^ 15) with 32768 in ND. change (2 ^ 16) with 65536 in L. lia.
Qed.
Print Assumptions C130_roomy.
Example C130_roomy_case : watch_ok sc_addr sc_script [7; 8] /\ table_ok sc_addr sc_script [] /\ Forall turn_fits session /\
  (forall b, b < 2 ^ 64 -> sc_blen b <= 40) /\ (forall s, status_fits s -> sc_slen s <= 80) /\
  Forall (fun sz => 80 <= sz.1 /\ sz.1 < 1000 /\ 0 < sz.2) (big :: map tn_size session) /\ lenN [(0, 1007, 0)] < 2 ^ 15 /\ lenN (@nil row) + all_brings session < 2 ^ 15.
Proof.
  split. { intros s I. exists (s + 1000). apply elem_of_cons in I as [->|I]; [done|]. apply elem_of_cons in I as [->|I]; [done|]. by apply elem_of_nil in I. }
  split; [constructor|]. split; [repeat constructor|]. split; [intros b Bb; unfold sc_blen; destruct (b <? 2 ^ 64); lia|].
  split; [intros [] _; cbn; lia|]. split; [|split; vm_compute; done].
  repeat (constructor; [vm_compute; repeat split; discriminate|]). constructor.
Qed.
(** On a narrow terminal it does panic, at the first drawing: a balance is of
    more than eight characters. *)
Theorem C130_narrow_refuted : exists l, sc_run [7] [] [] false big 0 l = Panic (POverflow 96) /\ Forall turn_fits l /\ map tn_size l = [(8, 24)].
Proof. exists [Turn (PKey KOther) (8, 24) 0]. split; [vm_compute; done|]. split; [repeat constructor|done]. Qed.
Print Assumptions C130_narrow_refuted.

(** The wallet ends exactly on an interrupt, on a hardware wallet that cannot
    be reached when asked for, or when the sum of the coins overflows. *)
Theorem C131_ends addr_of script_of blen slen watch off db addrs size now l w :
  wrun addr_of script_of blen slen watch db addrs off size now l = Val w ->
  w_over w = true <-> balance db = Err tt \/
    exists l1 t l2, l = l1 ++ t :: l2 /\ ends addr_of script_of watch off db l1 t /\ exists b, balance db = Ok b.
Proof. exact (run_ends addr_of script_of blen slen watch off db addrs size now l w). Qed.
Print Assumptions C131_ends.
(** The key for the hardware wallet does nothing while loading, and ends the
    wallet afterwards. *)
Example C131_case : (exists w, sc_run [7] [] [] false big 0 [at_ (PKey (KF1 false))] = Val w /\ w_over w = false) /\
  (exists w, sc_run [7] [] [] false big 0 [at_ (PLoad LClosed); at_ (PKey (KF1 false)); at_ (PKey KTab)] = Val w /\ w_over w = true).
Proof. split; apply val_ex; vm_compute; done. Qed.
(** Not only the user ends it: a value of half the range of the type (which no valid
    block has; the client does not check values) is stored as
    negative, and two of them overflow the sum. *)
Definition vast (i : N) : tx := {| tx_id := i; tx_in := []; tx_out := [(7, 2 ^ 63)] |}.
Theorem C131_overflow_refuted : exists l w, sc_run [7] [] [] false big 0 l = Val w /\ w_over w = true /\
  map tn_pick l = [PLoad LClosed; PEvent (EMatched [vast 1]); PEvent (EMatched [vast 2])].
Proof.
  set (l := [at_ (PLoad LClosed); at_ (PEvent (EMatched [vast 1])); at_ (PEvent (EMatched [vast 2]))]).
  destruct (val_ex (sc_run [7] [] [] false big 0 l) (fun w => w_over w = true)) as (w & E & O); [vm_compute; done|].
  exists l, w. split; [exact E|]. split; [exact O|reflexivity].
Qed.
Print Assumptions C131_overflow_refuted.
