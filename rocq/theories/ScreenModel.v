(** Model of the wallet's screen: the loops of wallet/src/wallet.rs and the
    terminal interface of wallet/src/wallet/ui.rs and ui/table.rs. The terminal
    is three areas (top line, main area, bottom line), each blank or showing
    what was last drawn; colours, positions and the text itself are not
    modelled. Errors of the terminal are not modelled. *)
From Verif Require Import Base WalletModel.
Open Scope N_scope.

(** ui.rs:257-266 [Status]. *)
Inductive status :=
| Ready (height : N) (offline : bool)
| LoadingBlockHeaders (height : N)
| LoadingFilterHeaders (height : N)
| Scanning (height tip : N)
| VerifyingFilterHeaders (height : N)
| Syncing (height tip : N)
| Synced (height : N).

(** ui.rs:316-338 [Tab], its [next] and [prev]. *)
Inductive tab := TUtxos | THistory | TAddresses.
Definition tab_next (t : tab) : tab := match t with TUtxos => THistory | THistory => TAddresses | TAddresses => TUtxos end.
Definition tab_prev (t : tab) : tab := match t with TUtxos => TAddresses | THistory => TUtxos | TAddresses => THistory end.

(** ui.rs:112-124 [Ui]. The redraw flags (ui.rs:18-30) are three booleans. The
    message is set once (wallet.rs:130) and is left out. [ui_last] is the time of the
    last redraw in milliseconds. *)
Record ui := { ui_status : status; ui_balance : N; ui_tab : tab; ui_tip : N; ui_last : option N;
  rd_header : bool; rd_main : bool; rd_footer : bool }.
(** ui.rs:126-139 [Ui::default]. *)
Definition ui0 : ui := {| ui_status := LoadingBlockHeaders 0; ui_balance := 0; ui_tab := TUtxos; ui_tip := 0; ui_last := None;
  rd_header := true; rd_main := true; rd_footer := true |}.

(** A record of [addresses] (schema.sql:12-18): its index, address and the amount received. *)
Definition addr_row : Type := N * N * N.
(** What the main area shows (ui.rs:440-485): coins with outpoint, address and
    value; nothing; or the address records. *)
Inductive area := MCoins (l : list ((N * N) * (N * N))) | MHistory | MAddresses (l : list addr_row).
(** The terminal. *)
Record screen := { sc_header : option (tab * status * N); sc_main : option area; sc_footer : bool }.
Definition blank : screen := {| sc_header := None; sc_main := None; sc_footer := false |}.

(** wallet.rs:34-43 [Wallet] with the terminal. [w_running] says which of the two
    loops runs, [w_over] that [run] has returned. *)
Record wallet := { w_db : table; w_addrs : list addr_row; w_ui : ui; w_header : N; w_cfilter : N; w_screen : screen;
  w_running : bool; w_over : bool }.

(** wallet.rs:145-148, 176-181: keys; [F1] with the result of [Hw::connect] (not
    modelled). input.rs [Signal]. client/src/event.rs [Loading]; [LClosed] is the
    end of that channel. p2p/src/fsm/event.rs: the events the wallet looks at. *)
Inductive key := KRight | KTab | KLeft | KF1 (connected : bool) | KOther.
Inductive sign := WindowResized | Interrupted.
Inductive load := BlockHeaderLoaded (height : N) | FilterHeaderLoaded (height : N) | FilterHeaderVerified (height : N) | LClosed.
Inductive cevent := EReady (tip : N) | EPeerHeight (height : N) | EFilterProcessed (height : N) | EImported (height : N)
| EMatched (txs : list tx) | EScanned (height : N) | EOther.
(** A turn of a loop: what [select!] picks, the size of the terminal (taken not
    to change within a turn) and the time. *)
Inductive pick := PKey (k : key) | PSign (s : sign) | PLoad (l : load) | PEvent (e : cevent).
Record turn := Turn { tn_pick : pick; tn_size : N * N; tn_now : N }.

Definition set_ui (u : ui) (w : wallet) : wallet :=
  {| w_db := w_db w; w_addrs := w_addrs w; w_ui := u; w_header := w_header w; w_cfilter := w_cfilter w; w_screen := w_screen w;
     w_running := w_running w; w_over := w_over w |}.
Definition set_screen (sc : screen) (w : wallet) : wallet :=
  {| w_db := w_db w; w_addrs := w_addrs w; w_ui := w_ui w; w_header := w_header w; w_cfilter := w_cfilter w; w_screen := sc;
     w_running := w_running w; w_over := w_over w |}.
Definition set_db (t : table) (w : wallet) : wallet :=
  {| w_db := t; w_addrs := w_addrs w; w_ui := w_ui w; w_header := w_header w; w_cfilter := w_cfilter w; w_screen := w_screen w;
     w_running := w_running w; w_over := w_over w |}.
Definition set_header (h : N) (w : wallet) : wallet :=
  {| w_db := w_db w; w_addrs := w_addrs w; w_ui := w_ui w; w_header := h; w_cfilter := w_cfilter w; w_screen := w_screen w;
     w_running := w_running w; w_over := w_over w |}.
Definition set_cfilter (h : N) (w : wallet) : wallet :=
  {| w_db := w_db w; w_addrs := w_addrs w; w_ui := w_ui w; w_header := w_header w; w_cfilter := h; w_screen := w_screen w;
     w_running := w_running w; w_over := w_over w |}.
Definition set_running (w : wallet) : wallet :=
  {| w_db := w_db w; w_addrs := w_addrs w; w_ui := w_ui w; w_header := w_header w; w_cfilter := w_cfilter w; w_screen := w_screen w;
     w_running := true; w_over := w_over w |}.
Definition set_over (w : wallet) : wallet :=
  {| w_db := w_db w; w_addrs := w_addrs w; w_ui := w_ui w; w_header := w_header w; w_cfilter := w_cfilter w; w_screen := w_screen w;
     w_running := w_running w; w_over := true |}.

(** [as u16]. *)
Definition wrap16 (x : N) : N := x mod 2 ^ 16.

(** A new status and the flag of the header. *)
Definition ui_say (s : status) (tip : N) (u : ui) : ui :=
  {| ui_status := s; ui_balance := ui_balance u; ui_tab := ui_tab u; ui_tip := tip; ui_last := ui_last u;
     rd_header := true; rd_main := rd_main u; rd_footer := rd_footer u |}.
(** ui.rs:152-155 [offline]. *)
Definition ui_offline (off : bool) (u : ui) : ui := ui_say (Ready 0 off) (ui_tip u) u.
(** ui.rs:180-183 [set_balance]. *)
Definition ui_set_balance (b : N) (u : ui) : ui :=
  {| ui_status := ui_status u; ui_balance := b; ui_tab := ui_tab u; ui_tip := ui_tip u; ui_last := ui_last u;
     rd_header := true; rd_main := rd_main u; rd_footer := rd_footer u |}.
(** ui.rs:185-189 [handle_ready]. *)
Definition ui_ready (h : N) (off : bool) (u : ui) : ui := ui_say (Ready h off) h u.
(** ui.rs:191-197 [handle_filter_processed]. *)
Definition ui_filter (h : N) (u : ui) : ui := ui_say (Scanning h (ui_tip u)) (ui_tip u) u.
(** ui.rs:199-201 [handle_peer_height]: no flag. *)
Definition ui_peer (h : N) (u : ui) : ui :=
  {| ui_status := ui_status u; ui_balance := ui_balance u; ui_tab := ui_tab u; ui_tip := h; ui_last := ui_last u;
     rd_header := rd_header u; rd_main := rd_main u; rd_footer := rd_footer u |}.
(** ui.rs:203-211 [handle_synced]. *)
Definition ui_synced (h tip : N) (u : ui) : ui := ui_say (if tip =? h then Synced h else Syncing h tip) tip u.
(** ui.rs:213-228 [handle_input_event]. *)
Definition ui_turn (t : tab) (u : ui) : ui :=
  {| ui_status := ui_status u; ui_balance := ui_balance u; ui_tab := t; ui_tip := ui_tip u; ui_last := ui_last u;
     rd_header := true; rd_main := true; rd_footer := rd_footer u |}.
Definition ui_key (k : key) (u : ui) : ui :=
  match k with
  | KRight | KTab => ui_turn (tab_next (ui_tab u)) u
  | KLeft => ui_turn (tab_prev (ui_tab u)) u
  | KF1 _ | KOther => u
  end.
(** ui.rs:230-250 [handle_loading_event]: at most a redraw every 16 ms. *)
Definition ui_load (s : status) (now : N) (u : ui) : ui :=
  {| ui_status := s; ui_balance := ui_balance u; ui_tab := ui_tab u; ui_tip := ui_tip u; ui_last := ui_last u;
     rd_header := rd_header u || match ui_last u with None => true | Some t => 16 <? now - t end;
     rd_main := rd_main u; rd_footer := rd_footer u |}.
(** [self.redraw = REDRAW_ALL] (ui.rs:143). *)
Definition ui_all (u : ui) : ui :=
  {| ui_status := ui_status u; ui_balance := ui_balance u; ui_tab := ui_tab u; ui_tip := ui_tip u; ui_last := ui_last u;
     rd_header := true; rd_main := true; rd_footer := true |}.

Section Screen.
(** [Address::from_script] and [Address::script_pubkey] as in WalletModel.v; the
    length in bytes of the text of a balance and of a status (ui.rs:47-54,
    268-313; formatting of floats is not modelled). *)
Context (addr_of : N -> option N) (script_of : N -> N) (balance_len : N -> N) (status_len : status -> N).

(** ui.rs:387-438 [draw_header]: [Aligned::right] (line 96) and
    [Aligned::center] (line 107) subtract [u16]s. *)
Definition draw_header (size : N * N) (u : ui) (sc : screen) : M screen :=
  if size.1 <? wrap16 (balance_len (ui_balance u)) then Panic (POverflow 96)
  else if 2 ^ 16 <=? size.1 - wrap16 (balance_len (ui_balance u)) + 1 then Panic (POverflow 96)
  else if size.1 / 2 <? wrap16 (status_len (ui_status u)) / 2 then Panic (POverflow 107)
  else Val {| sc_header := Some (ui_tab u, ui_status u, ui_balance u); sc_main := sc_main sc; sc_footer := sc_footer sc |}.

(** ui.rs:440-461 [draw_utxo_tab]: [unwrap] of line 444, [MAIN_ROW + i as u16]
    of line 449. *)
Fixpoint draw_coins (i : N) (l : list ((N * N) * (N * N))) : M (list ((N * N) * (N * N))) :=
  match l with
  | [] => Val []
  | (op, (s, v)) :: l' =>
      match addr_of s with
      | None => Panic (PAssert 444)
      | Some a =>
          if 2 ^ 16 <=? 3 + wrap16 i then Panic (POverflow 449)
          else r <-- draw_coins (i + 1) l' ;; Val ((op, (a, v)) :: r)
      end
  end.
(** ui.rs:463-481 [draw_addresses_tab], table.rs:28-62 [render]: [i as u16 +
    start] of line 46 or 54; [width - 1] of line 57. Every row has at least two
    characters. *)
Fixpoint draw_rows (width : N) (i : N) (l : list addr_row) : M (list addr_row) :=
  match l with
  | [] => Val []
  | r :: l' =>
      if 2 ^ 16 <=? wrap16 i + 3 then Panic (POverflow 46)
      else if width =? 0 then Panic (POverflow 57)
      else rs <-- draw_rows width (i + 1) l' ;; Val (r :: rs)
  end.
Definition draw_main (size : N * N) (u : ui) (db : table) (addrs : list addr_row) : M area :=
  match ui_tab u with
  | TUtxos => l <-- draw_coins 0 (utxos script_of db) ;; Val (MCoins l)
  | THistory => Val MHistory
  | TAddresses => l <-- draw_rows size.1 0 addrs ;; Val (MAddresses l)
  end.
(** ui.rs:487-499 [draw_footer]: [height - 1]. *)
Definition draw_footer (size : N * N) (sc : screen) : M screen :=
  if size.2 =? 0 then Panic (POverflow 493)
  else Val {| sc_header := sc_header sc; sc_main := sc_main sc; sc_footer := true |}.

(** ui.rs:351-385 [refresh]. The main area is cleared with the bottom line
    below it. *)
Definition refresh (size : N * N) (now : N) (w : wallet) : M wallet :=
  let u := w_ui w in
  sc1 <-- (if rd_header u then draw_header size u (w_screen w) else Val (w_screen w)) ;;
  sc2 <-- (if rd_main u then a <-- draw_main size u (w_db w) (w_addrs w) ;;
      Val {| sc_header := sc_header sc1; sc_main := Some a; sc_footer := false |} else Val sc1) ;;
  sc3 <-- (if rd_footer u || rd_main u then draw_footer size sc2 else Val sc2) ;;
  if rd_header u || rd_main u || rd_footer u then
    Val (set_screen sc3 (set_ui {| ui_status := ui_status u; ui_balance := ui_balance u; ui_tab := ui_tab u; ui_tip := ui_tip u;
      ui_last := Some now; rd_header := false; rd_main := false; rd_footer := false |} w))
  else Val (set_screen sc3 w).

(** ui.rs:142-150 [Ui::redraw]: [reset] (ui.rs:157-166) clears the terminal. *)
Definition redraw (size : N * N) (now : N) (w : wallet) : M wallet :=
  refresh size now (set_screen blank (set_ui (ui_all (w_ui w)) w)).

(** wallet.rs:216-230 [handle_signal]. *)
Definition on_sign (s : sign) (size : N * N) (now : N) (w : wallet) : M wallet :=
  match s with WindowResized => redraw size now w | Interrupted => Val (set_over w) end.

(** wallet.rs:232-282 [handle_client_event]. *)
Definition on_event (watch : list N) (off : bool) (e : cevent) (size : N * N) (now : N) (w : wallet) : M wallet :=
  match e with
  | EReady tip => Val (set_ui (ui_ready tip off (w_ui w)) w)
  | EPeerHeight h => Val (set_ui (ui_peer h (w_ui w)) w)
  | EFilterProcessed h => Val (set_cfilter h (set_ui (ui_filter h (w_ui w)) w))
  | EImported h => Val (set_header h w)
  | EMatched txs =>
      db <-- apply_all addr_of script_of watch (w_db w) txs ;;
      let w1 := set_db db w in
      match balance db with
      | Err _ => Val (set_over w1)
      | Ok b => redraw size now (set_ui (ui_set_balance b (w_ui w1)) w1)
      end
  | EScanned h => Val (set_ui (ui_synced h (w_header w) (w_ui w)) w)
  | EOther => Val w
  end.

(** wallet.rs:144-169 and 175-197: one turn. A source that the running loop does not
    select from is left alone. *)
Definition wstep (watch : list N) (off : bool) (w : wallet) (t : turn) : M wallet :=
  if w_over w then Val w else
  let size := tn_size t in let now := tn_now t in
  let next (w' : wallet) := if w_over w' then Val w' else refresh size now w' in
  match tn_pick t with
  | PKey (KF1 false) => if w_running w then Val (set_over w) else next w
  | PKey k => next (set_ui (ui_key k (w_ui w)) w)
  | PSign s => w' <-- on_sign s size now w ;; next w'
  | PLoad l =>
      if w_running w then Val w else
      match l with
      | BlockHeaderLoaded h => next (set_ui (ui_load (LoadingBlockHeaders h) now (w_ui w)) w)
      | FilterHeaderLoaded h => next (set_ui (ui_load (LoadingFilterHeaders h) now (w_ui w)) w)
      | FilterHeaderVerified h => next (set_ui (ui_load (VerifyingFilterHeaders h) now (w_ui w)) w)
      | LClosed => Val (set_running w)
      end
  | PEvent e => if w_running w then w' <-- on_event watch off e size now w ;; next w' else Val w
  end.
Fixpoint wsteps (watch : list N) (off : bool) (w : wallet) (l : list turn) : M wallet :=
  match l with [] => Val w | t :: l' => w' <-- wstep watch off w t ;; wsteps watch off w' l' end.

(** wallet.rs:103-139, the start of [run], with the coins and addresses in the
    database. The re-scan asked of the client and the addresses asked of the
    hardware wallet are not modelled. *)
Definition wstart (db : table) (addrs : list addr_row) (off : bool) (size : N * N) (now : N) : M wallet :=
  match balance db with
  | Err _ => Val {| w_db := db; w_addrs := addrs; w_ui := ui0; w_header := 0; w_cfilter := 0; w_screen := blank; w_running := false; w_over := true |}
  | Ok b =>
      let w := {| w_db := db; w_addrs := addrs; w_ui := ui_offline off (ui_set_balance b ui0); w_header := 0; w_cfilter := 0;
        w_screen := blank; w_running := off; w_over := false |} in
      if off then refresh size now w else Val w
  end.
(** wallet.rs:93-201 [run]. *)
Definition wrun (watch : list N) (db : table) (addrs : list addr_row) (off : bool) (size : N * N) (now : N) (l : list turn) : M wallet :=
  w <-- wstart db addrs off size now ;; wsteps watch off w l.
End Screen.
