(** Vocabulary for the theorems about the wallet's screen. *)
From Verif Require Import Base WalletModel ScreenModel.
Open Scope N_scope.

(** The tab after the keys pressed. *)
Definition press (t : tab) (x : turn) : tab :=
  match tn_pick x with
  | PKey KRight | PKey KTab => match t with TUtxos => THistory | THistory => TAddresses | TAddresses => TUtxos end
  | PKey KLeft => match t with THistory => TUtxos | TAddresses => THistory | TUtxos => TAddresses end
  | _ => t
  end.
Definition selected (l : list turn) : tab := fold_left press l TUtxos.

(** Whether the client has finished loading. *)
Definition loaded (off : bool) (l : list turn) : bool :=
  off || existsb (fun x => match tn_pick x with PLoad LClosed => true | _ => false end) l.
(** The events of the client taken from its channel: those after loading. *)
Fixpoint heard (off : bool) (l : list turn) : list cevent :=
  match l with
  | [] => []
  | x :: l' =>
      match tn_pick x with
      | PLoad LClosed => heard true l'
      | PEvent e => (if off then [e] else []) ++ heard off l'
      | _ => heard off l'
      end
  end.

(** The height of the last header import, and of the last tip heard of from
    peers, from the client or with a scan. *)
Definition imported (es : list cevent) : N :=
  fold_left (fun h e => match e with EImported h' => h' | _ => h end) es 0.
Fixpoint tip_of (rev_es : list cevent) : N :=
  match rev_es with
  | [] => 0
  | EReady h :: _ | EPeerHeight h :: _ => h
  | EScanned _ :: before => imported (rev before)
  | _ :: before => tip_of before
  end.
(** What the last event that says something about progress says; the events are given
    latest first. *)
Fixpoint progress (off : bool) (rev_es : list cevent) : option status :=
  match rev_es with
  | [] => if off then Some (Ready 0 true) else None
  | EReady h :: _ => Some (Ready h off)
  | EFilterProcessed h :: before => Some (Scanning h (tip_of before))
  | EScanned h :: before => Some (if imported (rev before) =? h then Synced h else Syncing h (imported (rev before)))
  | _ :: before => progress off before
  end.

(** The event says something about progress. *)
Definition speaks (e : cevent) : bool := match e with EReady _ | EFilterProcessed _ | EScanned _ => true | _ => false end.

(** The main area of a tab. *)
Definition is_area (addr_of : N -> option N) (script_of : N -> N) (t : tab) (db : table) (addrs : list addr_row) (a : area) : Prop :=
  match t with
  | TUtxos => exists l, a = MCoins l /\
      Forall2 (fun c d => d.1 = c.1 /\ addr_of c.2.1 = Some d.2.1 /\ d.2.2 = c.2.2) (utxos script_of db) l
  | THistory => a = MHistory
  | TAddresses => a = MAddresses addrs
  end.

(** The turn is one the running loop takes up, other than the end of loading. *)
Definition taken (off : bool) (l : list turn) (t : turn) : bool :=
  match tn_pick t with
  | PKey _ | PSign _ => true
  | PLoad LClosed => false
  | PLoad _ => negb (loaded off l)
  | PEvent _ => loaded off l
  end.

(** The status that loading calls for. *)
Definition loads (t : turn) : option status :=
  match tn_pick t with
  | PLoad (BlockHeaderLoaded h) => Some (LoadingBlockHeaders h)
  | PLoad (FilterHeaderLoaded h) => Some (LoadingFilterHeaders h)
  | PLoad (FilterHeaderVerified h) => Some (VerifyingFilterHeaders h)
  | _ => None
  end.

(** The events as far as the coins are concerned (WalletModel.v). *)
Definition block_of (e : cevent) : client_event := match e with EMatched txs => BlockMatched txs | _ => OtherEvent end.
Definition blocks (es : list cevent) : list client_event := map block_of es.

(** How many outputs the transactions of the matched blocks have. *)
Definition brings (t : turn) : N :=
  match tn_pick t with PEvent (EMatched txs) => foldr N.add 0 (map (fun x => lenN (tx_out x)) txs) | _ => 0 end.
Fixpoint all_brings (l : list turn) : N := match l with [] => 0 | t :: l' => brings t + all_brings l' end.

(** Heights are below [2^64], as their type has it. *)
Definition status_fits (s : status) : Prop :=
  match s with
  | Ready h _ | LoadingBlockHeaders h | LoadingFilterHeaders h | VerifyingFilterHeaders h | Synced h => h < 2 ^ 64
  | Scanning h t | Syncing h t => h < 2 ^ 64 /\ t < 2 ^ 64
  end.
Definition turn_fits (t : turn) : Prop :=
  match tn_pick t with
  | PLoad (BlockHeaderLoaded h) | PLoad (FilterHeaderLoaded h) | PLoad (FilterHeaderVerified h)
  | PEvent (EReady h) | PEvent (EPeerHeight h) | PEvent (EFilterProcessed h) | PEvent (EImported h) | PEvent (EScanned h) => h < 2 ^ 64
  | _ => True
  end.
(** The coins in the database are at addresses. *)
Definition table_ok (addr_of : N -> option N) (script_of : N -> N) (db : table) : Prop :=
  Forall (fun r => addr_of (script_of (row_addr r)) <> None) db.

(** What stops the wallet: a terminal without place for the top line, the bottom
    line or the addresses, or more rows than lines can be numbered. *)
Definition cause (balance_len : N -> N) (status_len : status -> N) (rows addrs : N) (size : N * N) (p : panic) : Prop :=
  (p = POverflow 96 /\ ((exists b, b < 2 ^ 64 /\ size.1 < balance_len b) \/ 2 ^ 16 <= size.1 + 1)) \/
  (p = POverflow 107 /\ exists s, status_fits s /\ size.1 < status_len s) \/
  (p = POverflow 57 /\ size.1 = 0) \/
  (p = POverflow 493 /\ size.2 = 0) \/
  (p = POverflow 46 /\ 2 ^ 16 < addrs + 3) \/
  (p = POverflow 449 /\ 2 ^ 16 < rows + 3).

(** After the turns [l] the turn ends the run: an interrupt, a hardware wallet
    that cannot be reached when asked for, or a block after which the coins
    have no balance (their sum overflows). *)
Definition ends (addr_of : N -> option N) (script_of : N -> N) (watch : list N) (off : bool) (db : table) (l : list turn) (t : turn) : Prop :=
  match tn_pick t with
  | PSign Interrupted => True
  | PKey (KF1 false) => loaded off l = true
  | PEvent (EMatched txs) => loaded off l = true /\ exists db', handle_events addr_of script_of watch db (blocks (heard off l ++ [EMatched txs])) = Val db' /\ balance db' = Err tt
  | _ => False
  end.
