(** Vocabulary for the header sync properties. *)
From Verif Require Import Base PowModel BlockModel BlockSpec SyncModel.
Open Scope N_scope.

Section Spec.
Context (H : header -> N) (cf : sconf).

Fixpoint sync_run (os : list (sync_op * senv)) (sc : sync * cache) : M (sync * cache * list (list sout)) :=
  match os with
  | [] => Val (sc, [])
  | o :: os' =>
      '(s, c, x) <-- sync_step H cf o sc ;;
      '(sc, xs) <-- sync_run os' (s, c) ;;
      Val (sc, x :: xs)
  end.

End Spec.

(** Hash maps are traversed and peers shuffled in some order. *)
Definition fair_env (e : senv) : Prop := forall n l, se_order e n l ≡ₚ l.
Definition fair_envs (os : list (sync_op * senv)) : Prop := Forall (fun oe => fair_env oe.2) os.

(** The locators of the [getheaders] messages sent to a peer. *)
Definition asks (a : N) (x : list sout) : list locators :=
  omap (fun o => match o with SoGetHeaders a' l => if a' =? a then Some l else None | _ => None end) x.

(** What an observer of the messages knows: since when a request to a peer is
    outstanding.  A request ends with a [headers] message from the peer, its
    disconnection, or a timer after the timeout [T]. *)
Definition ended (T a : N) (oe : sync_op * senv) (v : option N) : option N :=
  match oe.1 with
  | SDisconnect a' | SHeaders a' _ => if a' =? a then None else v
  | STimer => match v with Some t => if T <=? se_now oe.2 - t then None else v | None => None end
  | _ => v
  end.
Definition outstanding_step (T a : N) (oe : sync_op * senv) (x : list sout) (v : option N) : option N :=
  match asks a x with [] => ended T a oe v | _ => Some (se_now oe.2) end.
Fixpoint outstanding (T a : N) (os : list (sync_op * senv)) (xs : list (list sout)) (v : option N) : option N :=
  match os, xs with
  | o :: os', x :: xs' => outstanding T a os' xs' (outstanding_step T a o x v)
  | _, _ => v
  end.
(** Whether a peer is connected, and if outbound, offers the block chain. *)
Definition joined_step (a : N) (o : sync_op) (b : bool) : bool :=
  match o with
  | SNegotiated a' _ network _ outbound => if (a' =? a) && (negb outbound || network) then true else b
  | SDisconnect a' => if a' =? a then false else b
  | _ => b
  end.
Fixpoint joined (a : N) (os : list (sync_op * senv)) (b : bool) : bool :=
  match os with [] => b | o :: os' => joined a os' (joined_step a o.1 b) end.
Definition count (f : sout -> bool) (x : list sout) : nat := length (List.filter f x).

(** The header operations on the cache that a step may make. *)
Definition op_imports (oe : sync_op * senv) : list op :=
  match oe.1 with
  | SHeaders _ hds | SImport hds => [OImport hds (se_block_time oe.2)]
  | _ => []
  end.
Definition imports (os : list (sync_op * senv)) : list op := concat (map op_imports os).

(** The events about the chain among the outputs. *)
Definition chain_event (o : sout) : bool :=
  match o with SoDisconnected _ _ | SoConnected _ _ | SoImported _ _ _ _ _ => true | _ => false end.
Definition chain_events (x : list sout) : list sout := List.filter chain_event x.
(** The events that tell the result of an import: first the blocks that left
    the chain, from the top, then the blocks that joined it, from the bottom. *)
Definition events_of (r : result import_result err) : list sout :=
  match r with
  | Ok (TipChanged _ k h rv cn) =>
      map (fun p => SoDisconnected p.1 p.2) rv ++ map (fun p => SoConnected p.1 p.2) cn ++
      [SoImported (match rv with [] => false | _ => true end) k h rv cn]
  | _ => []
  end.
(** A listener that keeps its own copy of the chain. *)
Fixpoint replay (l : list header) (x : list sout) : option (list header) :=
  match x with
  | [] => Some l
  | SoDisconnected h hd :: x' =>
      match reverse l with
      | hd' :: l' => if bool_decide (hd' = hd) && (lenN l' =? h) then replay (reverse l') x' else None
      | [] => None
      end
  | SoConnected h hd :: x' => if lenN l =? h then replay (l ++ [hd]) x' else None
  | _ :: x' => replay l x'
  end.
(** Headers that are taken: from a connected peer, not more than a message may
    hold, asked for or few, and the last one not on the chain. *)
Definition taken (H : header -> N) (T : N) (os : list (sync_op * senv)) (xs : list (list sout)) (c : cache) (a : N) (hds : list (header * choice)) : Prop :=
  joined a os false = true /\ lenN hds <= 2000 /\ (outstanding T a os xs None <> None \/ lenN hds <= 24) /\
  exists hd, last hds = Some hd /\ H hd.1 ∉ map H (active c).

(** The height a peer has told in its handshake. *)
Definition told_step (a : N) (o : sync_op) (v : option N) : option N :=
  match o with
  | SNegotiated a' h network _ outbound => if (a' =? a) && (negb outbound || network) then Some h else v
  | SDisconnect a' => if a' =? a then None else v
  | _ => v
  end.
Fixpoint told (a : N) (os : list (sync_op * senv)) (v : option N) : option N :=
  match os with [] => v | o :: os' => told a os' (told_step a o.1 v) end.

(** Requests for the headers up to a given block, and those of them that were
    made for announcements and again at timers. *)
Definition upto (o : sout) : bool := match o with SoGetHeaders _ l => negb (l.2 =? 0) | _ => false end.
Fixpoint asked_by (f : sync_op -> bool) (os : list (sync_op * senv)) (xs : list (list sout)) : nat :=
  match os, xs with
  | o :: os', x :: xs' => ((if f o.1 then count upto x else 0) + asked_by f os' xs')%nat
  | _, _ => 0%nat
  end.
Definition at_timer (o : sync_op) : bool := match o with STimer => true | _ => false end.
Definition at_inv (o : sync_op) : bool := match o with SInv _ _ => true | _ => false end.

(** What an observer knows of a connected peer: the greatest height it has told
    or shown, whether it offers filters, whether we connected to it, and what
    it was asked for last. *)
Record pview := PView { pv_height : N; pv_filters : bool; pv_outbound : bool; pv_asked : option locators }.
(** The height of the new tip, if a step reports one. *)
Definition imported (x : list sout) : option N :=
  head (omap (fun o => match o with SoImported _ _ h _ _ => Some h | _ => None end) x).
Definition heard (a : N) (oe : sync_op * senv) (x : list sout) (v : option pview) : option pview :=
  match oe.1 with
  | SNegotiated a' h network filters outbound => if (a' =? a) && (negb outbound || network) then Some (PView h filters outbound None) else v
  | SDisconnect a' => if a' =? a then None else v
  | SHeaders a' _ =>
      match v, imported x with
      | Some p, Some h => if a' =? a then Some (PView (N.max (pv_height p) h) (pv_filters p) (pv_outbound p) (pv_asked p)) else v
      | _, _ => v
      end
  | _ => v
  end.
Definition remember (ls : list locators) (v : option pview) : option pview :=
  match v, last ls with
  | Some p, Some l => Some (PView (pv_height p) (pv_filters p) (pv_outbound p) (Some l))
  | _, _ => v
  end.
Fixpoint seen (a : N) (os : list (sync_op * senv)) (xs : list (list sout)) (v : option pview) : option pview :=
  match os, xs with
  | o :: os', x :: xs' => seen a os' xs' (remember (asks a x) (heard a o x v))
  | _, _ => v
  end.

(** When headers from a peer last changed the tip, and when the node was last idle. *)
Definition updated_step (oe : sync_op * senv) (x : list sout) (v : option N) : option N :=
  match oe.1, imported x with SHeaders _ _, Some _ => Some (se_now oe.2) | _, _ => v end.
Fixpoint updated (os : list (sync_op * senv)) (xs : list (list sout)) (v : option N) : option N :=
  match os, xs with
  | o :: os', x :: xs' => updated os' xs' (updated_step o x v)
  | _, _ => v
  end.
Definition idles (oe : sync_op * senv) (x : list sout) : bool :=
  match oe.1 with
  | SInitialize => true
  | STimer => forallb (fun o => match o with SoDisconnect _ => false | _ => true end) x
  | _ => false
  end.
Definition idled_step (oe : sync_op * senv) (x : list sout) (v : option N) : option N :=
  if idles oe x && (600000 <=? se_now oe.2 - default 0 v) then Some (se_now oe.2) else v.
Fixpoint idled (os : list (sync_op * senv)) (xs : list (list sout)) (v : option N) : option N :=
  match os, xs with
  | o :: os', x :: xs' => idled os' xs' (idled_step o x v)
  | _, _ => v
  end.

Section Reasons.
Context (H : header -> N) (cf : sconf) (os : list (sync_op * senv)) (xs : list (list sout)) (oe : sync_op * senv) (c c' : cache) (x : list sout).
Definition peer_view (a : N) : option pview := heard a oe x (seen a os xs None).
(** The locator of the active chain. *)
Definition located (l : list N) : Prop := locator_hashes H c' (c_height c') = Val l.
Definition is_ahead (a : N) : Prop := exists p, peer_view a = Some p /\ c_height c' < pv_height p.
Definition tip_is_old : Prop :=
  (exists u, updated os xs None = Some u /\ (sc_spacing cf * 3000 <= se_now oe.2 -> u + sc_spacing cf * 3000 < se_now oe.2)) \/
  (7200000 <= se_now oe.2 -> h_time (c_tip H c').2 * 1000 + 7200000 <= se_now oe.2).

(** Why a peer is asked for headers. *)
Inductive reason (a : N) : locators -> Prop :=
| (** somebody is ahead: a peer without filters is asked, one that is ahead
      if there is an outbound one that is not busy and was not asked the same *)
  WhyAhead l b p : located l -> is_ahead b -> peer_view a = Some p -> pv_filters p = false ->
    match oe.1 with SInitialize | STimer | SNegotiated _ _ _ _ _ => True | SHeaders _ hds => is_Some (imported x) /\ lenN hds < 2000 | _ => False end ->
    (forall b q, ended (sc_timeout cf) b oe (outstanding (sc_timeout cf) b os xs None) = None -> asks b x = [] ->
       peer_view b = Some q -> pv_outbound q = true -> pv_filters q = false -> c_height c' < pv_height q ->
       (forall l', pv_asked q = Some l' -> l'.1 <> l) -> is_ahead a) ->
    reason a (l, 0)
| (** the tip is old: outbound peers are asked that were not asked the same *)
  WhyOld l p : idles oe x = true -> tip_is_old -> located l -> peer_view a = Some p -> pv_outbound p = true ->
    (forall l', pv_asked p = Some l' -> l'.1 <> l) -> reason a (l, 0)
| (** it sent headers that do not change the tip: up to the first of them *)
  WhyUnconnected l hd hds : oe.1 = SHeaders a (hd :: hds) -> import_blocks H c (hd :: hds) (se_block_time oe.2) = Val (c', Ok TipUnchanged) ->
    located l -> reason a (l, H hd.1)
| (** it sent as many as fit in a message *)
  WhyMore hds b k h rv cn : oe.1 = SHeaders a hds -> lenN hds = 2000 -> SoImported b k h rv cn ∈ x -> reason a ([k], 0)
| (** it announced a block *)
  WhyAnnounced l stop inv : oe.1 = SInv a inv -> located l -> Some stop ∈ inv -> is_known c stop = false -> reason a (l, stop)
| (** another one did not answer, which is asked the same; it is outbound and was not asked the same *)
  WhyRetry b t l p : oe.1 = STimer -> b <> a -> outstanding (sc_timeout cf) b os xs None = Some t -> sc_timeout cf <= se_now oe.2 - t ->
    last (asks b (concat xs)) = Some l -> peer_view a = Some p -> pv_outbound p = true -> (forall l', pv_asked p = Some l' -> l'.1 <> l.1) -> reason a l.

(** The occasions to look for headers. *)
Definition occasion : Prop :=
  match oe.1 with
  | SNegotiated _ _ network _ outbound => negb outbound || network = true
  | SHeaders _ hds => is_Some (imported x) /\ lenN hds < 2000
  | SInitialize | STimer => 600000 <= se_now oe.2 - default 0 (idled os xs None)
  | _ => False
  end.
(** Peers are asked because the tip is old and for no other reason. *)
Definition sampling : Prop :=
  idles oe x = true /\ (exists a l, SoGetHeaders a (l, 0) ∈ x) /\ (forall b, ~ is_ahead b) /\
  (forall b t, outstanding (sc_timeout cf) b os xs None = Some t -> se_now oe.2 - t < sc_timeout cf).
End Reasons.
