(** Vocabulary for the theorems about the whole state machine. *)
From Verif Require Import Base PowModel BlockModel BlockSpec AddrModel AddrSpec PeerModel PeerSpec PeerMain DispModel LoadModel NodeModel NodeSpec FullModel.
From Verif Require SyncModel SyncSpec CbfModel CbfSpec.
Open Scope N_scope.

Notation wstate := (fsm full wmsg wev).

(** Headers that peers or the user presented. *)
Definition wheaders_of (o : wop) : list header :=
  match o with WReceived _ _ (WNode (MHeaders hds)) | WCommand (CmdImportHeaders hds) => hds | _ => [] end.
Definition wheaders (os : list wop) : list header := concat (map wheaders_of os).
Definition w_one_by_one (os : list wop) : Prop := Forall (fun o => lenN (wheaders_of o) <= 1) os.

Definition w_height_of (s : wstate) : N := c_height (n_cache (w_node (f_state s))).
Definition w_filter_height_of (s : wstate) : N := CbfModel.f_height (n_cbf (w_node (f_state s))).
Definition w_drained (s : wstate) : Prop := forall c, f_box s c = [].

Section Runs.
Context (step : wop -> wstate -> M (wstate * list (fitem wmsg wev))).
(** The height of the active chain never goes down in a run. *)
Fixpoint w_never_drops (os : list wop) (s : wstate) : Prop :=
  match os with
  | [] => True
  | o :: os' =>
      match step o s with
      | Val (s', _) => w_height_of s <= w_height_of s' /\ w_never_drops os' s'
      | Panic _ => True
      end
  end.
(** The outputs are taken before the next input is handled. *)
Fixpoint w_settled (os : list wop) (s : wstate) : Prop :=
  match os with
  | [] => True
  | o :: os' =>
      (o = WNext \/ w_drained s) /\
      match step o s with Val (s', _) => w_settled os' s' | Panic _ => True end
  end.
End Runs.

(** The panics of a running client: the user asks for filters beyond the
    filter headers; filter headers arrive while a rescan is active and no peer
    with filters is connected; the body of a block spends more than it has. *)
Definition w_known_panic (magic : N) (s : wstate) (o : wop) (p : panic) : Prop :=
  (p = PAssert 449 /\ exists a b, o = WCommand (CmdRequestFilters a b) /\ w_filter_height_of s < b) \/
  (p = PAssert 707 /\ exists from stop prev hs, o = WReceived from magic (WNode (MCFHeaders 0 stop prev hs)) /\
     CbfModel.r_active (CbfModel.c_rescan (n_cbf (w_node (f_state s)))) = true /\ CbfModel.c_peers (n_cbf (w_node (f_state s))) = ∅) \/
  (p = PAssert 169 /\ exists from b, o = WReceived from magic (WNode (MBlock b))).

(** The peer, address and ping managers: hash maps behave. *)
Definition fair_wenv (w : nat -> wenv) : Prop :=
  forall n, fair_kenv (we_peer (w n)) /\ fair_aenv (we_addr (w n)).

(** A client over loaded stores and an address book: as for the node of
    NodeSpec.v, and the peer manager is configured sensibly (PeerMain.v). *)
Record wsetup (H : header -> N) (ng : network -> N) (P : CbfModel.params) (kcf : kconf) (env : nat -> nenv) (wenv_of : nat -> wenv)
    (st : store) (ps : params) (cps : list (N * N)) (fst0 : list (N * N)) (c0 : cache) (am : amgr) (hs : list header) : Prop := {
  wu_node : setup H ng P env st ps cps fst0 c0 hs;
  wu_sane : sane kcf;
  wu_fair : fair_wenv wenv_of;
  wu_addr : exists e known, fair_aenv e /\ addr_new e known = Val am;
}.
