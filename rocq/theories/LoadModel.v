(** Model of starting the client over the files of an earlier run:
    client/src/client.rs:251-390 [Client::load], followed by
    p2p/src/fsm.rs:752-763 [initialize].

    Left out: the peer address book (PfileModel.v), the address and peer
    managers (AddrModel.v and PeerModel.v), the progress callbacks (they never
    interrupt) and failing operating system calls. *)
From Verif Require Import Base PowModel BlockModel StoreModel.
From Verif Require SyncModel CbfModel.
Open Scope N_scope.

(** The files [headers.db] and [filters.db]; [None]: the file does not exist. *)
Record files := Files { fl_headers : option (list N); fl_filters : option (list N) }.

(** client/src/error.rs: a store error, a block tree error, or the filter
    headers do not verify. *)
Inductive load_err := LStore (e : serr) | LTree (e : err) | LVerify.

(** What [network.rs] and the configuration provide: the genesis header, the
    consensus parameters, the checkpoints, what the filter manager is given and
    whether filter headers are verified. *)
Record lconf := LConf {
  lc_genesis : header;
  lc_params : params;
  lc_checkpoints : list (N * N);
  lc_filters : CbfModel.params;
  lc_capacity : N;
  lc_verify : bool;
}.

Section Open.
Context {A : Type} (size : nat) (dec : list N -> option A) (leaves : list N -> nat -> list N).

(** client.rs:271-289 and 305-323: create the file, or open and heal it. *)
Definition open_store (genesis : A) (o : option (list N)) : file A :=
  match o with
  | None => File [] genesis
  | Some bytes =>
      let f := File bytes genesis in
      match f_check size f with Ok _ => f | Err _ => f_heal size f end
  end.

(** The records after genesis, or the first error: chain/src/block/cache.rs:138-139
    and chain/src/filter/cache.rs:83-85. *)
Fixpoint collect (l : list (result (nat * A) serr)) : result (list A) serr :=
  match l with
  | [] => Ok []
  | Err e :: _ => Err e
  | Ok (_, x) :: l' => match collect l' with Ok xs => Ok (x :: xs) | Err e => Err e end
  end.
Definition read_store (f : file A) : M (result (list A) serr) :=
  match f_iter size dec leaves f with
  | None => Panic (PDiverge 138)
  | Some l => Val (collect (List.tl l))
  end.
End Open.

(** The block tree as the filter manager sees it (CbfModel.v): the hashes of
    the active chain and the height of the last checkpoint
    ([checkpoints().keys().next_back()], cbfmgr.rs:576). *)
Definition max_checkpoint (m : gmap N N) : option N :=
  match (map_to_list m).*1 with [] => None | k :: ks => Some (foldl N.max k ks) end.
Definition tree_of (H : header -> N) (c : cache) : CbfModel.tree :=
  CbfModel.Tree (H (cb_header (c_head c))) (map (fun b => H (cb_header b)) (c_tail c)) (max_checkpoint (c_checkpoints c)).

Section Load.
Context (H : header -> N) (ng : network -> N).
(** Records of the two files. *)
Context (hsize : nat) (hdec : list N -> option header).
Context (fsize : nat) (fdec : list N -> option (N * N)).
Context (leaves : list N -> nat -> list N).
Context (cf : lconf).

(** client.rs:263-339 with chain/src/block/cache.rs:85-172 and
    chain/src/filter/cache.rs:77-126.  Also gives the files as they are left.
    The genesis record of the filter store is computed from the network. *)
Definition load (fs : files) : files * M (result (cache * CbfModel.cbf) load_err) :=
  let hf := open_store hsize (lc_genesis cf) (fl_headers fs) in
  let ff := open_store fsize (CbfModel.genesis_entry (lc_filters cf)) (fl_filters fs) in
  let headers_only := Files (Some (f_bytes hf)) (fl_filters fs) in
  let both := Files (Some (f_bytes hf)) (Some (f_bytes ff)) in
  match read_store hsize hdec leaves hf with
  | Panic p => (headers_only, Panic p)
  | Val (Err e) => (headers_only, Val (Err (LStore e)))
  | Val (Ok hds) =>
      match from_store H ng (mkStore (lc_genesis cf) hds) (lc_params cf) (lc_checkpoints cf) with
      | Panic p => (headers_only, Panic p)
      | Val (Err e) => (headers_only, Val (Err (LTree e)))
      | Val (Ok c) =>
          (both,
           r <-- read_store fsize fdec leaves ff ;;
           match r with
           | Err e => Val (Err (LStore e))
           | Ok st =>
               let s := CbfModel.cbf0 (lc_capacity cf) st in
               if lc_verify cf && negb (CbfModel.f_verify (lc_filters cf) s) then Val (Err LVerify) else Val (Ok (c, s))
           end)
      end
  end.

(** fsm.rs:752-763 [initialize] for the managers that use the block tree; the
    heights are those of the event [Ready]. *)
Context (scf : SyncModel.sconf).
Record ready := Ready {
  rd_cache : cache;
  rd_sync : SyncModel.sync;
  rd_cbf : CbfModel.cbf;
  rd_tip : N;
  rd_filter_tip : N;
}.
Definition start (e : SyncModel.senv) (k : CbfModel.choices) (fs : files) : files * M (result ready load_err) :=
  let '(fs, r) := load fs in
  (fs, r <-- r ;;
       match r with
       | Err x => Val (Err x)
       | Ok (c, s) =>
           '(sy, _) <-- SyncModel.idle H scf e c SyncModel.sync_init ;;
           '(s, _) <-- CbfModel.idle (lc_filters cf) k (SyncModel.se_now e) (tree_of H c) s ;;
           Val (Ok (Ready c sy s (c_height c) (CbfModel.f_height s)))
       end).
End Load.
