(** Model of the header stores: a file of fixed-size records and an in-memory
    list. *)
From Verif Require Import Base.
Open Scope N_scope.

(** Errors of common/src/block/store.rs:16-29 that the operations below can
    produce: an I/O error of kind [UnexpectedEof], a decoding error, and a
    corruption error. *)
Inductive serr := SEof | SDecoding | SCorruption.

(** Answers to store operations. *)
Inductive store_op (A : Type) :=
| SPut (hs : list A)
| SRollback (height : nat)
| SGet (height : nat)
| SLen
| SHeight
| SIter
| SCheck
| SHeal
| SSync.
Arguments SPut {A}. Arguments SRollback {A}. Arguments SGet {A}. Arguments SLen {A}.
Arguments SHeight {A}. Arguments SIter {A}. Arguments SCheck {A}. Arguments SHeal {A}.
Arguments SSync {A}.

Inductive store_out (A : Type) :=
| OutHeight (r : result nat serr)
| OutUnit (r : result unit serr)
| OutItem (r : result A serr)
| OutItems (l : list (result (nat * A) serr)).
Arguments OutHeight {A}. Arguments OutUnit {A}. Arguments OutItem {A}. Arguments OutItems {A}.

(** ** In-memory store *)
Section Memory.
Context {A : Type}.

(** chain/src/block/store/memory.rs:10 *)
Record memory := Memory { m_first : A; m_tail : list A }.
Definition m_all (m : memory) : list A := m_first m :: m_tail m.

(** chain/src/block/store/memory.rs:41-44 *)
Definition m_put (hs : list A) (m : memory) : memory * result nat serr :=
  let m' := Memory (m_first m) (m_tail m ++ hs) in
  (m', Ok (length (m_all m') - 1)%nat).

(** chain/src/block/store/memory.rs:47-55 *)
Definition m_get (height : nat) (m : memory) : result A serr :=
  match m_all m !! height with Some x => Ok x | None => Err SEof end.

(** chain/src/block/store/memory.rs:58-64 *)
Definition m_rollback (height : nat) (m : memory) : memory :=
  match height with
  | O => Memory (m_first m) []
  | h => Memory (m_first m) (take h (m_tail m))
  end.

(** chain/src/block/store/memory.rs:72-80 *)
Definition m_iter (m : memory) : list (result (nat * A) serr) :=
  imap (fun i x => Ok (i, x)) (m_all m).

(** chain/src/block/store/memory.rs:36-100 *)
Definition m_step (m : memory) (o : store_op A) : memory * store_out A :=
  match o with
  | SPut hs => let '(m', r) := m_put hs m in (m', OutHeight r)
  | SRollback h => (m_rollback h m, OutUnit (Ok tt))
  | SGet h => (m, OutItem (m_get h m))
  | SLen => (m, OutHeight (Ok (length (m_all m))))
  | SHeight => (m, OutHeight (Ok (length (m_all m) - 1)%nat))
  | SIter => (m, OutItems (m_iter m))
  | SCheck => (m, OutUnit (Ok tt))
  | SHeal => (m, OutUnit (Ok tt))
  | SSync => (m, OutUnit (Ok tt))
  end.

Fixpoint m_run (m : memory) (os : list (store_op A)) : memory * list (store_out A) :=
  match os with
  | [] => (m, [])
  | o :: os' =>
      let '(m1, r) := m_step m o in
      let '(m2, rs) := m_run m1 os' in (m2, r :: rs)
  end.
End Memory.
Arguments memory : clear implicits.

(** ** File store *)
Section File.
Context {A : Type}.
(** Size, encoding and decoding of a record ([size_of], [consensus_encode] and
    [consensus_decode] of the bitcoin crate). *)
Context (size : nat) (enc : A -> list N) (dec : list N -> option A).
(** Contents of the buffer after a [read_exact] of [n] bytes fails because
    only the bytes [avail] were left; its documentation leaves it open. *)
Context (leaves : list N -> nat -> list N).

(** chain/src/block/store/io.rs:133-136.  Operating system calls on the open
    file succeed. *)
Record file := File { f_bytes : list N; f_genesis : A }.

(** [File::set_len]: truncate or extend with zeros. *)
Definition set_len (n : nat) (bs : list N) : list N :=
  take n bs ++ replicate (n - length bs) 0.

(** chain/src/block/store/io.rs:15-26 and 170-172 *)
Definition f_put (hs : list A) (f : file) : file * result nat serr :=
  let pos := (length (f_bytes f) + sum_list_with (fun h => length (enc h)) hs)%nat in
  (File (f_bytes f ++ concat (map enc hs)) (f_genesis f), Ok (pos / size)%nat).

(** chain/src/block/store/io.rs:29-37 and 176-184 *)
Definition f_get (height : nat) (f : file) : result A serr :=
  match height with
  | O => Ok (f_genesis f)
  | S ix =>
      let rest := drop (ix * size) (f_bytes f) in
      if (length rest <? size)%nat then Err SEof
      else match dec (take size rest) with Some x => Ok x | None => Err SDecoding end
  end.

(** chain/src/block/store/io.rs:188-194 *)
Definition f_rollback (height : nat) (f : file) : file :=
  File (set_len (height * size) (f_bytes f)) (f_genesis f).

(** chain/src/block/store/io.rs:211-222 *)
Definition f_len (f : file) : result nat serr :=
  if Nat.eqb (length (f_bytes f) mod size) 0 then Ok (length (f_bytes f) / size + 1)%nat
  else Err SCorruption.

(** chain/src/block/store/io.rs:225-227 *)
Definition f_height (f : file) : result nat serr :=
  match f_len f with Ok n => Ok (n - 1)%nat | Err e => Err e end.

(** chain/src/block/store/io.rs:230-232 *)
Definition f_check (f : file) : result unit serr :=
  match f_len f with Ok _ => Ok tt | Err e => Err e end.

(** chain/src/block/store/io.rs:235-248 *)
Definition f_heal (f : file) : file :=
  let len := length (f_bytes f) in
  let extraneous := (len mod size)%nat in
  if negb (Nat.eqb extraneous 0) then File (set_len (len - extraneous) (f_bytes f)) (f_genesis f)
  else f.

(** chain/src/block/store/io.rs:40-48 *)
Record reader := Reader { rd_queue : list A; rd_index : nat }.
Definition batch_size : nat := 16.

(** chain/src/block/store/io.rs:80-85: decode [items] records, stopping at the
    first that does not decode. *)
Fixpoint decode_items (items : nat) (buf : list N) (queue : list A) : list A * option serr :=
  match items with
  | O => (queue, None)
  | S items' =>
      match dec (take size buf) with
      | Some x => decode_items items' (drop size buf) (queue ++ [x])
      | None => (queue, Some SDecoding)
      end
  end.

(** chain/src/block/store/io.rs:62-73: read one batch.  On a short read,
    [read_to_end] appends the available bytes to the buffer, whose first bytes
    are kept. *)
Definition read_batch (index : nat) (bs : list N) : list N :=
  let avail := drop index bs in
  let want := (size * batch_size)%nat in
  if (want <=? length avail)%nat then take want avail
  else take (length avail) (leaves avail want ++ avail).

(** chain/src/block/store/io.rs:58-88 *)
Definition reader_next (bs : list N) (r : reader) : reader * result (option A) serr :=
  match rd_queue r with
  | x :: queue => (Reader queue (rd_index r), Ok (Some x))
  | [] =>
      let buf := read_batch (rd_index r) bs in
      let index := (rd_index r + length buf)%nat in
      match decode_items (length buf / size) buf [] with
      | (queue, Some e) => (Reader queue index, Err e)
      | ([], None) => (Reader [] index, Ok None)
      | (x :: queue, None) => (Reader queue index, Ok (Some x))
      end
  end.

(** chain/src/block/store/io.rs:107-129, collected until the iterator yields
    [None]; running out of fuel yields [None] for the whole. *)
Fixpoint iter_items (fuel : nat) (bs : list N) (height : nat) (r : reader)
    : option (list (result (nat * A) serr)) :=
  match fuel with
  | O => None
  | S fuel' =>
      match reader_next bs r with
      | (_, Err SEof) => Some []
      | (r', Err e) => (cons (Err e)) <$> iter_items fuel' bs height r'
      | (r', Ok (Some x)) => (cons (Ok (height, x))) <$> iter_items fuel' bs (height + 1) r'
      | (_, Ok None) => Some []
      end
  end.

(** chain/src/block/store/io.rs:202-208 *)
Definition f_iter (f : file) : option (list (result (nat * A) serr)) :=
  (cons (Ok (0%nat, f_genesis f))) <$>
    iter_items (S (S (length (f_bytes f)))) (f_bytes f) 1 (Reader [] 0).

(** chain/src/block/store/io.rs:161-249; [None] only if an iteration runs out
    of fuel. *)
Definition f_step (f : file) (o : store_op A) : option (file * store_out A) :=
  match o with
  | SPut hs => let '(f', r) := f_put hs f in Some (f', OutHeight r)
  | SRollback h => Some (f_rollback h f, OutUnit (Ok tt))
  | SGet h => Some (f, OutItem (f_get h f))
  | SLen => Some (f, OutHeight (f_len f))
  | SHeight => Some (f, OutHeight (f_height f))
  | SIter => match f_iter f with Some l => Some (f, OutItems l) | None => None end
  | SCheck => Some (f, OutUnit (f_check f))
  | SHeal => Some (f_heal f, OutUnit (Ok tt))
  | SSync => Some (f, OutUnit (Ok tt))
  end.

Fixpoint f_run (f : file) (os : list (store_op A)) : option (file * list (store_out A)) :=
  match os with
  | [] => Some (f, [])
  | o :: os' =>
      match f_step f o with
      | None => None
      | Some (f1, r) =>
          match f_run f1 os' with
          | None => None
          | Some (f2, rs) => Some (f2, r :: rs)
          end
      end
  end.
End File.
Arguments file : clear implicits.
Arguments reader : clear implicits.
