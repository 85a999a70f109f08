(** Property theorems about the header stores (C15-C17), each followed by a
    concrete case. *)
From Verif Require Import Base PowModel BlockModel BlockSpec BlockExample
  StoreModel StoreSpec StoreProofs StoreCrash.
Open Scope N_scope.

(** What the standard library's [read_exact] leaves behind on a short read. *)
Definition std_leaves (avail : list N) (n : nat) : list N :=
  avail ++ replicate (n - length avail) 0.
Lemma std_keeps_partial : keeps_partial std_leaves.
Proof. intros avail n _. unfold std_leaves. apply take_app. Qed.

(** ** C15 *)

(** The process dies while the cache handles one header after a history
    without store errors.  The choice [ch] of the operation says when: before
    the store is truncated ([ch_rollback_ok] false), or after [k] records have
    been appended ([ch_put] = [Some k]); [torn] are the bytes written of the
    next record.  Healing and reloading gives a linked chain that is a prefix
    of the old chain or of the new chain (the chain in memory at that time). *)
Theorem C15_crash_reload H ng s ps cps size enc dec leaves os c outs o ch c' r torn :
  params_ok ps -> codec size enc dec -> keeps_partial leaves ->
  reachable H ng s ps cps os c outs -> io_ok os -> transition H ng s ps cps os c o c' r ->
  one_header o ch -> ng (p_network ps) = H (s_genesis s) -> (length torn < size)%nat ->
  let f := f_heal size (File (encoded enc (s_tail (c_store c')) ++ torn) (s_genesis s)) in
  exists st c1,
    f_check size f = Ok tt /\
    f_iter size dec leaves f = Some (imap (fun i x => Ok (i, x)) (s_genesis s :: st)) /\
    from_store H ng (mkStore (s_genesis s) st) ps cps = Val (Ok c1) /\
    linked_from H (H (s_genesis s)) st /\ active c1 = s_genesis s :: st /\
    (active c1 `prefix_of` active c \/ active c1 `prefix_of` active c').
Proof. intros P C K. exact (crash_reload H ng s ps cps P size enc dec C leaves K os c outs o ch c' r torn). Qed.
Print Assumptions C15_crash_reload.

(** Dying after one of the three records of branch b has been written over
    branch a: the file holds [b1], a prefix of the new chain. *)
Definition ch_die (k : nat) : choice := mkChoice id true (Some k).
Lemma fair_die k : fair_choice (ch_die k).
Proof. intros l. reflexivity. Qed.
Example C15_case : exists c c' r,
  transition exH ex_ng ex_store (ex_params Regtest) [] [imp [a1; a2]; imp [b1; b2]] c
    (OImport [(b3, ch_die 1)] ex_now) c' r /\
  (active c = [ex_g; a1; a2] /\ active c' = [ex_g; b1; b2; b3] /\ s_tail (c_store c') = [b1]) /\
  io_ok [imp [a1; a2]; imp [b1; b2]] /\ one_header (OImport [(b3, ch_die 1)] ex_now) (ch_die 1).
Proof.
  destruct (ex_trans (ex_params Regtest) [] ex_store [imp [a1; a2]; imp [b1; b2]]
    (OImport [(b3, ch_die 1)] ex_now) (fun c c' r =>
      active c = [ex_g; a1; a2] /\ active c' = [ex_g; b1; b2; b3] /\ s_tail (c_store c') = [b1]))
    as (c & c' & r & T & E); [vm_compute; reflexivity|ex_fair| |vm_compute; repeat split|].
  { apply Forall_forall. intros x Hx. cbn in Hx. apply elem_of_list_singleton in Hx as ->. apply fair_die. }
  exists c, c', r. split; [exact T|]. split; [exact E|]. split; [ex_io|]. by exists b3.
Qed.

(** ** C16 *)

(** Both stores start with the same headers; every rollback is to a height
    that exists.  All answers agree, and so do the contents at the end. *)
Theorem C16_file_like_memory {A} size (enc : A -> list N) dec leaves g l os :
  codec size enc dec -> keeps_partial leaves -> rollbacks_exist (Memory g l) os ->
  exists f', f_run size enc dec leaves (File (encoded enc l) g) os = Some (f', (m_run (Memory g l) os).2) /\
    f_genesis f' = m_first (m_run (Memory g l) os).1 /\
    f_bytes f' = encoded enc (m_tail (m_run (Memory g l) os).1).
Proof. intros C K. exact (file_like_memory size enc dec C leaves K g l os). Qed.
Print Assumptions C16_file_like_memory.

(** Records of two bytes; more records than one read batch holds. *)
Definition ex_enc (p : N * N) : list N := [p.1; p.2].
Definition ex_dec (b : list N) : option (N * N) := match b with [x; y] => Some (x, y) | _ => None end.
Lemma ex_codec : codec 2 ex_enc ex_dec.
Proof. split; [lia|]. by intros []. Qed.
Definition ex_ops : list (store_op (N * N)) :=
  [SPut (replicate 20 (1, 2)); SLen; SRollback 17; SHeight; SPut [(7, 8)]; SGet 18; SGet 19; SIter; SCheck; SHeal].
Example C16_case : codec 2 ex_enc ex_dec /\ keeps_partial std_leaves /\
  rollbacks_exist (Memory (0, 0) []) ex_ops /\
  match f_run 2 ex_enc ex_dec std_leaves (File [] (0, 0)) ex_ops with
  | Some (f, rs) => rs = (m_run (Memory (0, 0) []) ex_ops).2 /\ rs !! 5%nat = Some (OutItem (Ok (7, 8))) /\
      rs !! 6%nat = Some (OutItem (Err SEof))
  | None => False
  end.
Proof.
  split; [apply ex_codec|]. split; [apply std_keeps_partial|]. split; [cbn; repeat split; lia|]. vm_compute. repeat split.
Qed.

(** Iteration depends on bytes that a failing [read_exact] leaves in its
    buffer: with an implementation that clears the buffer (its documentation
    allows any contents) the file store yields wrong headers. *)
Theorem C16_iteration_refuted_if_buffer_cleared :
  exists leaves, (forall avail n, length (leaves avail n) = n) /\
    exists f l, f_bytes f = encoded ex_enc l /\
    f_iter 2 ex_dec leaves f <> Some (m_iter (Memory (f_genesis f) l)).
Proof.
  exists (fun _ n => replicate n 0). split; [intros; apply replicate_length|].
  exists (File [1; 2] (0, 0)), [(1, 2)]. split; [reflexivity|]. vm_compute. discriminate.
Qed.
Print Assumptions C16_iteration_refuted_if_buffer_cleared.

(** Rolling back to a height above the tip (declared undefined in the code)
    makes the file store invent zeroed headers, the in-memory store none. *)
Example C16_rollback_beyond_tip :
  f_get 2 ex_dec 3 (f_rollback 2 3 (File [1; 2] (0, 0))) = Ok (0, 0) /\
  m_get 3 (m_rollback 3 (Memory (0, 0) [(1, 2)])) = Err SEof.
Proof. split; reflexivity. Qed.

(** ** C17 *)
Theorem C17_heal {A} size (dec : list N -> option A) (f : file A) : (0 < size)%nat ->
  (exists torn, f_bytes f = f_bytes (f_heal size f) ++ torn /\ (length torn < size)%nat /\
     f_genesis (f_heal size f) = f_genesis f) /\
  (forall h, f_get size dec h (f_heal size f) = f_get size dec h f) /\
  f_check size (f_heal size f) = Ok tt /\
  f_len size (f_heal size f) = Ok (length (f_bytes f) / size + 1)%nat /\
  (f_check size f = Ok tt <-> (length (f_bytes f) mod size)%nat = 0%nat) /\
  (f_check size f = Ok tt -> f_heal size f = f).
Proof. intros S. exact (heal_facts size S dec f). Qed.
Print Assumptions C17_heal.

(** A torn file iterates over its complete records, healed or not. *)
Theorem C17_torn_iteration {A} size (enc : A -> list N) dec leaves (g : A) l torn :
  codec size enc dec -> keeps_partial leaves -> (length torn < size)%nat ->
  f_heal size (File (encoded enc l ++ torn) g) = File (encoded enc l) g /\
  f_iter size dec leaves (File (encoded enc l ++ torn) g) = Some (imap (fun i x => Ok (i, x)) (g :: l)).
Proof. intros C K T. exact (conj (heal_records size enc dec C g l torn T) (f_iter_spec size enc dec C leaves K g l torn T)). Qed.
Print Assumptions C17_torn_iteration.

Example C17_case :
  f_heal 2 (File [1; 2; 3; 4; 5] (0, 0)) = File [1; 2; 3; 4] (0, 0) /\
  f_check 2 (File [1; 2; 3; 4; 5] (0, 0)) = Err SCorruption /\
  f_iter 2 ex_dec std_leaves (File [1; 2; 3; 4; 5] (0, 0)) = Some [Ok (0%nat, (0, 0)); Ok (1%nat, (1, 2)); Ok (2%nat, (3, 4))].
Proof. repeat split. Qed.
