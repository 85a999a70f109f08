(** Proofs about the peers file. *)
From Coq Require Import String Ascii.
From Verif Require Import Base AddrModel PfileModel PfileSpec.
Open Scope N_scope.

(** A time as it comes back, whatever its size. *)
Definition saved_time (ms : N) : N := wrap32 (ms / 1000) * 1000.
Definition saved (k : known) : known :=
  Known (ka_addr k) (ka_source k) (saved_time <$> ka_success k) (saved_time <$> ka_sampled k)
    (saved_time <$> ka_attempt k) (saved_time <$> ka_active k).
Definition clock_limit : N := 2 ^ 64 * 1000.

Lemma saved_small ms : ms < year_2106 -> saved_time ms = whole_second ms.
Proof.
  unfold year_2106, saved_time, whole_second, wrap32, two32. change (2 ^ 32) with 4294967296. intros H.
  rewrite N.mod_small by (apply N.div_lt_upper_bound; lia).
  pose proof (N.div_mod ms 1000 ltac:(lia)). lia.
Qed.
Lemma saved_truncated k : times_before year_2106 k -> saved k = truncated k.
Proof.
  destruct k as [a s t1 t2 t3 t4]. unfold times_before, saved, truncated. cbn. intros (H1 & H2 & H3 & H4).
  destruct t1, t2, t3, t4; cbn in *; repeat rewrite saved_small by done; done.
Qed.
Lemma before_mono a b t : a <= b -> before a t -> before b t.
Proof. destruct t; cbn [before]; [lia|done]. Qed.

Section File.
Context (show_ip : ip -> string) (parse_ip : string -> option ip)
        (show_addr : sockaddr -> string) (parse_addr : string -> option sockaddr)
        (enc : jval -> list N) (dec : list N -> option jval).
Hypothesis TO : text_ok show_ip parse_ip show_addr parse_addr.
Hypothesis JO : json_ok enc dec.

Lemma time_json t : before clock_limit t ->
  exists v, time_to_json t = Val v /\ forall n, time_of_json (Some v) = Ok n <-> n = saved_time <$> t.
Proof.
  destruct t as [ms|]; cbn [before time_to_json].
  - intros H. unfold block_time, clock_limit in *.
    assert (ms / 1000 < 2 ^ 64) as L by (apply N.div_lt_upper_bound; lia).
    rewrite (proj2 (N.ltb_lt _ _) L). cbn [mbind_M]. eexists. split; [done|]. intros n. cbn [time_of_json].
    unfold wrap32 at 1. rewrite N.mod_small by (apply N.mod_upper_bound; done).
    unfold from_block_time, saved_time. cbn. split; [by intros [= <-]|by intros ->].
  - intros _. exists JNull. split; [done|]. intros n. cbn. split; [by intros [= <-]|by intros ->].
Qed.

Lemma json_round k : times_before clock_limit k ->
  exists v, to_json show_addr k = Val v /\ from_json parse_addr v = Val (Ok (saved k)).
Proof.
  destruct k as [[srv bits port] src t1 t2 t3 t4]. intros (H1 & H2 & H3 & H4). cbn in H1, H2, H3, H4.
  destruct (time_json t1 H1) as (v1 & E1 & T1). destruct (time_json t2 H2) as (v2 & E2 & T2).
  destruct (time_json t3 H3) as (v3 & E3 & T3). destruct (time_json t4 H4) as (v4 & E4 & T4).
  unfold to_json. cbn [ka_success ka_attempt ka_sampled ka_active ka_addr ka_source].
  rewrite E1, E2, E3, E4. cbn [mbind_M]. eexists. split; [done|].
  unfold from_json. cbn [jget List.find String.eqb Ascii.eqb Bool.eqb fst snd].
  rewrite (to_addr _ _ _ _ TO).
  rewrite (proj2 (T1 _) eq_refl), (proj2 (T2 _) eq_refl), (proj2 (T3 _) eq_refl), (proj2 (T4 _) eq_refl).
  unfold saved, address_new. cbn [fst snd ka_addr ka_source ka_success ka_attempt ka_sampled ka_active ad_services ad_bits ad_port].
  destruct src as [a| |].
  - destruct (String.eqb_spec (show_addr a) "dns") as [E|_]; [by destruct (to_dns _ _ _ _ TO a)|].
    destruct (String.eqb_spec (show_addr a) "imported") as [E|_]; [by destruct (to_imported _ _ _ _ TO a)|].
    by rewrite (to_addr _ _ _ _ TO).
  - done.
  - done.
Qed.

Lemma entries_round l : Forall (fun p => times_before clock_limit p.2) l ->
  exists js, entries show_ip show_addr l = Val js /\
    forall m, read_entries parse_ip parse_addr js m = Val (Ok (fold_left (fun m p => <[p.1 := saved p.2]> m) l m)).
Proof.
  induction 1 as [|[i k] l H _ (js & E & R)]; cbn [entries].
  { exists []. done. }
  destruct (json_round k H) as (v & Ev & Rv). rewrite Ev, E. cbn [mbind_M]. eexists. split; [done|].
  intros m. cbn [read_entries]. rewrite Rv. cbn [mbind_M]. rewrite (to_ip _ _ _ _ TO). by rewrite R.
Qed.

(** Inserting the entries of a map in any order rebuilds it. *)
Lemma fold_insert l : forall m : gmap ip known, NoDup (l.*1) ->
  fold_left (fun m p => <[p.1 := saved p.2]> m) l m = (saved <$> (list_to_map l : gmap ip known)) ∪ m.
Proof.
  induction l as [|[i k] l IH]; intros m ND; cbn [fold_left].
  { cbn. by rewrite fmap_empty, (left_id_L ∅ (∪)). }
  cbn in ND. apply NoDup_cons in ND as [Hi ND]. rewrite IH by done. cbn [fst snd].
  assert ((list_to_map ((i, k) :: l) : gmap ip known) = <[i := k]> (list_to_map l)) as -> by done.
  rewrite fmap_insert. apply map_eq. intros j. destruct (decide (j = i)) as [->|Hj].
  - rewrite lookup_union_r.
    + rewrite lookup_insert. rewrite (lookup_union_Some_l _ _ _ (saved k)); [done|]. by rewrite lookup_insert.
    + rewrite lookup_fmap, not_elem_of_list_to_map_1; [done|]. done.
  - rewrite !lookup_union. by rewrite !lookup_insert_ne by done.
Qed.

Lemma text_round (m : gmap ip known) order : order ≡ₚ map_to_list m ->
  map_Forall (fun _ k => times_before clock_limit k) m ->
  exists l, entries show_ip show_addr order = Val l /\ read_entries parse_ip parse_addr l ∅ = Val (Ok (saved <$> m)).
Proof.
  intros P F. destruct (entries_round order) as (js & E & R).
  { rewrite P. apply map_Forall_to_list in F. eapply Forall_impl; [exact F|]. by intros [i k]. }
  exists js. split; [done|]. rewrite R. do 2 f_equal.
  assert (NoDup (order.*1)) as ND by (rewrite P; apply NoDup_fst_map_to_list).
  rewrite fold_insert by done. rewrite (right_id_L ∅ (∪)). f_equal.
  rewrite (list_to_map_proper order (map_to_list m)); [apply list_to_map_to_list|done|done].
Qed.

Lemma file_round (m : gmap ip known) order : order ≡ₚ map_to_list m ->
  map_Forall (fun _ k => times_before clock_limit k) m ->
  exists text, file_text show_ip show_addr enc order = Val text /\
    read_file parse_ip parse_addr dec text = Val (Ok (saved <$> m)).
Proof.
  intros P F. destruct (text_round m order P F) as (l & E & R). unfold file_text. rewrite E. cbn [mbind_M].
  eexists. split; [done|]. unfold read_file. rewrite (jo_line _ _ JO).
  destruct (enc (JObj l) ++ [10]) eqn:En; [by destruct (enc (JObj l))|done].
Qed.

(** What can be read back after stopping anywhere in [flush]. *)
Lemma file_stopped (m : gmap ip known) order text old stop : order ≡ₚ map_to_list m ->
  map_Forall (fun _ k => times_before clock_limit k) m ->
  file_text show_ip show_addr enc order = Val text ->
  let r := read_file parse_ip parse_addr dec (file_during old text stop) in
  r = read_file parse_ip parse_addr dec old \/ r = Val (Ok (saved <$> m)) \/ r = Val (Ok ∅) \/ r = Val (Err tt).
Proof.
  intros P F T. destruct (text_round m order P F) as (l & E & R).
  unfold file_text in T. rewrite E in T. cbn [mbind_M] in T. injection T as <-.
  destruct stop as [k|]; [|by left]. right. cbn [file_during].
  assert (dec (enc (JObj l)) = Some (JObj l)) as Ht by apply (jo_text _ _ JO).
  set (b := enc (JObj l)) in *.
  destruct (decide (k = 0)%nat) as [->|Hk]; [by right; left|].
  destruct (decide (k < List.length b)%nat) as [Hl|Hl].
  { right. right. rewrite take_app_le by lia. unfold read_file.
    assert (dec (take k b) = None) as -> by (apply (jo_cut _ _ JO l k); fold b; lia). destruct (take k b) eqn:En; [|done].
    apply (f_equal List.length) in En. rewrite take_length in En. cbn in En. lia. }
  destruct (decide (k = List.length b)) as [->|Hl'].
  - rewrite take_app. unfold read_file. rewrite Ht. destruct b eqn:Eb; [right; by left|]. by left.
  - rewrite take_ge by (rewrite app_length; cbn [List.length]; lia). left. unfold read_file.
    assert (dec (b ++ [10]) = Some (JObj l)) as -> by apply (jo_line _ _ JO). destruct b; exact R.
Qed.
End File.

(** ** Witness: a text form meeting the assumptions *)

Fixpoint pos_text (p : positive) : string :=
  match p with
  | xH => EmptyString
  | xO q => String "0"%char (pos_text q)
  | xI q => String "1"%char (pos_text q)
  end.
Fixpoint text_pos (s : string) : option positive :=
  match s with
  | EmptyString => Some xH
  | String c s' =>
      if Ascii.eqb c "0"%char then xO <$> text_pos s'
      else if Ascii.eqb c "1"%char then xI <$> text_pos s' else None
  end.
Lemma text_pos_text p : text_pos (pos_text p) = Some p.
Proof. induction p as [p IH|p IH|]; cbn; [by rewrite IH..|done]. Qed.
Lemma pos_text_not p s : text_pos s = None -> pos_text p <> s.
Proof. intros H <-. by rewrite text_pos_text in H. Qed.

Definition ex_show_ip (i : ip) : string := pos_text (encode i).
Definition ex_parse_ip (s : string) : option ip := p ← text_pos s; decode p.
Definition ex_show_addr (a : sockaddr) : string := pos_text (encode a).
Definition ex_parse_addr (s : string) : option sockaddr := p ← text_pos s; decode p.
Lemma ex_text_ok : text_ok ex_show_ip ex_parse_ip ex_show_addr ex_parse_addr.
Proof.
  split; intros x; unfold ex_parse_ip, ex_parse_addr, ex_show_ip, ex_show_addr.
  - rewrite text_pos_text. cbn. apply decode_encode.
  - rewrite text_pos_text. cbn. apply decode_encode.
  - by apply pos_text_not.
  - by apply pos_text_not.
Qed.

(** A prefix code for JSON values: numbers in unary by a list of marks. *)
Definition enc_bits (p : positive) : list N :=
  (fix go p := match p with xH => [2] | xO q => 0 :: go q | xI q => 1 :: go q end) p.
Fixpoint dec_bits (l : list N) : option (positive * list N) :=
  match l with
  | [] => None
  | b :: l' =>
      if b =? 2 then Some (xH, l')
      else match dec_bits l' with
           | Some (q, r) => if b =? 0 then Some (xO q, r) else if b =? 1 then Some (xI q, r) else None
           | None => None
           end
  end.
Lemma dec_enc_bits p r : dec_bits (enc_bits p ++ r) = Some (p, r).
Proof. induction p as [p IH|p IH|]; cbn; [by fold (enc_bits p); rewrite IH..|done]. Qed.
Lemma dec_bits_cut p k : (k < List.length (enc_bits p))%nat -> dec_bits (take k (enc_bits p)) = None.
Proof.
  revert k. induction p as [p IH|p IH|]; intros [|k] H; cbn in *; try done; try lia;
    fold (enc_bits p) in *; rewrite IH by lia; done.
Qed.

Fixpoint jtree (v : jval) : gen_tree (string + N) :=
  match v with
  | JStr s => GenLeaf (inl s)
  | JNum n => GenLeaf (inr n)
  | JNull => GenNode 0 []
  | JOther => GenNode 1 []
  | JObj l => GenNode 2 (map (fun p => GenNode 3 [GenLeaf (inl p.1); jtree p.2]) l)
  end.
Fixpoint treej (t : gen_tree (string + N)) : jval :=
  match t with
  | GenLeaf (inl s) => JStr s
  | GenLeaf (inr n) => JNum n
  | GenNode 0 _ => JNull
  | GenNode 2 l => JObj (map (fun t => match t with
                                       | GenNode _ [GenLeaf (inl s); t'] => (s, treej t')
                                       | _ => (EmptyString, JNull) end) l)
  | _ => JOther
  end.
Fixpoint treej_jtree (v : jval) : treej (jtree v) = v.
Proof.
  destruct v as [s|n| |l|]; cbn [jtree treej]; try done.
  f_equal. induction l as [|[s v] l IH]; cbn [map]; [done|]. cbn [fst snd].
  rewrite treej_jtree. by rewrite IH.
Qed.
Definition ex_enc (v : jval) : list N := enc_bits (encode (jtree v)).
Definition ex_dec (l : list N) : option jval :=
  match dec_bits l with
  | Some (p, r) => if bool_decide (r = [] \/ r = [10]) then treej <$> decode p else None
  | None => None
  end.
Lemma ex_json_ok : json_ok ex_enc ex_dec.
Proof.
  split; unfold ex_dec, ex_enc.
  - intros l. rewrite dec_enc_bits. rewrite bool_decide_eq_true_2 by (by right).
    rewrite decode_encode. cbn [fmap option_fmap option_map]. by rewrite treej_jtree.
  - intros l. rewrite <- (app_nil_r (enc_bits _)), dec_enc_bits. rewrite bool_decide_eq_true_2 by (by left).
    rewrite decode_encode. cbn [fmap option_fmap option_map]. by rewrite treej_jtree.
  - intros l k H. rewrite dec_bits_cut by lia. done.
Qed.
