(** Property theorems about the peers file (C57, C76), each followed by a
    concrete case. *)
From Coq Require Import String.
From Verif Require Import Base AddrModel PfileModel PfileSpec PfileProofs.
Open Scope N_scope.

(** ** C57 *)

(** Saving any set of addresses, in whatever order the map is walked, and
    reading the file gives the same addresses with times cut to whole seconds,
    for times before 2106. *)
Theorem C57_round_trip (show_ip : ip -> string) (parse_ip : string -> option ip)
    (show_addr : sockaddr -> string) (parse_addr : string -> option sockaddr)
    (enc : jval -> list N) (dec : list N -> option jval)
    (m : gmap ip known) (order : list (ip * known)) :
  text_ok show_ip parse_ip show_addr parse_addr -> json_ok enc dec ->
  order ≡ₚ map_to_list m -> map_Forall (fun _ k => times_before year_2106 k) m ->
  exists text, file_text show_ip show_addr enc order = Val text /\
    read_file parse_ip parse_addr dec text = Val (Ok (truncated <$> m)).
Proof.
  intros T J P F.
  destruct (file_round show_ip parse_ip show_addr parse_addr enc dec T J m order P) as (text & E & R).
  { intros i k Hk. destruct (F i k Hk) as (H1 & H2 & H3 & H4).
    assert (year_2106 <= clock_limit) as L by (vm_compute; discriminate).
    split; [|split; [|split]]; eapply before_mono; eauto. }
  exists text. split; [exact E|]. rewrite R. do 2 f_equal. apply map_fmap_ext. intros i k Hk.
  apply saved_truncated. exact (F i k Hk).
Qed.
Print Assumptions C57_round_trip.

(** Saving what was read changes nothing more. *)
Theorem C57_stable k : truncated (truncated k) = truncated k.
Proof.
  assert (forall ms, whole_second (whole_second ms) = whole_second ms) as W.
  { intros ms. unfold whole_second. pose proof (N.div_mod ms 1000 ltac:(lia)) as D.
    replace (ms - ms mod 1000) with (ms / 1000 * 1000) by lia. rewrite N.mod_mul by lia. lia. }
  destruct k as [a s t1 t2 t3 t4]. unfold truncated. cbn.
  destruct t1, t2, t3, t4; cbn; rewrite ?W; reflexivity.
Qed.
Print Assumptions C57_stable.

(** An IPv4 peer with two times and an IPv6 peer learned from it. *)
Definition pf_1 : known :=
  Known (Address 9 (0xffff * 2 ^ 32 + 0x01020304) 8333) FromDns (Some 1700000000123) None (Some 1700000000999) None.
Definition pf_2 : known :=
  Known (Address 1 (0x2001 * 2 ^ 112 + 7) 18333) (FromPeer ((true, 0x01020304), 8333)) None (Some 5) None (Some 42000).
Definition pf_map : gmap ip known := {[ (true, 0x01020304) := pf_1; (false, 0x2001 * 2 ^ 112 + 7) := pf_2 ]}.

Lemma pf_times : map_Forall (fun _ k => times_before year_2106 k) pf_map.
Proof.
  unfold pf_map. apply map_Forall_insert_2.
  - repeat split; vm_compute; reflexivity.
  - apply map_Forall_singleton. repeat split; vm_compute; reflexivity.
Qed.
Example C57_case :
  (exists text, file_text ex_show_ip ex_show_addr ex_enc (map_to_list pf_map) = Val text /\
     read_file ex_parse_ip ex_parse_addr ex_dec text = Val (Ok (truncated <$> pf_map))) /\
  truncated pf_1 = Known (Address 9 281470698652420 8333) FromDns (Some 1700000000000) None (Some 1700000000000) None /\
  truncated pf_2 = Known (Address 1 (0x2001 * 2 ^ 112 + 7) 18333) (FromPeer ((true, 16909060), 8333)) None (Some 0) None (Some 42000) /\
  to_json (fun a => if a.1.1 then "1.2.3.4:8333" else "[::ffff:1.2.3.4]:8333")%string pf_1 =
  Val (JObj [("address"%string, JStr "[::ffff:1.2.3.4]:8333"); ("services"%string, JNum 9);
             ("last_success"%string, JNum 1700000000); ("last_attempt"%string, JNum 1700000000);
             ("last_sampled"%string, JNull); ("last_active"%string, JNull); ("source"%string, JStr "dns")]).
Proof.
  split; [|split; [|split]]; [|reflexivity..].
  exact (C57_round_trip _ _ _ _ _ _ pf_map _ ex_text_ok ex_json_ok (reflexivity _) pf_times).
Qed.

(** Times from 2106 on are wrapped: without the bound the claim fails. *)
Theorem C57_wrap_refuted : exists k v,
  to_json ex_show_addr k = Val v /\ exists k', from_json ex_parse_addr v = Val (Ok k') /\
  k' <> truncated k /\ ka_success k' = Some 1000.
Proof.
  set (k := Known (Address 9 7 8333) FromDns (Some (2 ^ 32 * 1000 + 1500)) None None None).
  destruct (json_round ex_show_ip ex_parse_ip ex_show_addr ex_parse_addr ex_text_ok k) as (v & E & R).
  { split; [vm_compute; reflexivity|]. repeat split. }
  exists k, v. split; [exact E|]. exists (saved k). split; [exact R|].
  assert (ka_success (saved k) = Some 1000) as S1 by (vm_compute; reflexivity).
  split; [|exact S1]. intros Eq. rewrite Eq in S1. vm_compute in S1. discriminate S1.
Qed.
Print Assumptions C57_wrap_refuted.

(** A file with a malformed address stops the program instead of being
    reported. *)
Example C57_malformed :
  from_json ex_parse_addr (JObj [("address"%string, JStr "no address")]) = Panic (PAssert 291).
Proof. reflexivity. Qed.

(** ** C76 *)

(** If the program stops anywhere while saving, reading the file gives what the
    old file gives, what was being saved, nothing at all, or an error; it does
    not panic on a cut file. *)
Theorem C76_stopped (show_ip : ip -> string) (parse_ip : string -> option ip)
    (show_addr : sockaddr -> string) (parse_addr : string -> option sockaddr)
    (enc : jval -> list N) (dec : list N -> option jval)
    (m : gmap ip known) (order : list (ip * known)) text old stop :
  text_ok show_ip parse_ip show_addr parse_addr -> json_ok enc dec ->
  order ≡ₚ map_to_list m -> map_Forall (fun _ k => times_before year_2106 k) m ->
  file_text show_ip show_addr enc order = Val text ->
  let r := read_file parse_ip parse_addr dec (file_during old text stop) in
  r = read_file parse_ip parse_addr dec old \/ r = Val (Ok (truncated <$> m)) \/
  r = Val (Ok ∅) \/ r = Val (Err tt).
Proof.
  intros T J P F E r.
  assert (truncated <$> m = saved <$> m) as ->.
  { apply map_fmap_ext. intros i k Hk. symmetry. apply saved_truncated. exact (F i k Hk). }
  refine (file_stopped show_ip parse_ip show_addr parse_addr enc dec T J m order text old stop P _ E).
  intros i k Hk. destruct (F i k Hk) as (H1 & H2 & H3 & H4).
  assert (year_2106 <= clock_limit) as L by (vm_compute; discriminate).
  split; [|split; [|split]]; eapply before_mono; eauto.
Qed.
Print Assumptions C76_stopped.

(** Addresses can be lost: whatever the old file and whatever is being saved,
    there are stops after which the file reads as an empty set of addresses, and
    stops after which it cannot be read (and the client does not start). *)
Theorem C76_lost_refuted (show_ip : ip -> string) (parse_ip : string -> option ip)
    (show_addr : sockaddr -> string) (parse_addr : string -> option sockaddr)
    (enc : jval -> list N) (dec : list N -> option jval)
    (order : list (ip * known)) text old :
  text_ok show_ip parse_ip show_addr parse_addr -> json_ok enc dec ->
  file_text show_ip show_addr enc order = Val text -> (2 < List.length text)%nat ->
  read_file parse_ip parse_addr dec (file_during old text (Some 0%nat)) = Val (Ok ∅) /\
  read_file parse_ip parse_addr dec (file_during old text (Some 1%nat)) = Val (Err tt).
Proof.
  intros T J E L. split; [reflexivity|]. unfold file_text in E.
  destruct (entries show_ip show_addr order) as [l|]; [|discriminate E]. injection E as <-.
  rewrite app_length in L. cbn [List.length] in L. cbn [file_during]. rewrite take_app_le by lia.
  unfold read_file. rewrite (jo_cut _ _ J l 1) by lia. 
  destruct (take 1 (enc (JObj l))) eqn:En; [|reflexivity].
  apply (f_equal List.length) in En. rewrite take_length in En. cbn [List.length] in En. lia.
Qed.
Print Assumptions C76_lost_refuted.

Example C76_case : exists text,
  file_text ex_show_ip ex_show_addr ex_enc [] = Val text /\ (2 < List.length text)%nat /\
  read_file ex_parse_ip ex_parse_addr ex_dec (take 3 text) = Val (Err tt) /\
  text_ok ex_show_ip ex_parse_ip ex_show_addr ex_parse_addr /\ json_ok ex_enc ex_dec.
Proof.
  eexists. split; [reflexivity|]. split; [vm_compute; lia|]. split; [vm_compute; reflexivity|].
  exact (conj ex_text_ok ex_json_ok).
Qed.
