(** Vocabulary for the theorems about the peers file. *)
From Coq Require Import String.
From Verif Require Import Base AddrModel PfileModel.
Open Scope N_scope.

(** What is assumed of the text form of addresses. *)
Record text_ok (show_ip : ip -> string) (parse_ip : string -> option ip)
    (show_addr : sockaddr -> string) (parse_addr : string -> option sockaddr) : Prop := {
  to_ip : forall i, parse_ip (show_ip i) = Some i;
  to_addr : forall a, parse_addr (show_addr a) = Some a;
  to_dns : forall a, show_addr a <> "dns"%string;
  to_imported : forall a, show_addr a <> "imported"%string }.

(** What is assumed of the JSON library: reading back what was written, with or
    without the final newline, and rejecting an object cut short. *)
Record json_ok (enc : jval -> list N) (dec : list N -> option jval) : Prop := {
  jo_line : forall l, dec (enc (JObj l) ++ [10]) = Some (JObj l);
  jo_text : forall l, dec (enc (JObj l)) = Some (JObj l);
  jo_cut : forall l k, (0 < k < List.length (enc (JObj l)))%nat -> dec (take k (enc (JObj l))) = None }.

(** A time truncated to whole seconds. *)
Definition whole_second (ms : N) : N := ms - ms mod 1000.
Definition truncated (k : known) : known :=
  Known (ka_addr k) (ka_source k) (whole_second <$> ka_success k) (whole_second <$> ka_sampled k)
    (whole_second <$> ka_attempt k) (whole_second <$> ka_active k).

(** All times are before the year 2106 (32-bit seconds). *)
Definition before (limit : N) (t : option N) : Prop := match t with Some ms => ms < limit | None => True end.
Definition times_before (limit : N) (k : known) : Prop :=
  before limit (ka_success k) /\ before limit (ka_sampled k) /\
  before limit (ka_attempt k) /\ before limit (ka_active k).
Definition year_2106 : N := 2 ^ 32 * 1000.
