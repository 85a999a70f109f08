(** Model of the peers file: client/src/peer.rs and the JSON form of known
    addresses, common/src/p2p/peer.rs:228-347. The maps and the known addresses
    are those of the address manager's model. *)
From Coq Require Import String.
From Verif Require Import Base AddrModel.
Open Scope N_scope.

(** [microserde::json::Value]; [JOther] stands for arrays, booleans and other
    numbers, which are never written and always rejected. *)
Inductive jval :=
| JStr (s : string)
| JNum (n : N)
| JNull
| JObj (l : list (string * jval))
| JOther.

(** [obj.get(key)]. *)
Definition jget (k : string) (l : list (string * jval)) : option jval :=
  match List.find (fun p => String.eqb p.1 k) l with Some p => Some p.2 | None => None end.

(** net/src/time.rs:44-46 [as_secs] ([try_into().unwrap()] to [u64]) and
    common/src/block/time.rs:121-123 [block_time] ([as u32]); times are in
    milliseconds. *)
Definition block_time (ms : N) : M N :=
  if ms / 1000 <? 2 ^ 64 then Val (wrap32 (ms / 1000)) else Panic (PAssert 45).
(** block/time.rs:129-131 [from_block_time], time.rs:37-41 [from_secs]. *)
Definition from_block_time (secs : N) : N := secs * 1000.

Definition time_to_json (t : option N) : M jval :=
  match t with None => Val JNull | Some ms => n <-- block_time ms ;; Val (JNum n) end.
(** peer.rs:298-303 and its copies: [*n as u32]. *)
Definition time_of_json (v : option jval) : result (option N) unit :=
  match v with
  | None | Some JNull => Ok None
  | Some (JNum n) => Ok (Some (from_block_time (wrap32 n)))
  | _ => Err tt
  end.

Section File.
(** Text forms of addresses ([to_string], [parse] of [std::net]) and of JSON
    values ([microserde::json::to_string], [from_str]); not modelled. *)
Context (show_ip : ip -> string) (parse_ip : string -> option ip)
        (show_addr : sockaddr -> string) (parse_addr : string -> option sockaddr)
        (enc : jval -> list N) (dec : list N -> option jval).

(** bitcoin [Address::new]: IPv4 addresses are mapped into ::ffff:0:0/96. *)
Definition address_new (a : sockaddr) (services : N) : address :=
  Address services (if a.1.1 then 0xffff * 2 ^ 32 + a.1.2 else a.1.2) a.2.

(** peer.rs:229-279 [to_json]: the eight segments are always shown as an IPv6
    address (line 234). *)
Definition to_json (k : known) : M jval :=
  t1 <-- time_to_json (ka_success k) ;;
  t2 <-- time_to_json (ka_attempt k) ;;
  t3 <-- time_to_json (ka_sampled k) ;;
  t4 <-- time_to_json (ka_active k) ;;
  Val (JObj
    [("address"%string, JStr (show_addr ((false, ad_bits (ka_addr k)), ad_port (ka_addr k))));
     ("services"%string, JNum (ad_services (ka_addr k)));
     ("last_success"%string, t1);
     ("last_attempt"%string, t2);
     ("last_sampled"%string, t3);
     ("last_active"%string, t4);
     ("source"%string, JStr match ka_source k with
        | FromDns => "dns"%string
        | FromImport => "imported"%string
        | FromPeer a => show_addr a
        end)]).

(** peer.rs:282-346 [from_json]: a malformed address panics (line 291). *)
Definition from_json (v : jval) : M (result known unit) :=
  match v with
  | JObj obj =>
      match jget "address" obj with
      | Some (JStr s) =>
          match parse_addr s with
          | None => Panic (PAssert 291)
          | Some a =>
              match jget "services" obj with
              | Some (JNum srv) =>
                  match time_of_json (jget "last_success" obj), time_of_json (jget "last_attempt" obj),
                        time_of_json (jget "last_sampled" obj), time_of_json (jget "last_active" obj) with
                  | Ok t1, Ok t2, Ok t3, Ok t4 =>
                      match jget "source" obj with
                      | Some (JStr src) =>
                          let k s := Val (Ok (Known (address_new a srv) s t1 t3 t2 t4)) in
                          if String.eqb src "dns" then k FromDns
                          else if String.eqb src "imported" then k FromImport
                          else match parse_addr src with
                               | Some p => k (FromPeer p)
                               | None => Val (Err tt)
                               end
                      | _ => Val (Err tt)
                      end
                  | _, _, _, _ => Val (Err tt)
                  end
              | _ => Val (Err tt)
              end
          end
      | _ => Val (Err tt)
      end
  | _ => Val (Err tt)
  end.

(** client peer.rs:105-109: the entries in the map's order ([order]). *)
Fixpoint entries (l : list (ip * known)) : M (list (string * jval)) :=
  match l with
  | [] => Val []
  | (i, k) :: l' =>
      v <-- to_json k ;;
      r <-- entries l' ;;
      Val ((show_ip i, v) :: r)
  end.
(** client peer.rs:101-119 [flush]: the text written, followed by a newline. *)
Definition file_text (order : list (ip * known)) : M (list N) :=
  l <-- entries order ;; Val (enc (JObj l) ++ [10]).
(** The file during [flush] (lines 112-116): untouched until [set_len(0)], then
    the part of the text written so far. [None] is a stop before truncation.
    Whether data reaches the disk before [sync_data] is up to the system; a
    stop covers any prefix. *)
Definition file_during (old text : list N) (stop : option nat) : list N :=
  match stop with None => old | Some k => take k text end.

(** client peer.rs:55-62: insert the entries one by one; the value is converted before
    the key. *)
Fixpoint read_entries (l : list (string * jval)) (m : gmap ip known) : M (result (gmap ip known) unit) :=
  match l with
  | [] => Val (Ok m)
  | (s, v) :: l' =>
      r <-- from_json v ;;
      match r with
      | Err e => Val (Err e)
      | Ok k => match parse_ip s with
                | None => Val (Err tt)
                | Some i => read_entries l' (<[i := k]> m)
                end
      end
  end.
(** client peer.rs:39-69 [from]: an empty file is an empty cache. *)
Definition read_file (bytes : list N) : M (result (gmap ip known) unit) :=
  match bytes with
  | [] => Val (Ok ∅)
  | _ =>
      match dec bytes with
      | Some (JObj l) => read_entries l ∅
      | _ => Val (Err tt)
      end
  end.
End File.
