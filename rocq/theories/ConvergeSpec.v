(** Vocabulary for the order-independence of the active chain. *)
From Verif Require Import Base PowModel BlockModel BlockSpec.
Open Scope N_scope.

Section Spec.
Context (H : header -> N).

(** A chain on top of genesis [g] made of headers of [hs]. *)
Definition chain_of (g : header) (hs l : list header) : Prop :=
  linked_from H (H g) l /\ forall x, x ∈ l -> x ∈ hs.

(** No such chain has more work than [l], and those with equal work do not have
    a smaller tip hash. *)
Definition best_chain (g : header) (hs l : list header) : Prop :=
  chain_of g hs l /\
  forall l', chain_of g hs l' ->
    sum_work l' <= sum_work l /\
    (sum_work l' = sum_work l -> last_hash H (H g) l <= last_hash H (H g) l').

(** A history of imports only, of single headers or batches. *)
Definition imports (os : list op) : Prop := Forall (fun o => exists l now, o = OImport l now) os.

(** A header may be admitted by itself: it meets the target it claims, which is
    no easier than the network limit, and counts as positive work. *)
Definition acceptable (ps : params) (x : header) : Prop :=
  pow_value (H x) <= h_target x /\ h_target x <= p_pow_limit ps /\ 0 < h_work x.

(** Whichever chain of headers of [hs] is active, the last header of any such
    chain may follow its predecessor at the clock [now]. *)
Definition valid_in_any_context (ps : params) (g : header) (hs : list header) (now : N) : Prop :=
  forall c l, c_params c = ps -> c_checkpoints c = ∅ -> c_genesis c = g ->
    active c = g :: l -> chain_of g hs l ->
    forall l' x, chain_of g hs (l' ++ [x]) -> valid_at H c now (lenN l') (List.last l' g) x.

(** Distinct headers have distinct hashes. *)
Definition hash_injective (hs : list header) : Prop :=
  forall x y, x ∈ hs -> y ∈ hs -> H x = H y -> x = y.

(** A simple way to be valid in any context, on a network without retargeting:
    all blocks claim the target of genesis (the easiest one, if the network
    allows easy blocks), a block is later than every block at a smaller height,
    and none is ahead of the clock. *)
Record steady (ps : params) (g : header) (hs : list header) (height : header -> nat) (now : N) : Prop := {
  st_net : p_no_retarget ps = true /\ (p_allow_min ps = true -> h_bits g = easiest (p_network ps));
  st_exact : target_of_bits (bits_of_target (h_target g)) = h_target g;
  st_bits : forall x, x ∈ hs -> h_bits x = h_bits g;
  st_height : height g = 0%nat /\
    forall x p, x ∈ hs -> p ∈ g :: hs -> h_prev x = H p -> height x = S (height p);
  st_time : forall x y, x ∈ g :: hs -> y ∈ g :: hs -> (height x < height y)%nat -> h_time x < h_time y;
  st_pow : forall x, x ∈ hs -> pow_value (H x) <= h_target x;
  st_clock : forall x, x ∈ hs -> h_time x <= (now + 7200) mod 2 ^ 32;
}.

End Spec.
