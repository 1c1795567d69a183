(** What the two enumerators of bit_vector really do where C05 and C06 fail. *)
From Verif Require Import Base Spec M_BitVector S_BitVector.

(** [c] is the number of zeros before the first one among the [n] bits of [l] from [p] *)
Definition first_in (l : list bool) (p n c : Z) : Prop :=
  0 <= c < n /\ nth_error l (Z.to_nat (p + c)) = Some true /\
  forall i, 0 <= i < c -> nth_error l (Z.to_nat (p + i)) = Some false.

(** the value of the bit at [p], 0 outside the sequence *)
Definition bit_at (l : list bool) (p : Z) : Z :=
  match nth_error l (Z.to_nat p) with Some true => 1 | _ => 0 end.

(** [l] with the one at [pos] replaced by a zero if it was already returned by [next] *)
Definition unread (l : list bool) (s : Z * bool) : list bool :=
  if snd s then firstn (Z.to_nat (fst s)) l ++ [false] ++ skipn (Z.to_nat (fst s) + 1) l else l.

(** The calls of a unary_enumerator as in [uspec], but with [skip0] in every state: it
    counts a one already returned by [next] as a zero. *)
Inductive uact (l : list bool) : Z * bool -> uop -> Z -> Z * bool -> Prop :=
| ua_next s q : is_select true l (rank true l (ustart s)) q ->
    uact l s UNext (Z.of_nat q) (Z.of_nat q, true)
| ua_skip s k q : 0 <= k -> is_select true l (rank true l (ustart s) + Z.to_nat k) q ->
    uact l s (USkip k) (Z.of_nat q) (Z.of_nat q, false)
| ua_skip_no_move s k q : 0 <= k -> is_select true l (rank true l (ustart s) + Z.to_nat k) q ->
    uact l s (USkipNoMove k) (Z.of_nat q) s
| ua_skip0 s k q : 0 <= k ->
    is_select false (unread l s) (rank false (unread l s) (Z.to_nat (fst s)) + Z.to_nat k) q ->
    uact l s (USkip0 k) (Z.of_nat q) (Z.of_nat q, snd s && (Z.of_nat q =? fst s)).
Inductive uact_run (l : list bool) : Z * bool -> list uop -> list Z -> Prop :=
| uar_nil s : uact_run l s [] []
| uar_cons s o r s' os rs : uact l s o r s' -> uact_run l s' os rs ->
    uact_run l s (o :: os) (r :: rs).
