(** Parentheses without a counterpart, stated without the model. *)
From Verif Require Import Base Spec S_Bp.

(** the sequence as the words hold it: closing parentheses fill the last word *)
Definition padded (l : list bool) : list bool := l ++ repeat false (Z.to_nat (64 * ((zlen l + 63) / 64) - zlen l)).

(** an opening parenthesis without a closing one *)
Definition unmatched (l : list bool) (p : Z) : Prop := 0 <= p /\ nth_error l (Z.to_nat p) = Some true /\ forall m, ~ matches l p m.

(** [q] is the last parenthesis before [p] that is still open at [p] *)
Definition still_open (l : list bool) (q p : Z) : Prop :=
  0 <= q < p /\ depth l q = depth l p - 1 /\ forall k, q < k <= p -> depth l p <= depth l k.
