(** What the test oracles look for, stated without the model. *)
From Verif Require Import Base Spec.

(** [q] is the nearest [b] at or before, at or after [pos] *)
Definition nearest_before (b : bool) (l : list bool) (pos q : Z) : Prop :=
  0 <= q <= pos /\ pos < zlen l /\ nth_error l (Z.to_nat q) = Some b /\
  forall p, q < p <= pos -> nth_error l (Z.to_nat p) = Some (negb b).
Definition nearest_after (b : bool) (l : list bool) (pos q : Z) : Prop :=
  0 <= pos <= q /\ nth_error l (Z.to_nat q) = Some b /\ forall p, pos <= p < q -> nth_error l (Z.to_nat p) = Some (negb b).

(** an integer that the tests of bit_vector append *)
Definition int_ok (i : Z) : Prop := 0 < i < 2 ^ 64.
