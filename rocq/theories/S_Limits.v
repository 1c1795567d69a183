(** Rounding up, stated without division. *)
From Coq Require Import ZArith.
Local Open Scope Z_scope.

(** [q] is the least number with [a <= q * b] *)
Definition least_multiple (a b q : Z) : Prop := a <= q * b /\ forall r, a <= r * b -> q <= r.
