(** Range minima, stated without the model. *)
From Verif Require Import Base Spec.

(** the C++ strict weak ordering requirements *)
Definition strict_weak_order {T} (comp : T -> T -> bool) : Prop :=
  (forall x, comp x x = false) /\
  (forall x y z, comp x y = true -> comp y z = true -> comp x z = true) /\
  (forall x y z, comp x y = false -> comp y x = false -> comp y z = false -> comp z y = false ->
     comp x z = false /\ comp z x = false).

(** no element of v[a..b] is before v[m] *)
Definition minimal_in {T} (comp : T -> T -> bool) (v : list T) (a b m : nat) : Prop :=
  exists x, nth_error v m = Some x /\
    forall i y, (a <= i <= b)%nat -> nth_error v i = Some y -> comp y x = false.

(** the smallest index of [a..b] with a minimal element *)
Definition leftmost_min {T} (comp : T -> T -> bool) (v : list T) (a b m : nat) : Prop :=
  (a <= m <= b)%nat /\ minimal_in comp v a b m /\ forall j, (a <= j < m)%nat -> ~ minimal_in comp v a b j.
