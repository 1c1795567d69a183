(** Parentheses, stated without the model: [true] opens, [false] closes. *)
From Verif Require Import Base Spec.

(** balanced sequences *)
Inductive bal : list bool -> Prop :=
| bal_nil : bal []
| bal_pair u v : bal u -> bal v -> bal (true :: u ++ false :: v).

(** positions [p] and [m] hold the two parentheses of a pair *)
Definition matches (l : list bool) (p m : Z) : Prop :=
  exists a u b, l = a ++ true :: u ++ false :: b /\ bal u /\ p = zlen a /\ m = zlen a + 1 + zlen u.

(** [q] opens a pair that strictly contains position [p] *)
Definition encloses (l : list bool) (q p : Z) : Prop := exists m, matches l q m /\ q < p < m.
Definition innermost (l : list bool) (q p : Z) : Prop :=
  encloses l q p /\ forall q', encloses l q' p -> q' <= q.

(** opening minus closing parentheses among the first [p] *)
Definition depth (l : list bool) (p : Z) : Z :=
  Z.of_nat (count true (firstn (Z.to_nat p) l)) - Z.of_nat (count false (firstn (Z.to_nat p) l)).

(** no closing parenthesis without an opening one before it *)
Definition prefix_ok (l : list bool) : Prop := forall p, 0 <= p <= zlen l -> 0 <= depth l p.

(** [p] is the leftmost position of [a..b] of least depth *)
Definition leftmost_min_depth (l : list bool) (a b p : Z) : Prop :=
  a <= p <= b /\ (forall q, a <= q <= b -> depth l p <= depth l q) /\ (forall q, a <= q < p -> depth l p < depth l q).
