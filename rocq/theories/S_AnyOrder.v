(** Range minima under a comparator that need not be an order, stated without the model. *)
From Verif Require Import Base Spec S_Cartesian.

(** [winner comp v a b m]: reading v[a..b] from left to right, the element at [m] is the one that stands at the end. The first element stands
    at first. A new element takes the place of the one that stands only if it is before that one and, among the elements after
    that one and the new one, it is the new one that stands at the end. *)
Inductive winner {T} (comp : T -> T -> bool) (v : list T) : nat -> nat -> nat -> Prop :=
  | wins_alone a : winner comp v a a a
  | keeps_place a b m x y : winner comp v a b m -> nth_error v m = Some x -> nth_error v (S b) = Some y ->
      comp y x = false -> winner comp v a (S b) m
  | is_shielded a b m k : winner comp v a b m -> winner comp v (S m) (S b) k -> k <> S b -> winner comp v a (S b) m
  | takes_place a b m x y : winner comp v a b m -> nth_error v m = Some x -> nth_error v (S b) = Some y ->
      comp y x = true -> winner comp v (S m) (S b) (S b) -> winner comp v a (S b) (S b).

(** the element at [m] is before every earlier element of v[a..b], and no later one is before it *)
Definition beats_range {T} (comp : T -> T -> bool) (v : list T) (a b m : nat) : Prop :=
  (a <= m <= b)%nat /\ exists x, nth_error v m = Some x /\
  (forall j y, (a <= j < m)%nat -> nth_error v j = Some y -> comp x y = true) /\
  (forall j y, (m < j <= b)%nat -> nth_error v j = Some y -> comp y x = false).

(** the largest index of [a..b] with a minimal element *)
Definition rightmost_min {T} (comp : T -> T -> bool) (v : list T) (a b m : nat) : Prop :=
  (a <= m <= b)%nat /\ minimal_in comp v a b m /\ forall j, (m < j <= b)%nat -> ~ minimal_in comp v a b j.

(** the strict weak ordering requirements for the elements satisfying [P] *)
Definition order_on {T} (P : T -> Prop) (comp : T -> T -> bool) : Prop :=
  (forall x, P x -> comp x x = false) /\
  (forall x y z, P x -> P y -> P z -> comp x y = true -> comp y z = true -> comp x z = true) /\
  (forall x y z, P x -> P y -> P z -> comp x y = false -> comp y x = false -> comp y z = false -> comp z y = false ->
     comp x z = false /\ comp z x = false).

(** less_equal, for the order whose less is [comp] *)
Definition not_after {T} (comp : T -> T -> bool) (x y : T) : bool := negb (comp y x).

(** operator< of a floating point type, as far as order goes: [None] is the value that is not a number *)
Definition float_less (x y : option Z) : bool :=
  match x, y with
  | Some a, Some b => a <? b
  | _, _ => false
  end.
