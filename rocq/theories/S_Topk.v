(** Top-k retrieval and heaps, stated without the model. *)
From Coq Require Export Permutation Sorted.
From Verif Require Import Base Spec S_Cartesian.

(** == holds of the values neither of which is less *)
Definition eq_agrees {T} (lt eq : T -> T -> bool) : Prop :=
  forall x y, eq x y = negb (lt x y) && negb (lt y x).

(** the entries (value, index) of v[a..b] *)
Definition entries {T} (v : list T) (a b : nat) : list (T * Z) :=
  combine (window v a (b + 1 - a)) (map Z.of_nat (seq a (b + 1 - a))).

(** larger value first, then smaller index *)
Definition before {T} (lt : T -> T -> bool) (e f : T * Z) : Prop :=
  lt (fst f) (fst e) = true \/ (lt (fst e) (fst f) = false /\ lt (fst f) (fst e) = false /\ snd e < snd f).

(** all entries of v[a..b], in that order *)
Definition ranking {T} (lt : T -> T -> bool) (v : list T) (a b : nat) (r : list (T * Z)) : Prop :=
  Permutation r (entries v a b) /\ StronglySorted (before lt) r.

(** ** the C++ standard on heaps *)

(** no element is greater than its parent *)
Definition is_heap {A} (comp : A -> A -> bool) (l : list A) : Prop :=
  forall i x y, (0 < i)%nat -> nth_error l ((i - 1) / 2) = Some x -> nth_error l i = Some y -> comp x y = false.

(** std::push_heap: the array without its last element is a heap; makes the array one *)
Definition push_heap_ok {A} (comp : A -> A -> bool) (push : list A -> list A) : Prop :=
  forall l x, is_heap comp l -> is_heap comp (push (l ++ [x])) /\ Permutation (push (l ++ [x])) (l ++ [x]).

(** std::pop_heap: moves the first element of a heap to the end and makes the rest a heap *)
Definition pop_heap_ok {A} (comp : A -> A -> bool) (pop : list A -> list A) : Prop :=
  forall x l, is_heap comp (x :: l) -> exists l', pop (x :: l) = l' ++ [x] /\ is_heap comp l' /\ Permutation l' l.
