(** Specification side of the cost of growing a builder. *)
From Verif Require Import Base M_BitVector S_BitVector.

(** what a vector of [size] elements with room for [cap] wants when it needs room for [n]; it takes [n] if that is more *)
Definition policy : Type := Z -> growth.
(** libc++: twice the capacity *)
Definition libcxx : policy := fun size cap n => 2 * cap.
(** libstdc++: size + max(size, n - size), that is the maximum of n and twice the size *)
Definition libstdcxx : policy := fun size cap n => 2 * size.
(** the library of Microsoft: half as much again *)
Definition msvc : policy := fun size cap n => cap + cap / 2.
(** only what is asked for *)
Definition tight : policy := fun size cap n => 0.

(** a reallocation at least doubles the capacity *)
Definition doubles_cap (p : policy) : Prop := forall size cap n, 0 <= size <= cap -> cap < n -> 2 * cap <= p size cap n.
(** or makes room for at least twice the elements *)
Definition doubles_size (p : policy) : Prop := forall size cap n, 0 <= size <= cap -> cap < n -> 2 * size <= p size cap n.
(** or adds at least the k-th part to the capacity *)
Definition grows_by (k : Z) (p : policy) : Prop := forall size cap n, 0 <= size <= cap -> cap < n -> (k + 1) * cap <= k * Z.max n (p size cap n).
(** and takes no more than twice the capacity or what is asked for *)
Definition at_most_double (p : policy) : Prop := forall size cap n, 0 <= size <= cap -> cap < n -> p size cap n <= Z.max (2 * cap) n.

(** any call but reserve *)
Definition not_reserve (o : op) : Prop := match o with Reserve _ _ => False | _ => True end.
(** the number of calls of reserve *)
Fixpoint reserves (os : list op) : Z :=
  match os with [] => 0 | o :: os => (match o with Reserve _ _ => 1 | _ => 0 end) + reserves os end.
