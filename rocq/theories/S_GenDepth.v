(** Specification for C114: trees, their heights and the nesting of a sequence of parentheses *)
From Verif Require Import Base.

(** a full binary tree; in preorder an inner node is written as a one and a leaf as a zero *)
Inductive full := Leaf | Inner (l r : full).
Fixpoint preorder (t : full) : list bool := match t with Leaf => [false] | Inner l r => true :: preorder l ++ preorder r end.
(** the nodes on a longest way from the root to a leaf *)
Fixpoint height (t : full) : nat := match t with Leaf => 1%nat | Inner l r => S (Nat.max (height l) (height r)) end.
(** how much more ones than zeros there are *)
Fixpoint net (l : list bool) : Z := match l with [] => 0 | true :: l => net l + 1 | false :: l => net l - 1 end.
(** nowhere in the sequence are more than [d] parentheses open *)
Definition nested_at_most (d : Z) (l : list bool) : Prop := forall k, net (firstn k l) <= d.
