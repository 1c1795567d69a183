(** Specification for C115: arrays that differ in places *)
From Verif Require Import Base.

(** arrays of the same length with the same elements at the places [P]; elsewhere they may differ *)
Definition same_at (P : Z -> Prop) (xs ys : list Z) : Prop :=
  length xs = length ys /\ forall i, 0 <= i -> P i -> nth_error xs (Z.to_nat i) = nth_error ys (Z.to_nat i).
