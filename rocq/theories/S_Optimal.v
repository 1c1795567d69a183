(** Codes, stated without the model. *)
From Verif Require Import Base Spec S_Cartesian.

(** a code in bits for the objects of [P] that tells them apart *)
Definition is_code {A} (P : A -> Prop) (enc : A -> list bool) : Prop := forall x y, P x -> P y -> enc x = enc y -> x = y.

(** lists with the same leftmost minima in every range *)
Definition same_minima (v w : list Z) : Prop :=
  forall a b m, (a <= b)%nat -> (b < length v)%nat -> leftmost_min Z.ltb v a b m <-> leftmost_min Z.ltb w a b m.
