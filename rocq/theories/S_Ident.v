(** Objects with the same file *)
From Verif Require Import Base M_Mapper.

(** with the same flags both are frozen to the same bytes *)
Definition same_file {A} (M : mappable A) (x y : A) : Prop :=
  exists flags, 0 <= flags < 2 ^ 64 /\ fst (freeze (layout_of M) (data_of M x) flags) = fst (freeze (layout_of M) (data_of M y) flags).
