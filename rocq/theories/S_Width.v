(** Sizes of frozen files for other widths of size_t *)
From Verif Require Import Base M_Mapper S_Mapper.

(** with a size_t of [w] bytes the members take 8 - [w] bytes less for each of [k] members *)
Definition shrinks {A} (L : Z -> layout) (M : mappable A) (k : Z) : Prop :=
  forall x w, frozen_size (L w) (data_of M x) = frozen_size (layout_of M) (data_of M x) - k * (8 - w).
