(** Specification for default-constructed objects (property C97). *)
From Verif Require Import Base Spec M_Mapper S_Format.

(** freezing [x] writes the flags and [bytes]; mapping a memory that holds the flags and [bytes] gives [x] *)
Definition image_is {A} (M : mappable A) (x : A) (bytes : list Z) : Prop :=
  forall flags addr pre post, 0 <= flags < 2 ^ 64 ->
  freeze (layout_of M) (data_of M x) flags = (le 8 flags ++ bytes, 8 + zlen bytes) /\
  map_at false addr (pre ++ le 8 flags ++ bytes ++ post) (layout_of M) (zlen pre) = Ok (data_of M x, 8 + zlen bytes).

Definition zeros (n : nat) : list Z := repeat 0 n.
