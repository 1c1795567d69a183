(** Which frozen structures are aligned. *)
From Verif Require Import Base M_Mapper S_Mapper.

(** mapping [x], frozen at an 8-byte aligned address, reads only aligned objects exactly if [ok x] *)
Definition aligned_iff {A} (M : mappable A) (ok : A -> bool) : Prop := forall x flags addr post,
  typed (layout_of M) (data_of M x) -> 8 + frozen_size (layout_of M) (data_of M x) < 2 ^ 64 -> 0 <= flags < 2 ^ 64 -> addr mod 8 = 0 ->
  exists bytes written, freeze (layout_of M) (data_of M x) flags = (bytes, written) /\
  map_at true addr (bytes ++ post) (layout_of M) 0 = if ok x then Ok (data_of M x, written) else Ub Misaligned.

(** an array of [n] 16-bit numbers fills whole 64-bit words *)
Definition fills (n : Z) : bool := n mod 4 =? 0.

(** [aligned_iff] for one structure *)
Definition maps_aligned {A} (M : mappable A) (x : A) (ok : bool) : Prop := forall flags addr post, 0 <= flags < 2 ^ 64 -> addr mod 8 = 0 ->
  exists bytes written, freeze (layout_of M) (data_of M x) flags = (bytes, written) /\
  map_at true addr (bytes ++ post) (layout_of M) 0 = if ok then Ok (data_of M x, written) else Ub Misaligned.
