(** The length of frozen files, in terms of what was frozen. *)
From Verif Require Import Base M_Mapper.

(** the bytes of a file made by freeze *)
Definition file_bytes {A} (M : mappable A) (x : A) (flags : Z) : Z := zlen (fst (freeze (layout_of M) (data_of M x) flags)).

(** 64-bit words for [n] bits *)
Definition words_for (n : Z) : Z := (n + 63) / 64.

(** gamma codes: [high] bits in unary, [low] bits of payload, one sample in 1024 of the [n + 1] ones in eight bytes and one in 64 in
    two; eight bytes for the flags, seven times eight for sizes *)
Definition gamma_file (high low n : Z) : Z :=
  64 + 8 * words_for high + 8 * words_for low + 8 * ((n + 1024) / 1024) + 2 * ((n + 64) / 64).
