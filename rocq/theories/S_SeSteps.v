(** The cost of enumerating an Elias-Fano encoding, stated without the model. *)
From Verif Require Import Base S_EfSteps.

(** the position of the one of value number [i] in the high bits: the [i] ones of the values before it and the
    zeros that end the buckets before its own *)
Definition high_place (n m : Z) (vs : list Z) (i : nat) : Z := nth i vs 0 / bucket n m + Z.of_nat i.

(** the words the low bits of [k] values are read with: each read serves as many values as fit in a word *)
Definition low_reads (n m : Z) (k : nat) : Z :=
  let width := Z.log2 (bucket n m) in
  if width =? 0 then 0 else let fit := 64 / width in (Z.of_nat k + fit - 1) / fit.
