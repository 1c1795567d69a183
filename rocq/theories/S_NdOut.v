(** How far the bits of a value reach that is written with a length *)
From Verif Require Import Base.

(** a value written at [pos] with length [len] reaches the end of the word if it fits there, and 64 bits otherwise *)
Definition reach (pos len : Z) : Z := if pos mod 64 + len <=? 64 then 64 - pos mod 64 else 64.
