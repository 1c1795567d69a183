(** The cost of enumerating gamma codes, stated without the model. *)
From Verif Require Import Base.

(** the bits after the leading one of x + 1, or of x + 2 *)
Definition payload (plus : Z) (xs : list Z) : Z := fold_right (fun x s => Z.log2 (x + plus) + s) 0 xs.

(** the position of the one in front of value number [i] in the high bits: gamma_vector writes the number of bits of each
    value before it in unary, gamma_bit_vector one less *)
Definition gv_place (xs : list Z) (i : nat) : Z := payload 1 (firstn i xs) + Z.of_nat i.
Definition gb_place (xs : list Z) (i : nat) : Z := payload 2 (firstn i xs).

(** the reads of a stream of [bits] bits for [k] codes: every bit is read, no code twice, and a read that could not be used up
    has been followed by a longer code *)
Definition reads_fit (bits : Z) (k : nat) (r : Z) : Prop := bits <= 64 * r <= 2 * bits + 64 /\ 0 <= r <= Z.of_nat k.
