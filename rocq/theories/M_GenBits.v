(** Model of the generator of bit vectors of the tests. *)
From Verif Require Import Base M_BitVector M_Gen.

(** test_common.hpp:13-20. [rnd i] is the value of the i-th call of rand(), and density is num / den with den > 0. The comparison
    is exact here; in C++ the product RAND_MAX * density is rounded to a double. *)
Fixpoint random_bits_loop (rand_max num den : Z) (rnd : nat -> Z) (n i : nat) (v : list bool) : res (list bool) :=
  match n with
  | O => Ok v
  | S n =>
      do v <- vpush v (rnd i * den <? rand_max * num);
      random_bits_loop rand_max num den rnd n (S i) v
  end.
(** test_common.hpp:13-20 *)
Definition random_bit_vector (rand_max num den : Z) (rnd : nat -> Z) (n : Z) : res (list bool) :=
  random_bits_loop rand_max num den rnd (Z.to_nat n) 0 [].
