(** rank and operator[] of elias_fano.hpp with a limit [k] on the rounds of their loops: past it the result is [Ub OutOfFuel] *)
From Verif Require Import Base M_BitVector M_Darray M_EliasFano.

(** elias_fano.hpp:138-158 *)
Definition ef_rank_in (k : nat) (ef : elias_fano) (pos : Z) : res Z :=
  assert! (pos <=? ef_size ef);
  assert! (negb (da_positions (ef_d0 ef) =? 0));
  if pos =? ef_size ef then Ok (ef_num_ones ef)
  else
    do h_rank <- shr pos (ef_l ef);
    do h_pos <- darray0_select (ef_d0 ef) (ef_high ef) h_rank;
    do m <- shl 1 (ef_l ef);
    ef_rank_loop k ef (Z.land pos (u64 (m - 1))) (sub64 h_pos h_rank) h_pos.

(** elias_fano.hpp:109-130 *)
Definition ef_get_in (k : nat) (ef : elias_fano) (pos : Z) : res bool :=
  assert! (pos <? ef_size ef);
  assert! (negb (da_positions (ef_d0 ef) =? 0));
  do h_rank <- shr pos (ef_l ef);
  do h_pos <- darray0_select (ef_d0 ef) (ef_high ef) h_rank;
  do m <- shl 1 (ef_l ef);
  ef_get_loop k ef (Z.land pos (u64 (m - 1))) (sub64 h_pos h_rank) h_pos.
