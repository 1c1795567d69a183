(** Model of rs_bit_vector.hpp and rs_bit_vector.cpp.

    Positions, ranks and counters are exact integers: they count stored bits, so the wrap at
    2^64 is not represented in additions and products. Subtractions wrap ([sub64]); packed
    words and products of packed words are reduced modulo 2^64. *)
From Verif Require Import Base M_Broadword M_BitVector.

(** rs_bit_vector.hpp:187-190 and the base class *)
Record rs_bit_vector := mk_rs {
  rs_bv : bit_vector;
  rs_pairs : list Z;
  rs_hints : list Z;
  rs_hints0 : list Z
}.

(** rs_bit_vector.hpp:183-185 *)
Definition block_size : Z := 8.
(** rs_bit_vector.hpp:184 *)
Definition select_ones_per_hint : Z := 64 * block_size * 2.
(** rs_bit_vector.hpp:185 *)
Definition select_zeros_per_hint : Z := select_ones_per_hint.

(** rs_bit_vector.hpp:13-15 *)
Definition rs_empty : rs_bit_vector := mk_rs bv_empty [] [] [].

(** ** build_indices *)

(** rs_bit_vector.cpp:14-30: state [pairs, next_rank, cur_subrank, subranks] *)
Fixpoint pairs_loop (ws : list Z) (i : Z) (pairs : list Z) (next_rank cur_subrank subranks : Z)
  : res (list Z * Z * Z * Z) :=
  match ws with
  | [] => Ok (pairs, next_rank, cur_subrank, subranks)
  | w :: ws =>
      let word_pop := popcount w in
      let shift := i mod block_size in
      do subranks <- (if shift =? 0 then Ok subranks
                      else do s <- shl subranks 9; Ok (Z.lor s cur_subrank));
      let next_rank := next_rank + word_pop in
      let cur_subrank := cur_subrank + word_pop in
      if shift =? block_size - 1 then
        pairs_loop ws (i + 1) (pairs ++ [subranks; next_rank]) next_rank 0 0
      else pairs_loop ws (i + 1) pairs next_rank cur_subrank subranks
  end.

(** rs_bit_vector.cpp:32-35 *)
Fixpoint fill_loop (n : nat) (subranks cur_subrank : Z) : res Z :=
  match n with
  | O => Ok subranks
  | S n => do s <- shl subranks 9; fill_loop n (Z.lor s cur_subrank) cur_subrank
  end.

(** rs_bit_vector.cpp:7-44 *)
Definition build_pairs (ws : list Z) : res (list Z) :=
  do (pairs, next_rank, cur_subrank, subranks) <- pairs_loop ws 0 [0] 0 0 0;
  let left := block_size - zlen ws mod block_size in
  do subranks <- fill_loop (Z.to_nat left) subranks cur_subrank;
  let pairs := pairs ++ [subranks] in
  if zlen ws mod block_size =? 0 then Ok pairs else Ok (pairs ++ [next_rank; 0]).

(** rs_bit_vector.hpp:156-158 *)
Definition num_blocks (pairs : list Z) : Z := sub64 (zlen pairs / 2) 1.
(** rs_bit_vector.hpp:160-162 *)
Definition block_rank (pairs : list Z) (block : Z) : res Z := rd pairs (block * 2).
(** rs_bit_vector.hpp:173-175 *)
Definition sub_block_ranks (pairs : list Z) (block : Z) : res Z := rd pairs (block * 2 + 1).
(** rs_bit_vector.hpp:177-179 *)
Definition block_rank0 (pairs : list Z) (block : Z) : res Z :=
  do r <- rd pairs (block * 2); Ok (sub64 (block * block_size * 64) r).

(** rs_bit_vector.cpp:49-54; [n] iterations from block [i] *)
Fixpoint hints_loop (pairs : list Z) (n : nat) (i threshold : Z) (hints : list Z) : res (list Z) :=
  match n with
  | O => Ok hints
  | S n =>
      do r <- block_rank pairs (i + 1);
      if threshold <? r then
        hints_loop pairs n (i + 1) (threshold + select_ones_per_hint) (hints ++ [i])
      else hints_loop pairs n (i + 1) threshold hints
  end.
(** rs_bit_vector.cpp:46-57 *)
Definition build_hints (pairs : list Z) : res (list Z) :=
  do hints <- hints_loop pairs (Z.to_nat (num_blocks pairs)) 0 select_ones_per_hint [];
  Ok (hints ++ [num_blocks pairs]).

(** rs_bit_vector.cpp:62-67; [n] iterations from block [i] *)
Fixpoint hints0_loop (pairs : list Z) (n : nat) (i threshold : Z) (hints : list Z) : res (list Z) :=
  match n with
  | O => Ok hints
  | S n =>
      do r <- block_rank0 pairs (i + 1);
      if threshold <? r then
        hints0_loop pairs n (i + 1) (threshold + select_zeros_per_hint) (hints ++ [i])
      else hints0_loop pairs n (i + 1) threshold hints
  end.
(** rs_bit_vector.cpp:59-70 *)
Definition build_hints0 (pairs : list Z) : res (list Z) :=
  do hints <- hints0_loop pairs (Z.to_nat (num_blocks pairs)) 0 select_zeros_per_hint [];
  Ok (hints ++ [num_blocks pairs]).

(** rs_bit_vector.hpp:17-24 on the bit_vector already built from the range, and
    rs_bit_vector.cpp:5-71 *)
Definition rs_build (bv : bit_vector) (with_hints with_hints0 : bool) : res rs_bit_vector :=
  do pairs <- build_pairs (bv_words bv);
  do hints <- (if with_hints then build_hints pairs else Ok []);
  do hints0 <- (if with_hints0 then build_hints0 pairs else Ok []);
  Ok (mk_rs bv pairs hints hints0).

(** ** queries *)

(** rs_bit_vector.hpp:43-45 *)
Definition num_ones (rs : rs_bit_vector) : res Z := rd (rs_pairs rs) (zlen (rs_pairs rs) - 2).
(** rs_bit_vector.hpp:47-49 *)
Definition num_zeros (rs : rs_bit_vector) : res Z :=
  do n <- num_ones rs; Ok (sub64 (bv_size (rs_bv rs)) n).

(** rs_bit_vector.hpp:164-171 *)
Definition sub_block_rank (pairs : list Z) (sub_block : Z) : res Z :=
  let block := sub_block / block_size in
  do r <- block_rank pairs block;
  let left := sub_block mod block_size in
  do s <- sub_block_ranks pairs block;
  do x <- shr s ((7 - left) * 9);
  Ok (r + Z.land x 0x1FF).

(** rs_bit_vector.hpp:51-64 *)
Definition rs_rank (rs : rs_bit_vector) (pos : Z) : res Z :=
  assert! (pos <=? bv_size (rs_bv rs));
  if pos =? bv_size (rs_bv rs) then num_ones rs
  else
    let sub_block := pos / 64 in
    do r <- sub_block_rank (rs_pairs rs) sub_block;
    let sub_left := pos mod 64 in
    if sub_left =? 0 then Ok r
    else
      do w <- rd (bv_words (rs_bv rs)) sub_block;
      do x <- shl w (64 - sub_left);
      Ok (r + popcount x).

(** rs_bit_vector.hpp:66-68 *)
Definition rs_rank0 (rs : rs_bit_vector) (pos : Z) : res Z :=
  do r <- rs_rank rs pos; Ok (sub64 pos r).

(** rs_bit_vector.hpp:76-82 *)
Definition search_range (hints pairs : list Z) (n : Z) : res (Z * Z) :=
  if zlen hints =? 0 then Ok (0, num_blocks pairs)
  else
    let chunk := n / select_ones_per_hint in
    do a <- (if chunk =? 0 then Ok 0 else rd hints (chunk - 1));
    do h <- rd hints chunk;
    Ok (a, h + 1).
(** rs_bit_vector.hpp:85-93; the interval halves, so its length bounds the number of rounds *)
Fixpoint block_search (fuel : nat) (pairs : list Z) (n a b : Z) : res Z :=
  if 1 <? sub64 b a then
    match fuel with
    | O => Ub OutOfFuel
    | S fuel =>
        let mid := a + sub64 b a / 2 in
        do x <- block_rank pairs mid;
        if x <=? n then block_search fuel pairs n mid b
        else block_search fuel pairs n a mid
    end
  else Ok a.
(** rs_bit_vector.hpp:70-110 *)
Definition rs_select (rs : rs_bit_vector) (n : Z) : res Z :=
  let pairs := rs_pairs rs in
  do total <- num_ones rs;
  assert! (n <? total);
  do (a, b) <- search_range (rs_hints rs) pairs n;
  do block <- block_search (S (length pairs)) pairs n a b;
  assert! (block <? num_blocks pairs);
  let block_offset := block * block_size in
  do cur_rank <- block_rank pairs block;
  assert! (cur_rank <=? n);
  let rank_in_block_parallel := u64 ((n - cur_rank) * ones_step_9) in
  do s <- sub_block_ranks pairs block;
  let sub_ranks := s in
  let sub_block_offset :=
    Z.land (Z.shiftr (u64 (uleq_step_9 sub_ranks rank_in_block_parallel * ones_step_9)) 54) 7 in
  do x <- shr sub_ranks ((7 - sub_block_offset) * 9);
  let cur_rank := cur_rank + Z.land x 0x1FF in
  assert! (cur_rank <=? n);
  let word_offset := block_offset + sub_block_offset in
  do w <- rd (bv_words (rs_bv rs)) word_offset;
  do r <- select_in_word w (n - cur_rank);
  Ok (word_offset * 64 + r).

(** rs_bit_vector.hpp:119-125 *)
Definition search_range0 (hints pairs : list Z) (n : Z) : res (Z * Z) :=
  if zlen hints =? 0 then Ok (0, num_blocks pairs)
  else
    let chunk := n / select_zeros_per_hint in
    do a <- (if chunk =? 0 then Ok 0 else rd hints (chunk - 1));
    do h <- rd hints chunk;
    Ok (a, h + 1).
(** rs_bit_vector.hpp:128-136; the interval halves, so its length bounds the number of rounds *)
Fixpoint block_search0 (fuel : nat) (pairs : list Z) (n a b : Z) : res Z :=
  if 1 <? sub64 b a then
    match fuel with
    | O => Ub OutOfFuel
    | S fuel =>
        let mid := a + sub64 b a / 2 in
        do x <- block_rank0 pairs mid;
        if x <=? n then block_search0 fuel pairs n mid b
        else block_search0 fuel pairs n a mid
    end
  else Ok a.
(** rs_bit_vector.hpp:113-152 *)
Definition rs_select0 (rs : rs_bit_vector) (n : Z) : res Z :=
  let pairs := rs_pairs rs in
  do total <- num_zeros rs;
  assert! (n <? total);
  do (a, b) <- search_range0 (rs_hints0 rs) pairs n;
  do block <- block_search0 (S (length pairs)) pairs n a b;
  assert! (block <? num_blocks pairs);
  let block_offset := block * block_size in
  do cur_rank0 <- block_rank0 pairs block;
  assert! (cur_rank0 <=? n);
  let rank_in_block_parallel := u64 ((n - cur_rank0) * ones_step_9) in
  do s <- sub_block_ranks pairs block;
  let sub_ranks := u64 (u64 (64 * inv_count_step_9) - s) in
  let sub_block_offset :=
    Z.land (Z.shiftr (u64 (uleq_step_9 sub_ranks rank_in_block_parallel * ones_step_9)) 54) 7 in
  do x <- shr sub_ranks ((7 - sub_block_offset) * 9);
  let cur_rank0 := cur_rank0 + Z.land x 0x1FF in
  assert! (cur_rank0 <=? n);
  let word_offset := block_offset + sub_block_offset in
  do w <- rd (bv_words (rs_bv rs)) word_offset;
  do r <- select_in_word (not64 w) (n - cur_rank0);
  Ok (word_offset * 64 + r).
