(** The searching queries with a limit on the number of rounds of each of their loops: a query that needs more rounds ends in [Ub OutOfFuel]. *)
From Verif Require Import Base M_Broadword M_BitVector M_RsBitVector M_Darray M_Bp.

(** darray.hpp:89-104 and darray64.hpp:86-101; at most [n] words are read after the first one *)
Definition darray_scan_in (n : nat) (neg : bool) (ws : list Z) (start_pos reminder : Z) : res Z :=
  if reminder =? 0 then Ok start_pos
  else
    let word_idx := start_pos / 64 in
    let word_shift := start_pos mod 64 in
    do w <- getw neg ws word_idx;
    do m <- shl (2 ^ 64 - 1) word_shift;
    do (word_idx, word, reminder) <- darray_loop neg n ws word_idx (Z.land w m) reminder;
    do r <- select_in_word word reminder;
    Ok (64 * word_idx + r).
(** darray.hpp:74-105 *)
Definition darray_select_in (n : nat) (neg : bool) (d : darray) (bv : bit_vector) (idx : Z) : res Z :=
  assert! (idx <? da_positions d);
  let block := idx / d_block_size in
  do block_pos <- rd (da_blocks d) block;
  if block_pos <? 0 then
    let overflow_pos := u64 (- block_pos - 1) in
    rd (da_ovf d) (overflow_pos + idx mod d_block_size)
  else
    let subblock := idx / d_subblock_size in
    do s <- rd (da_subs d) subblock;
    darray_scan_in n neg (bv_words bv) (block_pos + s) (idx mod d_subblock_size).
(** darray64.hpp:76-102 *)
Definition d64_select_in (n : nat) (d : darray64) (idx : Z) : res Z :=
  assert! (idx <? d64_num_ones d);
  do block_pos <- rd (d64_blocks d) (idx / d64_block_size);
  do s <- rd (d64_subs d) (idx / d64_subblock_size);
  darray_scan_in n false (bv_words (d64_bits d)) (block_pos + s) (idx mod d64_subblock_size).

(** rs_bit_vector.hpp:70-110; at most [rounds] rounds of the binary search *)
Definition rs_select_in (rounds : nat) (rs : rs_bit_vector) (n : Z) : res Z :=
  let pairs := rs_pairs rs in
  do total <- num_ones rs;
  assert! (n <? total);
  do (a, b) <- search_range (rs_hints rs) pairs n;
  do block <- block_search rounds pairs n a b;
  assert! (block <? num_blocks pairs);
  let block_offset := block * block_size in
  do cur_rank <- block_rank pairs block;
  assert! (cur_rank <=? n);
  let rank_in_block_parallel := u64 ((n - cur_rank) * ones_step_9) in
  do s <- sub_block_ranks pairs block;
  let sub_ranks := s in
  let sub_block_offset :=
    Z.land (Z.shiftr (u64 (uleq_step_9 sub_ranks rank_in_block_parallel * ones_step_9)) 54) 7 in
  do x <- shr sub_ranks ((7 - sub_block_offset) * 9);
  let cur_rank := cur_rank + Z.land x 0x1FF in
  assert! (cur_rank <=? n);
  let word_offset := block_offset + sub_block_offset in
  do w <- rd (bv_words (rs_bv rs)) word_offset;
  do r <- select_in_word w (n - cur_rank);
  Ok (word_offset * 64 + r).
(** rs_bit_vector.hpp:113-152 *)
Definition rs_select0_in (rounds : nat) (rs : rs_bit_vector) (n : Z) : res Z :=
  let pairs := rs_pairs rs in
  do total <- num_zeros rs;
  assert! (n <? total);
  do (a, b) <- search_range0 (rs_hints0 rs) pairs n;
  do block <- block_search0 rounds pairs n a b;
  assert! (block <? num_blocks pairs);
  let block_offset := block * block_size in
  do cur_rank0 <- block_rank0 pairs block;
  assert! (cur_rank0 <=? n);
  let rank_in_block_parallel := u64 ((n - cur_rank0) * ones_step_9) in
  do s <- sub_block_ranks pairs block;
  let sub_ranks := u64 (u64 (64 * inv_count_step_9) - s) in
  let sub_block_offset :=
    Z.land (Z.shiftr (u64 (uleq_step_9 sub_ranks rank_in_block_parallel * ones_step_9)) 54) 7 in
  do x <- shr sub_ranks ((7 - sub_block_offset) * 9);
  let cur_rank0 := cur_rank0 + Z.land x 0x1FF in
  assert! (cur_rank0 <=? n);
  let word_offset := block_offset + sub_block_offset in
  do w <- rd (bv_words (rs_bv rs)) word_offset;
  do r <- select_in_word (not64 w) (n - cur_rank0);
  Ok (word_offset * 64 + r).

(** bp_vector.cpp:312-356; at most [n] nodes on the way up, at most [n] on the way down *)
Definition search_min_tree_in (n : nat) (dir : bool) (bp : bp_vector) (block excess : Z) : res Z :=
  do f <- search_block_in_superblock dir bp block excess;
  match f with
  | Some found_block => Ok found_block
  | None =>
      let cur_superblock := block / superblock_size in
      do cur_node <- tree_up_loop n dir bp (bp_internal_nodes bp + cur_superblock) excess;
      assert! (negb (cur_node =? 0));
      do cur_node <- tree_down_loop n dir bp cur_node excess;
      let next_superblock := cur_node - bp_internal_nodes bp in
      do f <- search_block_in_superblock dir bp
                (next_superblock * superblock_size + (if dir then 0 else superblock_size - 1)) excess;
      match f with
      | Some found_block => Ok found_block
      | None => Ub AssertFailed
      end
  end.
(** bp_vector.cpp:169-207 *)
Definition find_close_in (n : nat) (sp : shift_policy) (bp : bp_vector) (pos : Z) : res Z :=
  do b <- bv_get (rs_bv (bp_rs bp)) pos;
  assert! (b : bool);
  let words := bp_words bp in
  let word_pos := (pos + 1) / 64 in
  let shift := (pos + 1) mod 64 in
  do w <- rd words word_pos;
  do shifted_word <- shr w shift;
  do ones <- shl_p sp (2 ^ 64 - 1) (64 - shift);
  let padded_word := Z.lor shifted_word (if shift =? 0 then 0 else ones) in
  let byte_counts := byte_counts padded_word in
  do r <- find_close_in_word padded_word byte_counts 1;
  match r with
  | Some ret => Ok (ret + (pos + 1))
  | None =>
      let block := word_pos / bp_block_size in
      let block_offset := block * bp_block_size in
      let sub_block := word_pos mod bp_block_size in
      let local_rank := sub64 (bytes_sum byte_counts) shift in
      let local_excess := i32 (2 * local_rank - (64 - shift)) in
      do e <- int32 (local_excess + 1);
      do r <- find_close_in_block words block_offset e (sub_block + 1);
      match r with
      | Some ret => Ok ret
      | None =>
          do pos_excess <- excess bp pos;
          do found_block <- search_min_tree_in n true bp (block + 1) pos_excess;
          let found_block_offset := found_block * bp_block_size in
          do found_block_excess <- get_block_excess (bp_rs bp) found_block;
          do e <- int32 (found_block_excess - pos_excess);
          do r <- find_close_in_block words found_block_offset e 0;
          match r with
          | Some ret => Ok ret
          | None => Ub AssertFailed
          end
      end
  end.
(** bp_vector.cpp:231-269 *)
Definition find_open_in (n : nat) (sp : shift_policy) (bp : bp_vector) (pos : Z) : res Z :=
  assert! (negb (pos =? 0));
  let words := bp_words bp in
  let word_pos := pos / 64 in
  let len := pos mod 64 in
  do w <- rd words word_pos;
  do shifted <- shl_p sp w (64 - len);
  let shifted_word := if len =? 0 then 0 else shifted in
  let byte_counts := byte_counts shifted_word in
  do r <- find_open_in_word shifted_word byte_counts 1;
  match r with
  | Some ret => Ok (u64 (ret + (pos - 64)))
  | None =>
      let block := word_pos / bp_block_size in
      let block_offset := block * bp_block_size in
      let sub_block := word_pos mod bp_block_size in
      let local_rank := bytes_sum byte_counts in
      do local_excess <- int32 (- i32 (2 * local_rank - len));
      do e <- int32 (local_excess + 1);
      do r <- find_open_in_block words block_offset e sub_block;
      match r with
      | Some ret => Ok ret
      | None =>
          do x <- excess bp pos;
          do pos_excess <- int32 (x - 1);
          do found_block <- search_min_tree_in n false bp (sub64 block 1) pos_excess;
          let found_block_offset := found_block * bp_block_size in
          do found_block_excess <- get_block_excess (bp_rs bp) (found_block + 1);
          do e <- int32 (found_block_excess - pos_excess);
          do r <- find_open_in_block words found_block_offset e bp_block_size;
          match r with
          | Some ret => Ok ret
          | None => Ub AssertFailed
          end
      end
  end.
(** bp_vector.hpp:47-50 *)
Definition enclose_in (n : nat) (sp : shift_policy) (bp : bp_vector) (pos : Z) : res Z :=
  do b <- bv_get (rs_bv (bp_rs bp)) pos;
  assert! (b : bool);
  find_open_in n sp bp pos.

(** bp_vector.cpp:403-506; at most [n] rounds of each of its three loops *)
Definition find_min_superblock_in (n : nat) (bp : bp_vector) (sb_start sb_end min_exc min_idx : Z) : res (Z * Z) :=
  if sb_start =? sb_end then Ok (min_exc, min_idx)
  else
    let tree := bp_superblock_excess_min bp in
    let internal := bp_internal_nodes bp in
    let cur_node := internal + sb_start in
    do node_min_exc <- rd tree cur_node;
    let node_min_idx := cur_node in
    if sub64 sb_end sb_start =? 1 then Ok (node_min_exc, sb_start)
    else
      do (cur, h, span, nme, nmi) <- span_up_loop n tree sb_end cur_node 0 sb_start node_min_exc node_min_idx;
      assert! (negb (cur =? 0));
      do (cur, span, nme, nmi) <- span_down_loop n tree sb_end cur h span nme nmi;
      do (nme, nmi) <-
        (if span <? sb_end then
           do v <- rd tree cur;
           Ok (if v <? nme then (v, cur) else (nme, nmi))
         else Ok (nme, nmi));
      assert! (span =? sb_end - 1);
      if nme <? min_exc then
        do cur <- min_leaf_loop n tree internal nmi;
        do v <- rd tree cur;
        assert! (v =? nme);
        let superblock_min_idx := cur - internal in
        assert! (sb_start <=? superblock_min_idx);
        assert! (superblock_min_idx <? sb_end);
        Ok (nme, superblock_min_idx)
      else Ok (min_exc, min_idx).
(** bp_vector.cpp:558-602 *)
Definition excess_rmq_blocks_in (n : nat) (cs : bool) (bp : bp_vector) (block_a block_b min_exc min_exc_idx : Z) : res (Z * Z) :=
  let superblock_a := (block_a + 1) / superblock_size in
  let superblock_b := block_b / superblock_size in
  do (block_min_exc, block_min_idx) <-
    (if superblock_a =? superblock_b then
       excess_rmq_in_superblock bp (block_a + 1) block_b min_exc minus1U
     else
       do (bme, bmi) <- excess_rmq_in_superblock bp (block_a + 1) ((superblock_a + 1) * superblock_size) min_exc minus1U;
       do (sme, smi) <- find_min_superblock_in n bp (superblock_a + 1) superblock_b min_exc minus1U;
       do (bme, bmi) <-
         (if sme <? min_exc then
            excess_rmq_in_superblock bp (smi * superblock_size) ((smi + 1) * superblock_size) bme bmi
          else Ok (bme, bmi));
       excess_rmq_in_superblock bp (superblock_b * superblock_size) block_b bme bmi);
  if block_min_exc <? min_exc then
    do cur_exc <- get_block_excess (bp_rs bp) block_min_idx;
    do (_, min_exc, min_exc_idx) <-
      excess_rmq_in_block cs (bp_words bp) (block_min_idx * bp_block_size) ((block_min_idx + 1) * bp_block_size)
        cur_exc min_exc min_exc_idx;
    assert! (min_exc =? block_min_exc);
    Ok (min_exc, min_exc_idx)
  else Ok (min_exc, min_exc_idx).
(** bp_vector.cpp:508-625 *)
Definition excess_rmq_in (n : nat) (cs : bool) (bp : bp_vector) (a b : Z) : res (Z * Z) :=
  assert! (a <=? b);
  do cur_exc <- excess bp a;
  let min_exc := cur_exc in
  let min_exc_idx := a in
  if a =? b then Ok (min_exc_idx, min_exc)
  else
    let words := bp_words bp in
    let range_len := b - a in
    let word_a_idx := a / 64 in
    let word_b_idx := (b - 1) / 64 in
    let shift_a := a mod 64 in
    do wa <- rd words word_a_idx;
    do shifted_word_a <- shr wa shift_a;
    let subword_len_a := Z.min (64 - shift_a) range_len in
    do padded_word_a <- (if subword_len_a =? 64 then Ok shifted_word_a
                         else do ones <- shl (2 ^ 64 - 1) subword_len_a; Ok (Z.lor shifted_word_a ones));
    do (cur_exc, min_exc, min_exc_idx) <- excess_rmq_in_word cs padded_word_a cur_exc a min_exc min_exc_idx;
    if word_a_idx =? word_b_idx then Ok (min_exc_idx, min_exc)
    else
      let block_a := word_a_idx / bp_block_size in
      let block_b := word_b_idx / bp_block_size in
      do cur_exc <- int32 (cur_exc - (64 - i32 subword_len_a));
      do (cur_exc, min_exc, min_exc_idx) <-
        (if block_a =? block_b then
           excess_rmq_in_block cs words (word_a_idx + 1) word_b_idx cur_exc min_exc min_exc_idx
         else
           do (_, min_exc, min_exc_idx) <-
             excess_rmq_in_block cs words (word_a_idx + 1) ((block_a + 1) * bp_block_size) cur_exc min_exc min_exc_idx;
           do (min_exc, min_exc_idx) <- excess_rmq_blocks_in n cs bp block_a block_b min_exc min_exc_idx;
           do cur_exc <- get_block_excess (bp_rs bp) block_b;
           excess_rmq_in_block cs words (block_b * bp_block_size) word_b_idx cur_exc min_exc min_exc_idx);
      do word_b <- rd words word_b_idx;
      let offset_b := b mod 64 in
      do padded_word_b <- (if offset_b =? 0 then Ok word_b
                           else do ones <- shl (2 ^ 64 - 1) offset_b; Ok (Z.lor word_b ones));
      do (_, min_exc, min_exc_idx) <- excess_rmq_in_word cs padded_word_b cur_exc (word_b_idx * 64) min_exc min_exc_idx;
      assert! (a <=? min_exc_idx);
      do x <- excess bp min_exc_idx;
      assert! (min_exc =? x);
      Ok (min_exc_idx, min_exc).
