(** The functions of the other M_ files that contain or use assertions, as compiled with NDEBUG: every [assert]
    and what is evaluated only for it is left out. E.g. bit_vector.hpp:64-66. *)
From Verif Require Import Base M_Tables M_Broadword M_BitVector M_RsBitVector M_Darray M_EliasFano M_Gamma M_Util.

(** broadword.hpp:86-101. [popcnt] selects the [#if SUCCINCT_USE_POPCNT] branch (line 95)
    or the portable one (line 97). Without the assertions. *)
Definition nd_select_in_word_gen (popcnt : bool) (x k : Z) : res Z :=
  let byte_sums := u64 (byte_counts x * ones_step_8) in
  let k_step_8 := u64 (k * ones_step_8) in
  let geq_k_step_8 := Z.land (u64 (Z.lor k_step_8 msbs_step_8 - byte_sums)) msbs_step_8 in
  let place :=
    if popcnt then u64 (popcount_intrinsic geq_k_step_8 * 8)
    else Z.land (Z.shiftr (u64 (Z.shiftr geq_k_step_8 7 * ones_step_8)) 53) (not64 7) in
  do s <- shr (u64 (Z.shiftl byte_sums 8)) place;
  let byte_rank := u64 (k - Z.land s 0xFF) in
  do b <- shr x place;
  do t <- rd select_in_byte (Z.lor (Z.land b 0xFF) (u64 (Z.shiftl byte_rank 8)));
  Ok (u64 (place + t)).

(** broadword.hpp:86-101, the portable branch (line 97). Without the assertions. *)
Definition nd_select_in_word (x k : Z) : res Z := nd_select_in_word_gen false x k.

(** broadword.hpp:123-129. The table has 64 entries and the index is a 6-bit number, so
    the read is always in bounds. Without the assertions. *)
Definition nd_bit_position (x : Z) : res Z :=
  rd debruijn64_mapping (Z.shiftr (u64 (x * debruijn64)) 58).

(** broadword.hpp:131-154, [#else] branch; [None] is the result [false] (ret untouched). Without the assertions. *)
Definition nd_msb_opt (x0 : Z) : res (option Z) :=
  if x0 =? 0 then Ok None
  else
    let x1 := Z.lor x0 (Z.shiftr x0 1) in
    let x2 := Z.lor x1 (Z.shiftr x1 2) in
    let x3 := Z.lor x2 (Z.shiftr x2 4) in
    let x4 := Z.lor x3 (Z.shiftr x3 8) in
    let x5 := Z.lor x4 (Z.shiftr x4 16) in
    let x6 := Z.lor x5 (Z.shiftr x5 32) in
    let x7 := Z.lxor x6 (Z.shiftr x6 1) in
    do r <- nd_bit_position x7;
    Ok (Some r).

(** broadword.hpp:156-162. Without the assertions. *)
Definition nd_msb (x : Z) : res Z :=
  do o <- nd_msb_opt x;
  match o with Some r => Ok (u8 r) | None => Ok (u8 (2 ^ 32 - 1)) end.

(** broadword.hpp:164-175, [#else] branch. Without the assertions. *)
Definition nd_lsb_opt (x : Z) : res (option Z) :=
  if x =? 0 then Ok None
  else
    do r <- nd_bit_position (Z.land x (u64 (- x)));
    Ok (Some r).

(** broadword.hpp:177-183. Without the assertions. *)
Definition nd_lsb (x : Z) : res Z :=
  do o <- nd_lsb_opt x;
  match o with Some r => Ok (u8 r) | None => Ok (u8 (2 ^ 32 - 1)) end.

(** bit_vector.hpp:62-80; [pos + len] wraps. Without the assertions. *)
Definition nd_set_bits (b : builder) (pos bits len : Z) : res builder :=
  if len =? 0 then Ok b
  else
    do mask <- (if len =? 64 then Ok (2 ^ 64 - 1) else do m <- shl 1 len; Ok (u64 (m - 1)));
    let word := pos / 64 in
    let pos_in_word := pos mod 64 in
    do m <- shl mask pos_in_word;
    do ws <- mod_word (b_bits b) word (fun w => Z.land w (not64 m));
    do x <- shl bits pos_in_word;
    do ws <- mod_word ws word (fun w => Z.lor w x);
    let stored := 64 - pos_in_word in
    if stored <? len then
      do m <- shr mask stored;
      do ws <- mod_word ws (word + 1) (fun w => Z.land w (not64 m));
      do x <- shr bits stored;
      do ws <- mod_word ws (word + 1) (fun w => Z.lor w x);
      Ok (with_bits b ws)
    else Ok (with_bits b ws).

(** bit_vector.hpp:82-98. Without the assertions. *)
Definition nd_append_bits (gr : growth) (b : builder) (bits len : Z) : res builder :=
  if len =? 0 then Ok b
  else
    let pos_in_word := b_size b mod 64 in
    let b := with_size b (b_size b + len) in
    if pos_in_word =? 0 then Ok (set_cur_back (v_push gr b bits))
    else
      do x <- shl bits pos_in_word;
      do b <- cur_or b x;
      if 64 - pos_in_word <? len then
        do y <- shr bits (64 - pos_in_word);
        Ok (set_cur_back (v_push gr b y))
      else Ok (set_cur_back b).

(** bit_vector.hpp:109-118; [fuel] bounds the number of full words. Without the assertions. *)
Fixpoint nd_one_extend_loop (gr : growth) (fuel : nat) (b : builder) (n : Z) : res (builder * Z) :=
  if 64 <=? n then
    match fuel with
    | O => Ub OutOfFuel
    | S fuel =>
        do b <- nd_append_bits gr b (2 ^ 64 - 1) 64;
        nd_one_extend_loop gr fuel b (n - 64)
    end
  else Ok (b, n).

(** bit_vector.hpp:109-118. Without the assertions. *)
Definition nd_one_extend (gr : growth) (b : builder) (n : Z) : res builder :=
  do (b, n) <- nd_one_extend_loop gr (Z.to_nat (n / 64)) b n;
  if n =? 0 then Ok b
  else
    do x <- shr (2 ^ 64 - 1) (64 - n);
    nd_append_bits gr b x n.

(** bit_vector.hpp:147-165. Without the assertions. *)
Definition nd_reverse (b : builder) : res builder :=
  let shift := 64 - b_size b mod 64 in
  do (ws, remainder) <- reverse_loop shift 0 (b_bits b);
  Ok (with_bits b (rev ws)).

(** bit_vector.hpp:222-225 with 167-170. Without the assertions. *)
Definition nd_bv_of_builder (b : builder) : res bit_vector :=
  Ok (mk_bv (b_size b) (b_bits b)).

(** bit_vector.hpp:243-249. Without the assertions. *)
Definition nd_bv_get (bv : bit_vector) (pos : Z) : res bool :=
  let block := pos / 64 in
  let shift := pos mod 64 in
  do w <- rd (bv_words bv) block;
  do x <- shr w shift;
  Ok (negb (Z.land x 1 =? 0)).

(** bit_vector.hpp:251-264. [1ULL << len] (line 258) is evaluated also for len = 64. [pos + len] wraps. Without the assertions. *)
Definition nd_get_bits (sp : shift_policy) (bv : bit_vector) (pos len : Z) : res Z :=
  if len =? 0 then Ok 0
  else
    let block := pos / 64 in
    let shift := pos mod 64 in
    do m <- shl_p sp 1 len;
    let mask := Z.lor (if len =? 64 then 2 ^ 64 - 1 else 0) (u64 (m - 1)) in
    do w <- rd (bv_words bv) block;
    do x <- shr w shift;
    if shift + len <=? 64 then Ok (Z.land x mask)
    else
      do w1 <- rd (bv_words bv) (block + 1);
      do y <- shl w1 (64 - shift);
      Ok (Z.lor x (Z.land y mask)).

(** bit_vector.hpp:267-277. Without the assertions. *)
Definition nd_get_word (bv : bit_vector) (pos : Z) : res Z :=
  let block := pos / 64 in
  let shift := pos mod 64 in
  do w <- rd (bv_words bv) block;
  do word <- shr w shift;
  if negb (shift =? 0) && (block + 1 <? zlen (bv_words bv)) then
    do w1 <- rd (bv_words bv) (block + 1);
    do y <- shl w1 (64 - shift);
    Ok (Z.lor word y)
  else Ok word.

(** bit_vector.hpp:294-299. Without the assertions. *)
Fixpoint nd_predecessor0_loop (fuel : nat) (ws : list Z) (block word : Z) : res Z :=
  do o <- nd_msb_opt word;
  match o with
  | Some ret => Ok (block * 64 + ret)
  | None =>
      match fuel with
      | O => Ub OutOfFuel
      | S fuel =>
          do w <- rd ws (block - 1);
          nd_predecessor0_loop fuel ws (block - 1) (not64 w)
      end
  end.

(** bit_vector.hpp:287-300. Without the assertions. *)
Definition nd_predecessor0 (bv : bit_vector) (pos : Z) : res Z :=
  let block := pos / 64 in
  let shift := 64 - pos mod 64 - 1 in
  do w <- rd (bv_words bv) block;
  do x <- shl (not64 w) shift;
  do word <- shr x shift;
  nd_predecessor0_loop (S (Z.to_nat block)) (bv_words bv) block word.

(** bit_vector.hpp:308-314. Without the assertions. *)
Fixpoint nd_successor0_loop (fuel : nat) (ws : list Z) (block word : Z) : res Z :=
  do o <- nd_lsb_opt word;
  match o with
  | Some ret => Ok (block * 64 + ret)
  | None =>
      match fuel with
      | O => Ub OutOfFuel
      | S fuel =>
          do w <- rd ws (block + 1);
          nd_successor0_loop fuel ws (block + 1) (not64 w)
      end
  end.

(** bit_vector.hpp:302-315. Without the assertions. *)
Definition nd_successor0 (bv : bit_vector) (pos : Z) : res Z :=
  let block := pos / 64 in
  let shift := pos mod 64 in
  do w <- rd (bv_words bv) block;
  do x <- shr (not64 w) shift;
  do word <- shl x shift;
  nd_successor0_loop (S (length (bv_words bv))) (bv_words bv) block word.

(** bit_vector.hpp:324-329. Without the assertions. *)
Fixpoint nd_predecessor1_loop (fuel : nat) (ws : list Z) (block word : Z) : res Z :=
  do o <- nd_msb_opt word;
  match o with
  | Some ret => Ok (block * 64 + ret)
  | None =>
      match fuel with
      | O => Ub OutOfFuel
      | S fuel =>
          do w <- rd ws (block - 1);
          nd_predecessor1_loop fuel ws (block - 1) w
      end
  end.

(** bit_vector.hpp:317-330. Without the assertions. *)
Definition nd_predecessor1 (bv : bit_vector) (pos : Z) : res Z :=
  let block := pos / 64 in
  let shift := 64 - pos mod 64 - 1 in
  do w <- rd (bv_words bv) block;
  do x <- shl w shift;
  do word <- shr x shift;
  nd_predecessor1_loop (S (Z.to_nat block)) (bv_words bv) block word.

(** bit_vector.hpp:338-344. Without the assertions. *)
Fixpoint nd_successor1_loop (fuel : nat) (ws : list Z) (block word : Z) : res Z :=
  do o <- nd_lsb_opt word;
  match o with
  | Some ret => Ok (block * 64 + ret)
  | None =>
      match fuel with
      | O => Ub OutOfFuel
      | S fuel =>
          do w <- rd ws (block + 1);
          nd_successor1_loop fuel ws (block + 1) w
      end
  end.

(** bit_vector.hpp:332-345. Without the assertions. *)
Definition nd_successor1 (bv : bit_vector) (pos : Z) : res Z :=
  let block := pos / 64 in
  let shift := pos mod 64 in
  do w <- rd (bv_words bv) block;
  do x <- shr w shift;
  do word <- shl x shift;
  nd_successor1_loop (S (length (bv_words bv))) (bv_words bv) block word.

(** bit_vector.hpp:418-422. Without the assertions. *)
Definition nd_fill_buf (bv : bit_vector) (e : enumerator) : res enumerator :=
  do w <- nd_get_word bv (e_pos e);
  Ok (mk_enum (e_pos e) w 64).

(** bit_vector.hpp:367-375. Without the assertions. *)
Definition nd_enum_next (bv : bit_vector) (e : enumerator) : res (bool * enumerator) :=
  do e <- (if e_avail e =? 0 then nd_fill_buf bv e else Ok e);
  Ok (negb (Z.land (e_buf e) 1 =? 0),
      mk_enum (e_pos e + 1) (Z.shiftr (e_buf e) 1) (e_avail e - 1)).

(** bit_vector.hpp:377-390. Without the assertions. *)
Definition nd_enum_take (bv : bit_vector) (e : enumerator) (l : Z) : res (Z * enumerator) :=
  do e <- (if e_avail e <? l then nd_fill_buf bv e else Ok e);
  do (val, buf) <-
    (if l =? 64 then Ok (e_buf e, e_buf e)
     else
       do m <- shl 1 l;
       do s <- shr (e_buf e) l;
       Ok (Z.land (e_buf e) (u64 (m - 1)), s));
  Ok (val, mk_enum (e_pos e + l) buf (u64 (e_avail e - l))).

(** bit_vector.hpp:396-401. Without the assertions. *)
Fixpoint nd_skip_zeros_loop (fuel : nat) (bv : bit_vector) (e : enumerator) (zs : Z)
  : res (enumerator * Z) :=
  if e_buf e =? 0 then
    match fuel with
    | O => Ub OutOfFuel
    | S fuel =>
        do e' <- nd_fill_buf bv (mk_enum (e_pos e + e_avail e) (e_buf e) 0);
        nd_skip_zeros_loop fuel bv e' (zs + e_avail e)
    end
  else Ok (e, zs).

(** bit_vector.hpp:392-409. Without the assertions. *)
Definition nd_enum_skip_zeros (bv : bit_vector) (e : enumerator) : res (Z * enumerator) :=
  do (e, zs) <- nd_skip_zeros_loop (S (S (length (bv_words bv)))) bv e 0;
  do l <- nd_lsb (e_buf e);
  do s <- shr (e_buf e) l;
  Ok (zs + l, mk_enum (e_pos e + (l + 1)) (Z.shiftr s 1) (u64 (e_avail e - (l + 1)))).

(** bit_vector.hpp:455-458. Without the assertions. *)
Fixpoint nd_unary_next_loop (fuel : nat) (ws : list Z) (pos buf : Z) : res (Z * Z * Z) :=
  do o <- nd_lsb_opt buf;
  match o with
  | Some r => Ok (pos, buf, r)
  | None =>
      match fuel with
      | O => Ub OutOfFuel
      | S fuel =>
          do w <- rd ws ((pos + 64) / 64);
          nd_unary_next_loop fuel ws (pos + 64) w
      end
  end.

(** bit_vector.hpp:451-463. Without the assertions. *)
Definition nd_unary_next (ws : list Z) (e : unary_enum) : res (Z * unary_enum) :=
  do (pos, buf, pos_in_word) <- nd_unary_next_loop (S (length ws)) ws (u_pos e) (u_buf e);
  let p := align64 pos + pos_in_word in
  Ok (p, mk_unary p (Z.land buf (u64 (buf - 1)))).

(** bit_vector.hpp:466-480. Without the assertions. *)
Definition nd_unary_skip (ws : list Z) (e : unary_enum) (k : Z) : res unary_enum :=
  do (skipped, pos, buf) <- skip_loop (S (length ws)) ws k 0 (u_pos e) (u_buf e);
  do pos_in_word <- nd_select_in_word buf (k - skipped);
  do m <- shl (2 ^ 64 - 1) pos_in_word;
  Ok (mk_unary (align64 pos + pos_in_word) (Z.land buf m)).

(** bit_vector.hpp:483-498. Without the assertions. *)
Definition nd_unary_skip_no_move (ws : list Z) (e : unary_enum) (k : Z) : res Z :=
  do (skipped, pos, buf) <- skip_loop (S (length ws)) ws k 0 (u_pos e) (u_buf e);
  do pos_in_word <- nd_select_in_word buf (k - skipped);
  Ok (align64 pos + pos_in_word).

(** bit_vector.hpp:501-516. Without the assertions. *)
Definition nd_unary_skip0 (ws : list Z) (e : unary_enum) (k : Z) : res unary_enum :=
  do m0 <- shl (2 ^ 64 - 1) (u_pos e mod 64);
  let buf0 := Z.land (not64 (u_buf e)) m0 in
  do (skipped, pos, buf) <- skip0_loop (S (length ws)) ws k 0 (u_pos e) buf0;
  do pos_in_word <- nd_select_in_word buf (k - skipped);
  do m <- shl (2 ^ 64 - 1) pos_in_word;
  Ok (mk_unary (align64 pos + pos_in_word) (Z.land (not64 buf) m)).

(** rs_bit_vector.hpp:51-64. Without the assertions. *)
Definition nd_rs_rank (rs : rs_bit_vector) (pos : Z) : res Z :=
  if pos =? bv_size (rs_bv rs) then num_ones rs
  else
    let sub_block := pos / 64 in
    do r <- sub_block_rank (rs_pairs rs) sub_block;
    let sub_left := pos mod 64 in
    if sub_left =? 0 then Ok r
    else
      do w <- rd (bv_words (rs_bv rs)) sub_block;
      do x <- shl w (64 - sub_left);
      Ok (r + popcount x).

(** rs_bit_vector.hpp:66-68. Without the assertions. *)
Definition nd_rs_rank0 (rs : rs_bit_vector) (pos : Z) : res Z :=
  do r <- nd_rs_rank rs pos; Ok (sub64 pos r).

(** rs_bit_vector.hpp:70-110. Without the assertions. *)
Definition nd_rs_select (rs : rs_bit_vector) (n : Z) : res Z :=
  let pairs := rs_pairs rs in
  do total <- num_ones rs;
  do (a, b) <- search_range (rs_hints rs) pairs n;
  do block <- block_search (S (length pairs)) pairs n a b;
  let block_offset := block * block_size in
  do cur_rank <- block_rank pairs block;
  let rank_in_block_parallel := u64 ((n - cur_rank) * ones_step_9) in
  do s <- sub_block_ranks pairs block;
  let sub_ranks := s in
  let sub_block_offset :=
    Z.land (Z.shiftr (u64 (uleq_step_9 sub_ranks rank_in_block_parallel * ones_step_9)) 54) 7 in
  do x <- shr sub_ranks ((7 - sub_block_offset) * 9);
  let cur_rank := cur_rank + Z.land x 0x1FF in
  let word_offset := block_offset + sub_block_offset in
  do w <- rd (bv_words (rs_bv rs)) word_offset;
  do r <- nd_select_in_word w (n - cur_rank);
  Ok (word_offset * 64 + r).

(** rs_bit_vector.hpp:113-152. Without the assertions. *)
Definition nd_rs_select0 (rs : rs_bit_vector) (n : Z) : res Z :=
  let pairs := rs_pairs rs in
  do total <- num_zeros rs;
  do (a, b) <- search_range0 (rs_hints0 rs) pairs n;
  do block <- block_search0 (S (length pairs)) pairs n a b;
  let block_offset := block * block_size in
  do cur_rank0 <- block_rank0 pairs block;
  let rank_in_block_parallel := u64 ((n - cur_rank0) * ones_step_9) in
  do s <- sub_block_ranks pairs block;
  let sub_ranks := u64 (u64 (64 * inv_count_step_9) - s) in
  let sub_block_offset :=
    Z.land (Z.shiftr (u64 (uleq_step_9 sub_ranks rank_in_block_parallel * ones_step_9)) 54) 7 in
  do x <- shr sub_ranks ((7 - sub_block_offset) * 9);
  let cur_rank0 := cur_rank0 + Z.land x 0x1FF in
  let word_offset := block_offset + sub_block_offset in
  do w <- rd (bv_words (rs_bv rs)) word_offset;
  do r <- nd_select_in_word (not64 w) (n - cur_rank0);
  Ok (word_offset * 64 + r).

(** darray.hpp:31-46; each round consumes at least one bit. Without the assertions. *)
Fixpoint nd_dword_loop (fuel : nat) (size cur_pos cur_word : Z) (st : dstate) : res dstate :=
  do o <- nd_lsb_opt cur_word;
  match o with
  | None => Ok st
  | Some l =>
      match fuel with
      | O => Ub OutOfFuel
      | S fuel =>
          let cur_pos := cur_pos + l in
          do cur_word <- shr cur_word l;
          if size <=? cur_pos then Ok st
          else
            do st <- add_position st cur_pos;
            do cur_word <- shr cur_word 1;
            nd_dword_loop fuel size (cur_pos + 1) cur_word st
      end
  end.

(** darray.hpp:27-47; [neg] is the WordGetter.
    [n] iterations from word [word_idx]. Without the assertions. *)
Fixpoint nd_dwords_loop (neg : bool) (n : nat) (ws : list Z) (size word_idx : Z) (st : dstate)
  : res dstate :=
  match n with
  | O => Ok st
  | S n =>
      do w <- getw neg ws word_idx;
      do st <- nd_dword_loop 64 size (word_idx * 64) w st;
      nd_dwords_loop neg n ws size (word_idx + 1) st
  end.

(** darray.hpp:17-55. Without the assertions. *)
Definition nd_darray_build (neg : bool) (bv : bit_vector) : res darray :=
  do st <- nd_dwords_loop neg (length (bv_words bv)) (bv_words bv) (bv_size bv) 0
             (mk_dstate [] [] [] [] 0);
  do st <- (if zlen (d_cur st) =? 0 then Ok st else flush_cur_block st);
  Ok (mk_darray (d_n st) (d_blocks st) (d_subs st) (d_ovf st)).

(** darray.hpp:89-104 and darray64.hpp:86-101. Without the assertions. *)
Definition nd_darray_scan (neg : bool) (ws : list Z) (start_pos reminder : Z) : res Z :=
  if reminder =? 0 then Ok start_pos
  else
    let word_idx := start_pos / 64 in
    let word_shift := start_pos mod 64 in
    do w <- getw neg ws word_idx;
    do m <- shl (2 ^ 64 - 1) word_shift;
    do (word_idx, word, reminder) <-
      darray_loop neg (S (length ws)) ws word_idx (Z.land w m) reminder;
    do r <- nd_select_in_word word reminder;
    Ok (64 * word_idx + r).

(** darray.hpp:74-105. Without the assertions. *)
Definition nd_darray_select (neg : bool) (d : darray) (bv : bit_vector) (idx : Z) : res Z :=
  let block := idx / d_block_size in
  do block_pos <- rd (da_blocks d) block;
  if block_pos <? 0 then
    let overflow_pos := u64 (- block_pos - 1) in
    rd (da_ovf d) (overflow_pos + idx mod d_block_size)
  else
    let subblock := idx / d_subblock_size in
    do s <- rd (da_subs d) subblock;
    nd_darray_scan neg (bv_words bv) (block_pos + s) (idx mod d_subblock_size).

(** darray.hpp:160 and 74-105. Without the assertions. *)
Definition nd_darray1_select := nd_darray_select false.

(** darray.hpp:161 and 74-105. Without the assertions. *)
Definition nd_darray0_select := nd_darray_select true.

(** darray64.hpp:15-28. Without the assertions. *)
Definition nd_append1 (gr : growth) (b : d64_builder) (skip0 : Z) : res d64_builder :=
  do bits <- nd_append_bits gr (d64b_bits b) 0 skip0;
  do bits <- push_back gr bits true;
  let blocks := if d64b_n b mod d64_block_size =? 0 then d64b_blocks b ++ [sub64 (b_size bits) 1]
                else d64b_blocks b in
  do subs <- (if d64b_n b mod d64_subblock_size =? 0 then
                do p <- rd blocks (d64b_n b / d64_block_size);
                Ok (d64b_subs b ++ [u16 (b_size bits - 1 - p)])
              else Ok (d64b_subs b));
  Ok (mk_d64b (d64b_n b + 1) bits blocks subs).

(** darray64.hpp:40-46. Without the assertions. *)
Definition nd_d64_build (b : d64_builder) : res darray64 :=
  do bv <- nd_bv_of_builder (d64b_bits b);
  Ok (mk_d64 (d64b_n b) bv (d64b_blocks b) (d64b_subs b)).

(** darray64.hpp:76-102. Without the assertions. *)
Definition nd_d64_select (d : darray64) (idx : Z) : res Z :=
  do block_pos <- rd (d64_blocks d) (idx / d64_block_size);
  do s <- rd (d64_subs d) (idx / d64_subblock_size);
  nd_darray_scan false (bv_words (d64_bits d)) (block_pos + s) (idx mod d64_subblock_size).

(** elias_fano.hpp:15-25. Without the assertions. *)
Definition nd_ef_builder_new (gr : growth) (n m : Z) : res ef_builder :=
  do l <- (if negb (m =? 0) && negb (n / m =? 0) then do r <- nd_msb (n / m); Ok (u8 r) else Ok 0);
  do h <- shr n l;
  do high <- new_builder (u64 (m + 1 + h + 1)) false;
  do low <- new_builder 0 false;
  Ok (mk_efb n m 0 0 l high (reserve gr low (u64 (m * l)))).

(** elias_fano.hpp:27-38. Without the assertions. *)
Definition nd_ef_push (gr : growth) (b : ef_builder) (i : Z) : res ef_builder :=
  do m <- shl 1 (eb_l b);
  let low_mask := u64 (m - 1) in
  do low <- (if eb_l b =? 0 then Ok (eb_low b)
             else nd_append_bits gr (eb_low b) (Z.land i low_mask) (eb_l b));
  do h <- shr i (eb_l b);
  do high <- bset (eb_high b) (h + eb_pos b) true;
  Ok (mk_efb (eb_n b) (eb_m b) (eb_pos b + 1) i (eb_l b) high low).

(** elias_fano.hpp:255-264 (and 75-78). Without the assertions. *)
Definition nd_ef_build (b : ef_builder) (with_rank_index : bool) : res elias_fano :=
  do high <- nd_bv_of_builder (eb_high b);
  do d1 <- nd_darray_build false high;
  do d0 <- (if with_rank_index then nd_darray_build true high else Ok darray_empty);
  do low <- nd_bv_of_builder (eb_low b);
  Ok (mk_ef (eb_n b) high d1 d0 low (eb_l b)).

(** elias_fano.hpp:65-70. Without the assertions. *)
Fixpoint nd_ef_ones_loop (gr : growth) (n : nat) (bv : bit_vector) (i : Z) (b : ef_builder)
  : res ef_builder :=
  match n with
  | O => Ok b
  | S n =>
      do i <- nd_successor1 bv i;
      do b <- nd_ef_push gr b i;
      nd_ef_ones_loop gr n bv (i + 1) b
  end.

(** elias_fano.hpp:52-73. Without the assertions. *)
Definition nd_ef_of_bits (gr : growth) (bvb : builder) (with_rank_index : bool) : res elias_fano :=
  let n := b_size bvb in
  let m := fold_left (fun m w => m + popcount w) (b_bits bvb) 0 in
  do bv <- nd_bv_of_builder bvb;
  do b <- nd_ef_builder_new gr n m;
  do b <- nd_ef_ones_loop gr (Z.to_nat m) bv 0 b;
  nd_ef_build b with_rank_index.

(** elias_fano.hpp:117-127. Without the assertions. *)
Fixpoint nd_ef_get_loop (fuel : nat) (ef : elias_fano) (l_pos rank h_pos : Z) : res bool :=
  if h_pos <=? 0 then Ok false
  else
    do b <- nd_bv_get (ef_high ef) (h_pos - 1);
    if b then
      match fuel with
      | O => Ub OutOfFuel
      | S fuel =>
          let rank := sub64 rank 1 in
          do cur <- nd_get_bits strict_shift (ef_low ef) (rank * ef_l ef) (ef_l ef);
          if cur =? l_pos then Ok true
          else if cur <? l_pos then Ok false
          else nd_ef_get_loop fuel ef l_pos rank (h_pos - 1)
      end
    else Ok false.

(** elias_fano.hpp:109-130. Without the assertions. *)
Definition nd_ef_get (ef : elias_fano) (pos : Z) : res bool :=
  do h_rank <- shr pos (ef_l ef);
  do h_pos <- nd_darray0_select (ef_d0 ef) (ef_high ef) h_rank;
  do m <- shl 1 (ef_l ef);
  nd_ef_get_loop (Z.to_nat h_pos) ef (Z.land pos (u64 (m - 1))) (sub64 h_pos h_rank) h_pos.

(** elias_fano.hpp:132-136. Without the assertions. *)
Definition nd_ef_select (ef : elias_fano) (n : Z) : res Z :=
  do p <- nd_darray1_select (ef_d1 ef) (ef_high ef) n;
  do h <- shl (sub64 p n) (ef_l ef);
  do low <- nd_get_bits strict_shift (ef_low ef) (n * ef_l ef) (ef_l ef);
  Ok (Z.lor h low).

(** elias_fano.hpp:150-155. Without the assertions. *)
Fixpoint nd_ef_rank_loop (fuel : nat) (ef : elias_fano) (l_pos rank h_pos : Z) : res Z :=
  if h_pos <=? 0 then Ok rank
  else
    do b <- nd_bv_get (ef_high ef) (h_pos - 1);
    if b then
      do cur <- nd_get_bits strict_shift (ef_low ef) (sub64 rank 1 * ef_l ef) (ef_l ef);
      if l_pos <=? cur then
        match fuel with
        | O => Ub OutOfFuel
        | S fuel => nd_ef_rank_loop fuel ef l_pos (sub64 rank 1) (h_pos - 1)
        end
      else Ok rank
    else Ok rank.

(** elias_fano.hpp:138-158. Without the assertions. *)
Definition nd_ef_rank (ef : elias_fano) (pos : Z) : res Z :=
  if pos =? ef_size ef then Ok (ef_num_ones ef)
  else
    do h_rank <- shr pos (ef_l ef);
    do h_pos <- nd_darray0_select (ef_d0 ef) (ef_high ef) h_rank;
    do m <- shl 1 (ef_l ef);
    nd_ef_rank_loop (Z.to_nat h_pos) ef (Z.land pos (u64 (m - 1))) (sub64 h_pos h_rank) h_pos.

(** elias_fano.hpp:160-162. Without the assertions. *)
Definition nd_ef_predecessor1 (ef : elias_fano) (pos : Z) : res Z :=
  do r <- nd_ef_rank ef (u64 (pos + 1));
  nd_ef_select ef (sub64 r 1).

(** elias_fano.hpp:164-166. Without the assertions. *)
Definition nd_ef_successor1 (ef : elias_fano) (pos : Z) : res Z :=
  do r <- nd_ef_rank ef pos;
  nd_ef_select ef r.

(** elias_fano.hpp:173-186. Without the assertions. *)
Definition nd_ef_delta (ef : elias_fano) (n : Z) : res Z :=
  do high_val <- nd_darray1_select (ef_d1 ef) (ef_high ef) n;
  do low_val <- nd_get_bits strict_shift (ef_low ef) (n * ef_l ef) (ef_l ef);
  if negb (n =? 0) then
    do p <- nd_predecessor1 (ef_high ef) (sub64 high_val 1);
    do h <- shl (u64 (high_val - p - 1)) (ef_l ef);
    do low_prev <- nd_get_bits strict_shift (ef_low ef) ((n - 1) * ef_l ef) (ef_l ef);
    Ok (u64 (h + low_val - low_prev))
  else
    do h <- shl (sub64 high_val n) (ef_l ef);
    Ok (Z.lor h low_val).

(** elias_fano.hpp:190-199. Without the assertions. *)
Definition nd_ef_select_range (ef : elias_fano) (n : Z) : res (Z * Z) :=
  do high_b <- nd_darray1_select (ef_d1 ef) (ef_high ef) n;
  do low_b <- nd_get_bits strict_shift (ef_low ef) (n * ef_l ef) (ef_l ef);
  do high_e <- nd_successor1 (ef_high ef) (high_b + 1);
  do low_e <- nd_get_bits strict_shift (ef_low ef) ((n + 1) * ef_l ef) (ef_l ef);
  do hb <- shl (sub64 high_b n) (ef_l ef);
  do he <- shl (u64 (high_e - n - 1)) (ef_l ef);
  Ok (Z.lor hb low_b, Z.lor he low_e).

(** elias_fano.hpp:203-222. Without the assertions. *)
Definition nd_se_new (ef : elias_fano) (i : Z) : res select_enum :=
  do m <- shl 1 (ef_l ef);
  let mask := u64 (m - 1) in
  let in_word := if ef_l ef =? 0 then 0 else 64 / ef_l ef in
  let avail := if ef_l ef =? 0 then ef_num_ones ef else 0 in
  if ef_num_ones ef =? 0 then Ok (mk_se i None 0 mask in_word avail)
  else
    do pos <- nd_darray1_select (ef_d1 ef) (ef_high ef) i;
    do u <- unary_new (bv_words (ef_high ef)) pos;
    Ok (mk_se i (Some u) 0 mask in_word avail).

(** elias_fano.hpp:224-240. The null data of a default-constructed enumerator is an empty array. Without the assertions. *)
Definition nd_se_next (ef : elias_fano) (e : select_enum) : res (Z * select_enum) :=
  do (buf, avail) <-
    (if se_avail e =? 0 then
       do w <- nd_get_word (ef_low ef) (se_i e * ef_l ef);
       Ok (w, sub64 (se_in_word e) 1)
     else Ok (se_buf e, se_avail e - 1));
  do (high, u) <-
    (match se_high e with
     | Some u => nd_unary_next (bv_words (ef_high ef)) u
     | None => nd_unary_next [] (mk_unary 0 0)
     end);
  let low := Z.land buf (se_mask e) in
  do h <- shl (sub64 high (se_i e)) (ef_l ef);
  do buf <- shr buf (ef_l ef);
  Ok (Z.lor h low, mk_se (se_i e + 1) (Some u) buf (se_mask e) (se_in_word e) avail).

(** elias_fano_list.hpp:28-34. Without the assertions. *)
Fixpoint nd_efl_loop (gr : growth) (ints : list Z) (cur_base : Z) (b : ef_builder) : res ef_builder :=
  match ints with
  | [] => Ok b
  | x :: ints =>
      let cur_base := u64 (cur_base + x) in
      do b <- nd_ef_push gr b cur_base;
      nd_efl_loop gr ints cur_base b
  end.

(** elias_fano_list.hpp:13-36; the list is its only member m_ef. Without the assertions. *)
Definition nd_efl_build (gr : growth) (ints : list Z) : res elias_fano :=
  let s := fold_left (fun s x => u64 (s + x)) ints 0 in
  let n := zlen ints in
  do b <- nd_ef_builder_new gr (u64 (s + 1)) n;
  do b <- nd_efl_loop gr ints 0 b;
  nd_ef_build b false.

(** elias_fano_list.hpp:38-50. Without the assertions. *)
Definition nd_efl_get (l : elias_fano) (idx : Z) : res Z := nd_ef_delta l idx.

(** elias_fano_compressed_list.hpp:18-25: the total length of the codes. Without the assertions. *)
Fixpoint nd_code_sum (ints : list Z) (s : Z) : res Z :=
  match ints with
  | [] => Ok s
  | x :: ints => do r <- nd_msb (u64 (x + 1)); nd_code_sum ints (u64 (s + r))
  end.

(** elias_fano_compressed_list.hpp:31-38. Without the assertions. *)
Fixpoint nd_efc_loop (gr : growth) (ints : list Z) (b : ef_builder) (bits : builder)
  : res (ef_builder * builder) :=
  match ints with
  | [] => Ok (b, bits)
  | x :: ints =>
      let val := u64 (x + 1) in
      do l <- nd_msb val;
      do m <- shl 1 l;
      do bits <- nd_append_bits gr bits (Z.lxor val m) l;
      do b <- nd_ef_push gr b (b_size bits);
      nd_efc_loop gr ints b bits
  end.

(** elias_fano_compressed_list.hpp:13-41. Without the assertions. *)
Definition nd_efc_build (gr : growth) (ints : list Z) : res ef_compressed :=
  do s <- nd_code_sum ints 0;
  do b <- nd_ef_builder_new gr (u64 (s + 1)) (zlen ints + 1);
  do bits <- new_builder 0 false;
  do b <- nd_ef_push gr b (b_size bits);
  do (b, bits) <- nd_efc_loop gr ints b bits;
  do ef <- nd_ef_build b false;
  do bv <- nd_bv_of_builder bits;
  Ok (mk_efc ef bv).

(** elias_fano_compressed_list.hpp:43-48. Without the assertions. *)
Definition nd_efc_get (c : ef_compressed) (idx : Z) : res Z :=
  do (first, second) <- nd_ef_select_range (efc_ef c) idx;
  let l := sub64 second first in
  do m <- shl 1 l;
  do v <- nd_get_bits strict_shift (efc_bits c) first l;
  Ok (sub64 (Z.lor m v) 1).

(** gamma_vector.hpp:26-35. Without the assertions. *)
Fixpoint nd_gv_loop (gr : growth) (ints : list Z) (high : d64_builder) (low : builder)
  : res (d64_builder * builder) :=
  match ints with
  | [] => Ok (high, low)
  | x :: ints =>
      let val := u64 (x + 1) in
      do r <- nd_msb val;
      let l := u8 r in
      do m <- shl 1 l;
      do low <- nd_append_bits gr low (Z.lxor val m) l;
      do high <- nd_append1 gr high l;
      nd_gv_loop gr ints high low
  end.

(** gamma_vector.hpp:18-39. Without the assertions. *)
Definition nd_gv_build (gr : growth) (ints : list Z) : res gamma :=
  do low <- new_builder 0 false;
  do high <- nd_append1 gr d64_new 0;
  do (high, low) <- nd_gv_loop gr ints high low;
  do h <- nd_d64_build high;
  do l <- nd_bv_of_builder low;
  Ok (mk_gamma h l).

(** gamma_vector.hpp:69-74; the value and [l]. Without the assertions. *)
Definition nd_gv_retrieve (g : gamma) (idx pos : Z) : res (Z * Z) :=
  do w <- nd_get_word (d64_bits (g_high g)) (pos + 1);
  do l <- nd_lsb w;
  do m <- shl 1 l;
  do v <- nd_get_bits strict_shift (g_low g) (sub64 pos idx) l;
  Ok (sub64 (Z.lor m v) 1, l).

(** gamma_vector.hpp:41-46. Without the assertions. *)
Definition nd_gv_get (g : gamma) (idx : Z) : res Z :=
  do pos <- nd_d64_select (g_high g) idx;
  do (v, _) <- nd_gv_retrieve g idx pos;
  Ok v.

(** gamma_vector.hpp:86-97. Without the assertions. *)
Definition nd_gv_enum_new (g : gamma) (idx : Z) : res gamma_enum :=
  if idx <? gamma_size g then
    do pos <- nd_d64_select (g_high g) idx;
    do u <- unary_new (bv_words (d64_bits (g_high g))) (pos + 1);
    Ok (mk_ge idx pos (Some u) (Some (enum_new (sub64 pos idx))))
  else Ok (mk_ge idx 0 None None).

(** unary_enumerator::next on a default-constructed enumerator reads through its null
    m_data (bit_vector.hpp:431-435, 456-471). Without the assertions. *)
Definition nd_ge_unary_next (g : gamma) (u : option unary_enum) : res (Z * unary_enum) :=
  match u with
  | Some u => nd_unary_next (bv_words (d64_bits (g_high g))) u
  | None => nd_unary_next [] (mk_unary 0 0)
  end.

(** enumerator::take; the default-constructed one (bit_vector.hpp:353-356) has a null vector. Without the assertions. *)
Definition nd_ge_low_take (g : gamma) (e : option enumerator) (l : Z) : res (Z * enumerator) :=
  match e with
  | Some e => nd_enum_take (g_low g) e l
  | None => Ub OutOfBounds
  end.

(** gamma_vector.hpp:99-109. Without the assertions. *)
Definition nd_gv_enum_next (g : gamma) (e : gamma_enum) : res (Z * gamma_enum) :=
  do (next_pos, u) <- nd_ge_unary_next g (ge_high e);
  let l := u64 (next_pos - ge_pos e - 1) in
  do (chunk, low) <- nd_ge_low_take g (ge_low e) l;
  do m <- shl 1 l;
  Ok (sub64 (Z.lor chunk m) 1, mk_ge (ge_idx e + 1) next_pos (Some u) (Some low)).

(** gamma_bit_vector.hpp:31-41. Without the assertions. *)
Fixpoint nd_gb_loop (gr : growth) (vals : list Z) (high : d64_builder) (low : builder)
  : res (d64_builder * builder) :=
  match vals with
  | [] => Ok (high, low)
  | x :: vals =>
      let val := u64 (x + 2) in
      do r <- nd_msb val;
      let l := u8 r in
      do high <- nd_append1 gr high (l - 1);
      do m <- shl 1 l;
      do low <- nd_append_bits gr low (Z.lxor val m) l;
      nd_gb_loop gr vals high low
  end.

(** gamma_bit_vector.hpp:23-45. Without the assertions. *)
Definition nd_gb_build (gr : growth) (vals : list Z) : res gamma :=
  do low <- new_builder 0 false;
  do high <- nd_append1 gr d64_new 0;
  do (high, low) <- nd_gb_loop gr vals high low;
  do h <- nd_d64_build high;
  do l <- nd_bv_of_builder low;
  Ok (mk_gamma h l).

(** gamma_bit_vector.hpp:75-82. Without the assertions. *)
Definition nd_gb_retrieve (g : gamma) (pos : Z) : res (Z * Z) :=
  do w <- nd_get_word (d64_bits (g_high g)) (pos + 1);
  do l <- nd_lsb w;
  do chunk <- nd_get_bits strict_shift (g_low g) pos (l + 1);
  do m <- shl 1 (l + 1);
  Ok (sub64 (Z.lor m chunk) 2, l).

(** gamma_bit_vector.hpp:47-52. Without the assertions. *)
Definition nd_gb_get (g : gamma) (idx : Z) : res Z :=
  do pos <- nd_d64_select (g_high g) idx;
  do (v, _) <- nd_gb_retrieve g pos;
  Ok v.

(** gamma_bit_vector.hpp:95-106. Without the assertions. *)
Definition nd_gb_enum_new (g : gamma) (idx : Z) : res gamma_enum :=
  if idx <? gamma_size g then
    do pos <- nd_d64_select (g_high g) idx;
    do u <- unary_new (bv_words (d64_bits (g_high g))) (pos + 1);
    Ok (mk_ge idx pos (Some u) (Some (enum_new pos)))
  else Ok (mk_ge idx 0 None None).

(** gamma_bit_vector.hpp:114-124. Without the assertions. *)
Definition nd_gb_enum_next (g : gamma) (e : gamma_enum) : res (Z * gamma_enum) :=
  do (next_pos, u) <- nd_ge_unary_next g (ge_high e);
  let l := u64 (next_pos - ge_pos e - 1) in
  do (chunk, low) <- nd_ge_low_take g (ge_low e) (l + 1);
  do m <- shl 1 (l + 1);
  Ok (sub64 (Z.lor chunk m) 2, mk_ge (ge_idx e + 1) next_pos (Some u) (Some low)).

(** gamma_bit_vector.hpp:108-112. Without the assertions. *)
Fixpoint nd_gb_enum_skip (g : gamma) (e : gamma_enum) (k : nat) : res gamma_enum :=
  match k with
  | O => Ok e
  | S k => do (_, e) <- nd_gb_enum_next g e; nd_gb_enum_skip g e k
  end.

(** vbyte.hpp:7-12. Without the assertions. *)
Definition nd_vbyte_size (val : Z) : res Z :=
  do r <- nd_msb_opt val;
  let bits := match r with Some b => b | None => 0 end in
  Ok (ceil_div64 (bits + 1) 7).

(** vbyte.hpp:14-24: the vector and the returned number of chunks. Without the assertions. *)
Definition nd_append_vbyte (v : list Z) (val : Z) : res (list Z * Z) :=
  do chunks <- nd_vbyte_size val;
  do v <- append_vbyte_loop (Z.to_nat chunks) v val;
  Ok (v, chunks).

(** nibble_vector.hpp:24-38. [*iter << (parity * 4)] is an int; only its conversion to uint8_t is kept. Without the assertions. *)
Fixpoint nd_nv_loop (from : list Z) (nibbles : list Z) (parity : bool) (cur_byte size : Z) : res nibble_vector :=
  match from with
  | [] => Ok (mk_nv size (if parity then nibbles ++ [cur_byte] else nibbles))
  | x :: from =>
      let cur_byte := u8 (Z.lor cur_byte (Z.shiftl x (Z.b2z parity * 4))) in
      let parity := negb parity in
      if negb parity then nd_nv_loop from (nibbles ++ [cur_byte]) parity 0 (size + 1)
      else nd_nv_loop from nibbles parity cur_byte (size + 1)
  end.

(** nibble_vector.hpp:17-40. Without the assertions. *)
Definition nd_nv_build (from : list Z) : res nibble_vector := nd_nv_loop from [] false 0 0.

(** nibble_vector.hpp:58-61. Without the assertions. *)
Definition nd_nv_get (n : nibble_vector) (pos : Z) : res Z :=
  do b <- rd (nv_nibbles n) (pos / 2);
  Ok (Z.land (Z.shiftr b (pos mod 2 * 4)) 15).
