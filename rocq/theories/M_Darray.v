(** Model of darray.hpp and darray64.hpp.

    Positions and counters are exact integers (no wrap at 2^64); conversions to int64_t and
    uint16_t are explicit. *)
From Verif Require Import Base M_Broadword M_BitVector.

(** darray.hpp:135-137 *)
Definition d_block_size : Z := 1024.
(** darray.hpp:136 *)
Definition d_subblock_size : Z := 32.
(** darray.hpp:137 *)
Definition max_in_block_distance : Z := 2 ^ 16.

(** darray.hpp:22-25 and m_positions: the state of the constructor *)
Record dstate := mk_dstate {
  d_cur : list Z;
  d_blocks : list Z;
  d_subs : list Z;
  d_ovf : list Z;
  d_n : Z
}.

(** the strided loop of darray.hpp:118-120 ([ovf = false]) and 126-128 ([ovf = true]) *)
Fixpoint sub_loop (fuel : nat) (ovf : bool) (cur : list Z) (front i : Z) (subs : list Z)
  : res (list Z) :=
  if i <? zlen cur then
    match fuel with
    | O => Ub OutOfFuel
    | S fuel =>
        do x <- (if ovf then Ok (u16 (-1)) else do p <- rd cur i; Ok (u16 (p - front)));
        sub_loop fuel ovf cur front (i + d_subblock_size) (subs ++ [x])
    end
  else Ok subs.

(** darray.hpp:113-131 *)
Definition flush_cur_block (st : dstate) : res dstate :=
  let cur := d_cur st in
  do back <- rd cur (zlen cur - 1);
  do front <- rd cur 0;
  if sub64 back front <? max_in_block_distance then
    do subs <- sub_loop (S (length cur)) false cur front 0 (d_subs st);
    Ok (mk_dstate [] (d_blocks st ++ [i64 front]) subs (d_ovf st) (d_n st))
  else
    do subs <- sub_loop (S (length cur)) true cur front 0 (d_subs st);
    Ok (mk_dstate [] (d_blocks st ++ [- i64 (zlen (d_ovf st)) - 1]) subs
          (d_ovf st ++ cur) (d_n st)).

(** darray.hpp:36-40 and 45 *)
Definition add_position (st : dstate) (pos : Z) : res dstate :=
  let st := mk_dstate (d_cur st ++ [pos]) (d_blocks st) (d_subs st) (d_ovf st) (d_n st) in
  do st <- (if zlen (d_cur st) =? d_block_size then flush_cur_block st else Ok st);
  Ok (mk_dstate (d_cur st) (d_blocks st) (d_subs st) (d_ovf st) (d_n st + 1)).

(** darray.hpp:31-46; each round consumes at least one bit *)
Fixpoint dword_loop (fuel : nat) (size cur_pos cur_word : Z) (st : dstate) : res dstate :=
  do o <- lsb_opt cur_word;
  match o with
  | None => Ok st
  | Some l =>
      match fuel with
      | O => Ub OutOfFuel
      | S fuel =>
          let cur_pos := cur_pos + l in
          do cur_word <- shr cur_word l;
          if size <=? cur_pos then Ok st
          else
            do st <- add_position st cur_pos;
            do cur_word <- shr cur_word 1;
            dword_loop fuel size (cur_pos + 1) cur_word st
      end
  end.

(** darray.hpp:145-150 (identity_getter, [neg = false]) and 152-157 (negating_getter, [neg = true]) *)
Definition getw (neg : bool) (ws : list Z) (i : Z) : res Z :=
  do w <- rd ws i; Ok (if neg then not64 w else w).

(** darray.hpp:27-47; [neg] is the WordGetter.
    [n] iterations from word [word_idx]. *)
Fixpoint dwords_loop (neg : bool) (n : nat) (ws : list Z) (size word_idx : Z) (st : dstate)
  : res dstate :=
  match n with
  | O => Ok st
  | S n =>
      do w <- getw neg ws word_idx;
      do st <- dword_loop 64 size (word_idx * 64) w st;
      dwords_loop neg n ws size (word_idx + 1) st
  end.

(** darray.hpp:139-142; num_positions() of 107-109 is [da_positions] *)
Record darray := mk_darray {
  da_positions : Z;
  da_blocks : list Z;
  da_subs : list Z;
  da_ovf : list Z
}.

(** darray.hpp:13-15 *)
Definition darray_empty : darray := mk_darray 0 [] [] [].

(** darray.hpp:17-55 *)
Definition darray_build (neg : bool) (bv : bit_vector) : res darray :=
  do st <- dwords_loop neg (length (bv_words bv)) (bv_words bv) (bv_size bv) 0
             (mk_dstate [] [] [] [] 0);
  do st <- (if zlen (d_cur st) =? 0 then Ok st else flush_cur_block st);
  Ok (mk_darray (d_n st) (d_blocks st) (d_subs st) (d_ovf st)).

(** darray.hpp:96-101 and darray64.hpp:93-98 *)
Fixpoint darray_loop (neg : bool) (fuel : nat) (ws : list Z) (word_idx word reminder : Z)
  : res (Z * Z * Z) :=
  let popcnt := popcount word in
  if reminder <? popcnt then Ok (word_idx, word, reminder)
  else
    match fuel with
    | O => Ub OutOfFuel
    | S fuel =>
        do w <- getw neg ws (word_idx + 1);
        darray_loop neg fuel ws (word_idx + 1) w (reminder - popcnt)
    end.

(** darray.hpp:89-104 and darray64.hpp:86-101 *)
Definition darray_scan (neg : bool) (ws : list Z) (start_pos reminder : Z) : res Z :=
  if reminder =? 0 then Ok start_pos
  else
    let word_idx := start_pos / 64 in
    let word_shift := start_pos mod 64 in
    do w <- getw neg ws word_idx;
    do m <- shl (2 ^ 64 - 1) word_shift;
    do (word_idx, word, reminder) <-
      darray_loop neg (S (length ws)) ws word_idx (Z.land w m) reminder;
    do r <- select_in_word word reminder;
    Ok (64 * word_idx + r).

(** darray.hpp:74-105 *)
Definition darray_select (neg : bool) (d : darray) (bv : bit_vector) (idx : Z) : res Z :=
  assert! (idx <? da_positions d);
  let block := idx / d_block_size in
  do block_pos <- rd (da_blocks d) block;
  if block_pos <? 0 then
    let overflow_pos := u64 (- block_pos - 1) in
    rd (da_ovf d) (overflow_pos + idx mod d_block_size)
  else
    let subblock := idx / d_subblock_size in
    do s <- rd (da_subs d) subblock;
    darray_scan neg (bv_words bv) (block_pos + s) (idx mod d_subblock_size).
(** darray.hpp:160 and 74-105 *)
Definition darray1_select := darray_select false.
(** darray.hpp:161 and 74-105 *)
Definition darray0_select := darray_select true.

(** ** darray64 *)

(** darray64.hpp:106-107 *)
Definition d64_block_size : Z := 1024.
(** darray64.hpp:107 *)
Definition d64_subblock_size : Z := 64.

(** darray64.hpp:30-33 *)
Record d64_builder := mk_d64b {
  d64b_n : Z;
  d64b_bits : builder;
  d64b_blocks : list Z;
  d64b_subs : list Z
}.
(** darray64.hpp:11-13 with the default bit_vector_builder (bit_vector.hpp:27-38) *)
Definition d64_new : d64_builder := mk_d64b 0 (mk_builder [] 0 0 0 None) [] [].

(** darray64.hpp:15-28 *)
Definition append1 (gr : growth) (b : d64_builder) (skip0 : Z) : res d64_builder :=
  do bits <- append_bits gr (d64b_bits b) 0 skip0;
  do bits <- push_back gr bits true;
  let blocks := if d64b_n b mod d64_block_size =? 0 then d64b_blocks b ++ [sub64 (b_size bits) 1]
                else d64b_blocks b in
  do subs <- (if d64b_n b mod d64_subblock_size =? 0 then
                do p <- rd blocks (d64b_n b / d64_block_size);
                Ok (d64b_subs b ++ [u16 (b_size bits - 1 - p)])
              else Ok (d64b_subs b));
  Ok (mk_d64b (d64b_n b + 1) bits blocks subs).

(** darray64.hpp:109-112; num_ones() (66-69) and bits() (71-74) are fields *)
Record darray64 := mk_d64 {
  d64_num_ones : Z;
  d64_bits : bit_vector;
  d64_blocks : list Z;
  d64_subs : list Z
}.

(** darray64.hpp:40-46 *)
Definition d64_build (b : d64_builder) : res darray64 :=
  do bv <- bv_of_builder (d64b_bits b);
  Ok (mk_d64 (d64b_n b) bv (d64b_blocks b) (d64b_subs b)).

(** darray64.hpp:76-102 *)
Definition d64_select (d : darray64) (idx : Z) : res Z :=
  assert! (idx <? d64_num_ones d);
  do block_pos <- rd (d64_blocks d) (idx / d64_block_size);
  do s <- rd (d64_subs d) (idx / d64_subblock_size);
  darray_scan false (bv_words (d64_bits d)) (block_pos + s) (idx mod d64_subblock_size).
