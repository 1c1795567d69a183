(** Model of bp_vector and cartesian_tree queries over given excess tables: the tables are a static
    object with a constructor (bp_vector.cpp:73), so they are zero until it has run. *)
From Verif Require Import Base M_Broadword M_BitVector M_RsBitVector M_Bp M_Cartesian.

(** bp_vector.cpp:62-70: the six tables *)
Record tabs : Type := mk_tabs { t_fwd_exc : bool -> Z -> res Z; t_fwd_pos : Z -> Z -> res Z; t_fwd_min : Z -> res Z;
  t_fwd_min_idx : Z -> res Z; t_bwd_pos : Z -> Z -> res Z; t_bwd_min : Z -> res Z }.

(** bp_vector.cpp:13-60: the tables after the constructor *)
Definition tabs_after : tabs := mk_tabs fwd_exc fwd_pos fwd_min fwd_min_idx bwd_pos bwd_min.

(** bp_vector.cpp:73: the tables before the constructor has run; static objects start as zeros. [c] is a byte. *)
Definition tabs_before : tabs := mk_tabs (fun _ c => Ok 0) (fun c k => rd (repeat 0 9) k) (fun c => Ok 0) (fun c => Ok 0)
  (fun c k => rd (repeat 0 9) k) (fun c => Ok 0).

(** bp_vector.cpp:75-96; takes the tables *)
Definition i_find_close_in_word (tb : tabs) (word byte_counts cur_exc : Z) : res (option Z) :=
  assert! ((0 <? cur_exc) && (cur_exc <=? 64));
  let steps := u64 (Z.shiftl (u64 (2 * byte_counts - 8 * ones_step_8)) 8) in
  let cum_exc_step_8 := u64 (u64 (cur_exc + steps) * ones_step_8) in
  do min_exc_step_8 <- lanes_loop (t_fwd_min tb) false word 8 0 0;
  do r <- lsb_opt (leq_step_8 cum_exc_step_8 min_exc_step_8);
  match r with
  | Some shift =>
      do w <- shr word shift;
      do k <- shr cum_exc_step_8 shift;
      do bit_pos <- (t_fwd_pos tb) (Z.land w 0xFF) (Z.land k 0xFF);
      assert! (0 <? bit_pos);
      Ok (Some (shift + bit_pos - 1))
  | None => Ok None
  end.

(** bp_vector.cpp:98-119; takes the tables *)
Definition i_find_open_in_word (tb : tabs) (word byte_counts cur_exc : Z) : res (option Z) :=
  assert! ((0 <? cur_exc) && (cur_exc <=? 64));
  let rev_byte_counts := reverse_bytes byte_counts in
  let steps := u64 (Z.shiftl (u64 (2 * rev_byte_counts - 8 * ones_step_8)) 8) in
  let cum_exc_step_8 := u64 (u64 (cur_exc - steps) * ones_step_8) in
  do max_exc_step_8 <- lanes_loop (t_bwd_min tb) true word 8 0 0;
  do r <- lsb_opt (leq_step_8 cum_exc_step_8 max_exc_step_8);
  match r with
  | Some shift =>
      do w <- shr word (64 - shift - 8);
      do k <- shr cum_exc_step_8 shift;
      do bit_pos <- (t_bwd_pos tb) (Z.land w 0xFF) (Z.land k 0xFF);
      assert! (0 <? bit_pos);
      Ok (Some (sub64 64 (shift + bit_pos)))
  | None => Ok None
  end.

(** bp_vector.cpp:128-138. State: exc, min_byte_exc, min_byte_idx; takes the tables *)
Fixpoint i_rmq_bytes_loop (tb : tabs) (cs : bool) (word : Z) (n : nat) (i exc mbe mbi : Z) : res (Z * Z * Z) :=
  match n with
  | O => Ok (exc, mbe, mbi)
  | S n =>
      do s <- shr word (i * 8);
      let byte := Z.land s 0xFF in
      do m <- (t_fwd_min tb) byte;
      do cur_min <- int32 (exc - m);
      let mbi := if cur_min <? mbe then i else mbi in
      let mbe := if cur_min <? mbe then cur_min else mbe in
      do e <- (t_fwd_exc tb) cs byte;
      do exc <- int32 (exc + e);
      i_rmq_bytes_loop tb cs word n (i + 1) exc mbe mbi
  end.

(** bp_vector.cpp:121-145: the new exc, min_exc, min_exc_idx; takes the tables *)
Definition i_excess_rmq_in_word (tb : tabs) (cs : bool) (word exc word_start min_exc min_exc_idx : Z) : res (Z * Z * Z) :=
  do (exc, mbe, mbi) <- i_rmq_bytes_loop tb cs word 8 0 exc min_exc 0;
  if mbe <? min_exc then
    let shift := mbi * 8 in
    do s <- shr word shift;
    do k <- (t_fwd_min_idx tb) (Z.land s 0xFF);
    Ok (exc, mbe, word_start + shift + k)
  else Ok (exc, min_exc, min_exc_idx).

(** bp_vector.cpp:153-165; takes the tables *)
Fixpoint i_close_block_loop (tb : tabs) (n : nat) (words : list Z) (sub_block excess : Z) : res (option Z) :=
  match n with
  | O => Ok None
  | S n =>
      do word <- rd words sub_block;
      let byte_counts := byte_counts word in
      assert! (0 <? excess);
      do r <- (if excess <=? 64 then i_find_close_in_word tb word byte_counts excess else Ok None);
      match r with
      | Some ret => Ok (Some (ret + sub_block * 64))
      | None =>
          do excess <- int32 (excess + i32 (2 * bytes_sum byte_counts - 64));
          i_close_block_loop tb n words (sub_block + 1) excess
      end
  end.

(** bp_vector.cpp:148-167; takes the tables *)
Definition i_find_close_in_block (tb : tabs) (words : list Z) (block_offset excess start : Z) : res (option Z) :=
  if i32 ((bp_block_size - start) * 64) <? excess then Ok None
  else
    assert! (0 <? excess);
    i_close_block_loop tb (Z.to_nat (bp_block_size - start)) words (block_offset + start) excess.

(** bp_vector.cpp:215-227: [n] iterations down from [block_offset + n - 1]; takes the tables *)
Fixpoint i_open_block_loop (tb : tabs) (n : nat) (words : list Z) (block_offset excess : Z) : res (option Z) :=
  match n with
  | O => Ok None
  | S n =>
      assert! (0 <? excess);
      let sub_block := block_offset + Z.of_nat n in
      do word <- rd words sub_block;
      let byte_counts := byte_counts word in
      do r <- (if excess <=? 64 then i_find_open_in_word tb word byte_counts excess else Ok None);
      match r with
      | Some ret => Ok (Some (ret + sub_block * 64))
      | None =>
          do excess <- int32 (excess - i32 (2 * bytes_sum byte_counts - 64));
          i_open_block_loop tb n words block_offset excess
      end
  end.

(** bp_vector.cpp:209-229; takes the tables *)
Definition i_find_open_in_block (tb : tabs) (words : list Z) (block_offset excess start : Z) : res (option Z) :=
  if i32 (start * 64) <? excess then Ok None
  else
    assert! (0 <=? excess);
    i_open_block_loop tb (Z.to_nat start) words block_offset excess.

(** bp_vector.cpp:169-207; [sp] is what [~0ULL << 64] does when [shift] is 0; takes the tables *)
Definition i_find_close (tb : tabs) (sp : shift_policy) (bp : bp_vector) (pos : Z) : res Z :=
  do b <- bv_get (rs_bv (bp_rs bp)) pos;
  assert! (b : bool);
  let words := bp_words bp in
  let word_pos := (pos + 1) / 64 in
  let shift := (pos + 1) mod 64 in
  do w <- rd words word_pos;
  do shifted_word <- shr w shift;
  do ones <- shl_p sp (2 ^ 64 - 1) (64 - shift);
  let padded_word := Z.lor shifted_word (if shift =? 0 then 0 else ones) in
  let byte_counts := byte_counts padded_word in
  do r <- i_find_close_in_word tb padded_word byte_counts 1;
  match r with
  | Some ret => Ok (ret + (pos + 1))
  | None =>
      let block := word_pos / bp_block_size in
      let block_offset := block * bp_block_size in
      let sub_block := word_pos mod bp_block_size in
      let local_rank := sub64 (bytes_sum byte_counts) shift in
      let local_excess := i32 (2 * local_rank - (64 - shift)) in
      do e <- int32 (local_excess + 1);
      do r <- i_find_close_in_block tb words block_offset e (sub_block + 1);
      match r with
      | Some ret => Ok ret
      | None =>
          do pos_excess <- excess bp pos;
          do found_block <- search_min_tree true bp (block + 1) pos_excess;
          let found_block_offset := found_block * bp_block_size in
          do found_block_excess <- get_block_excess (bp_rs bp) found_block;
          do e <- int32 (found_block_excess - pos_excess);
          do r <- i_find_close_in_block tb words found_block_offset e 0;
          match r with
          | Some ret => Ok ret
          | None => Ub AssertFailed
          end
      end
  end.

(** bp_vector.cpp:231-269; [sp] is what the shift by 64 does when [len] is 0. [ret += pos - 64]
    wraps, the sum does not. Takes the tables. *)
Definition i_find_open (tb : tabs) (sp : shift_policy) (bp : bp_vector) (pos : Z) : res Z :=
  assert! (negb (pos =? 0));
  let words := bp_words bp in
  let word_pos := pos / 64 in
  let len := pos mod 64 in
  do w <- rd words word_pos;
  do shifted <- shl_p sp w (64 - len);
  let shifted_word := if len =? 0 then 0 else shifted in
  let byte_counts := byte_counts shifted_word in
  do r <- i_find_open_in_word tb shifted_word byte_counts 1;
  match r with
  | Some ret => Ok (u64 (ret + (pos - 64)))
  | None =>
      let block := word_pos / bp_block_size in
      let block_offset := block * bp_block_size in
      let sub_block := word_pos mod bp_block_size in
      let local_rank := bytes_sum byte_counts in
      do local_excess <- int32 (- i32 (2 * local_rank - len));
      do e <- int32 (local_excess + 1);
      do r <- i_find_open_in_block tb words block_offset e sub_block;
      match r with
      | Some ret => Ok ret
      | None =>
          do x <- excess bp pos;
          do pos_excess <- int32 (x - 1);
          do found_block <- search_min_tree false bp (sub64 block 1) pos_excess;
          let found_block_offset := found_block * bp_block_size in
          do found_block_excess <- get_block_excess (bp_rs bp) (found_block + 1);
          do e <- int32 (found_block_excess - pos_excess);
          do r <- i_find_open_in_block tb words found_block_offset e bp_block_size;
          match r with
          | Some ret => Ok ret
          | None => Ub AssertFailed
          end
      end
  end.

(** bp_vector.hpp:47-50; takes the tables *)
Definition i_enclose (tb : tabs) (sp : shift_policy) (bp : bp_vector) (pos : Z) : res Z :=
  do b <- bv_get (rs_bv (bp_rs bp)) pos;
  assert! (b : bool);
  i_find_open tb sp bp pos.

(** bp_vector.cpp:375-378: [n] words from [w]; takes the tables *)
Fixpoint i_rmq_words_loop (tb : tabs) (cs : bool) (n : nat) (words : list Z) (w exc min_exc min_exc_idx : Z) : res (Z * Z * Z) :=
  match n with
  | O => Ok (exc, min_exc, min_exc_idx)
  | S n =>
      do word <- rd words w;
      do (exc, min_exc, min_exc_idx) <- i_excess_rmq_in_word tb cs word exc (w * 64) min_exc min_exc_idx;
      i_rmq_words_loop tb cs n words (w + 1) exc min_exc min_exc_idx
  end.

(** bp_vector.cpp:365-379; takes the tables *)
Definition i_excess_rmq_in_block (tb : tabs) (cs : bool) (words : list Z) (start end_ exc min_exc min_exc_idx : Z) : res (Z * Z * Z) :=
  assert! (start <=? end_);
  if start =? end_ then Ok (exc, min_exc, min_exc_idx)
  else
    assert! (start / bp_block_size =? (end_ - 1) / bp_block_size);
    i_rmq_words_loop tb cs (Z.to_nat (end_ - start)) words start exc min_exc min_exc_idx.

(** bp_vector.cpp:558-602: min_exc and min_exc_idx after the whole blocks between block_a and block_b; takes the tables *)
Definition i_excess_rmq_blocks (tb : tabs) (cs : bool) (bp : bp_vector) (block_a block_b min_exc min_exc_idx : Z) : res (Z * Z) :=
  let superblock_a := (block_a + 1) / superblock_size in
  let superblock_b := block_b / superblock_size in
  do (block_min_exc, block_min_idx) <-
    (if superblock_a =? superblock_b then
       excess_rmq_in_superblock bp (block_a + 1) block_b min_exc minus1U
     else
       do (bme, bmi) <- excess_rmq_in_superblock bp (block_a + 1) ((superblock_a + 1) * superblock_size) min_exc minus1U;
       do (sme, smi) <- find_min_superblock bp (superblock_a + 1) superblock_b min_exc minus1U;
       do (bme, bmi) <-
         (if sme <? min_exc then
            excess_rmq_in_superblock bp (smi * superblock_size) ((smi + 1) * superblock_size) bme bmi
          else Ok (bme, bmi));
       excess_rmq_in_superblock bp (superblock_b * superblock_size) block_b bme bmi);
  if block_min_exc <? min_exc then
    do cur_exc <- get_block_excess (bp_rs bp) block_min_idx;
    do (_, min_exc, min_exc_idx) <-
      i_excess_rmq_in_block tb cs (bp_words bp) (block_min_idx * bp_block_size) ((block_min_idx + 1) * bp_block_size)
        cur_exc min_exc min_exc_idx;
    assert! (min_exc =? block_min_exc);
    Ok (min_exc, min_exc_idx)
  else Ok (min_exc, min_exc_idx).

(** bp_vector.cpp:508-625: the returned position and min_exc; takes the tables *)
Definition i_excess_rmq (tb : tabs) (cs : bool) (bp : bp_vector) (a b : Z) : res (Z * Z) :=
  assert! (a <=? b);
  do cur_exc <- excess bp a;
  let min_exc := cur_exc in
  let min_exc_idx := a in
  if a =? b then Ok (min_exc_idx, min_exc)
  else
    let words := bp_words bp in
    let range_len := b - a in
    let word_a_idx := a / 64 in
    let word_b_idx := (b - 1) / 64 in
    let shift_a := a mod 64 in
    do wa <- rd words word_a_idx;
    do shifted_word_a <- shr wa shift_a;
    let subword_len_a := Z.min (64 - shift_a) range_len in
    do padded_word_a <- (if subword_len_a =? 64 then Ok shifted_word_a
                         else do ones <- shl (2 ^ 64 - 1) subword_len_a; Ok (Z.lor shifted_word_a ones));
    do (cur_exc, min_exc, min_exc_idx) <- i_excess_rmq_in_word tb cs padded_word_a cur_exc a min_exc min_exc_idx;
    if word_a_idx =? word_b_idx then Ok (min_exc_idx, min_exc)
    else
      let block_a := word_a_idx / bp_block_size in
      let block_b := word_b_idx / bp_block_size in
      do cur_exc <- int32 (cur_exc - (64 - i32 subword_len_a));
      do (cur_exc, min_exc, min_exc_idx) <-
        (if block_a =? block_b then
           i_excess_rmq_in_block tb cs words (word_a_idx + 1) word_b_idx cur_exc min_exc min_exc_idx
         else
           do (_, min_exc, min_exc_idx) <-
             i_excess_rmq_in_block tb cs words (word_a_idx + 1) ((block_a + 1) * bp_block_size) cur_exc min_exc min_exc_idx;
           do (min_exc, min_exc_idx) <- i_excess_rmq_blocks tb cs bp block_a block_b min_exc min_exc_idx;
           do cur_exc <- get_block_excess (bp_rs bp) block_b;
           i_excess_rmq_in_block tb cs words (block_b * bp_block_size) word_b_idx cur_exc min_exc min_exc_idx);
      do word_b <- rd words word_b_idx;
      let offset_b := b mod 64 in
      do padded_word_b <- (if offset_b =? 0 then Ok word_b
                           else do ones <- shl (2 ^ 64 - 1) offset_b; Ok (Z.lor word_b ones));
      do (_, min_exc, min_exc_idx) <- i_excess_rmq_in_word tb cs padded_word_b cur_exc (word_b_idx * 64) min_exc min_exc_idx;
      assert! (a <=? min_exc_idx);
      do x <- excess bp min_exc_idx;
      assert! (min_exc =? x);
      Ok (min_exc_idx, min_exc).

(** cartesian_tree.hpp:106-137. [cs] says whether plain char is signed; takes the tables *)
Definition i_ct_rmq (tb : tabs) (cs : bool) (bp : bp_vector) (a b : Z) : res Z :=
  assert! (a <=? b);
  if a =? b then Ok a
  else
    let n := ct_size bp in
    let k := sub64 (sub64 n b) 1 in
    do t <- rs_select0 (bp_rs bp) k;
    let exc_t := i32 (sub64 t (u64 (2 * k))) in
    do e <- int32 (exc_t - 1);
    do e' <- excess bp (t + 1);
    assert! (e =? e');
    do x <- rs_select0 (bp_rs bp) (sub64 n b);
    do y <- rs_select0 (bp_rs bp) (sub64 n a);
    do (w, exc_w) <- i_excess_rmq tb cs bp x y;
    let rank0_w := sub64 w (u64 exc_w) / 2 in
    do bit <- bv_get (rs_bv (bp_rs bp)) (sub64 w 1);
    assert! (negb bit);
    let ret := if e <=? exc_w then b else sub64 n rank0_w in
    assert! (a <=? ret);
    assert! (ret <=? b);
    Ok ret.
