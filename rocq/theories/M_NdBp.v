(** The functions of the other M_ files that contain or use assertions, as compiled with NDEBUG: every [assert]
    and what is evaluated only for it is left out. E.g. bp_vector.cpp:77. *)
From Verif Require Import Base M_Tables M_Broadword M_BitVector M_RsBitVector M_Darray M_EliasFano M_Gamma M_Util M_Bp M_Cartesian M_Topk M_Nd.

(** bp_vector.cpp:75-96. Without the assertions. [ret] is unsigned and only added to afterwards: a result -1 of the
    callers stands for 2^64-1. *)
Definition nd_find_close_in_word (word byte_counts cur_exc : Z) : res (option Z) :=
  let steps := u64 (Z.shiftl (u64 (2 * byte_counts - 8 * ones_step_8)) 8) in
  let cum_exc_step_8 := u64 (u64 (cur_exc + steps) * ones_step_8) in
  do min_exc_step_8 <- lanes_loop fwd_min false word 8 0 0;
  do r <- nd_lsb_opt (leq_step_8 cum_exc_step_8 min_exc_step_8);
  match r with
  | Some shift =>
      do w <- shr word shift;
      do k <- shr cum_exc_step_8 shift;
      do bit_pos <- fwd_pos (Z.land w 0xFF) (Z.land k 0xFF);
      Ok (Some (shift + bit_pos - 1))
  | None => Ok None
  end.

(** bp_vector.cpp:98-119. Without the assertions. *)
Definition nd_find_open_in_word (word byte_counts cur_exc : Z) : res (option Z) :=
  let rev_byte_counts := reverse_bytes byte_counts in
  let steps := u64 (Z.shiftl (u64 (2 * rev_byte_counts - 8 * ones_step_8)) 8) in
  let cum_exc_step_8 := u64 (u64 (cur_exc - steps) * ones_step_8) in
  do max_exc_step_8 <- lanes_loop bwd_min true word 8 0 0;
  do r <- nd_lsb_opt (leq_step_8 cum_exc_step_8 max_exc_step_8);
  match r with
  | Some shift =>
      do w <- shr word (64 - shift - 8);
      do k <- shr cum_exc_step_8 shift;
      do bit_pos <- bwd_pos (Z.land w 0xFF) (Z.land k 0xFF);
      Ok (Some (sub64 64 (shift + bit_pos)))
  | None => Ok None
  end.

(** bp_vector.cpp:299-305. Without the assertions. *)
Definition nd_get_block_excess (rs : rs_bit_vector) (block : Z) : res Z :=
  let sub_block_idx := block * bp_block_size in
  let block_pos := sub_block_idx * 64 in
  do r <- sub_block_rank (rs_pairs rs) sub_block_idx;
  let excess := i32 (2 * r - block_pos) in
  Ok excess.

(** bp_vector.cpp:359-363. Without the assertions. *)
Definition nd_excess (bp : bp_vector) (pos : Z) : res Z :=
  do r <- nd_rs_rank (bp_rs bp) pos; Ok (i32 (2 * r - pos)).

(** bp_vector.cpp:153-165. Without the assertions. *)
Fixpoint nd_close_block_loop (n : nat) (words : list Z) (sub_block excess : Z) : res (option Z) :=
  match n with
  | O => Ok None
  | S n =>
      do word <- rd words sub_block;
      let byte_counts := byte_counts word in
      do r <- (if excess <=? 64 then nd_find_close_in_word word byte_counts excess else Ok None);
      match r with
      | Some ret => Ok (Some (ret + sub_block * 64))
      | None =>
          do excess <- int32 (excess + i32 (2 * bytes_sum byte_counts - 64));
          nd_close_block_loop n words (sub_block + 1) excess
      end
  end.

(** bp_vector.cpp:148-167. Without the assertions. *)
Definition nd_find_close_in_block (words : list Z) (block_offset excess start : Z) : res (option Z) :=
  if i32 ((bp_block_size - start) * 64) <? excess then Ok None
  else
    nd_close_block_loop (Z.to_nat (bp_block_size - start)) words (block_offset + start) excess.

(** bp_vector.cpp:215-227: [n] iterations down from [block_offset + n - 1]. Without the assertions. *)
Fixpoint nd_open_block_loop (n : nat) (words : list Z) (block_offset excess : Z) : res (option Z) :=
  match n with
  | O => Ok None
  | S n =>
      let sub_block := block_offset + Z.of_nat n in
      do word <- rd words sub_block;
      let byte_counts := byte_counts word in
      do r <- (if excess <=? 64 then nd_find_open_in_word word byte_counts excess else Ok None);
      match r with
      | Some ret => Ok (Some (ret + sub_block * 64))
      | None =>
          do excess <- int32 (excess - i32 (2 * bytes_sum byte_counts - 64));
          nd_open_block_loop n words block_offset excess
      end
  end.

(** bp_vector.cpp:209-229. Without the assertions. *)
Definition nd_find_open_in_block (words : list Z) (block_offset excess start : Z) : res (option Z) :=
  if i32 (start * 64) <? excess then Ok None
  else
    nd_open_block_loop (Z.to_nat start) words block_offset excess.

(** bp_vector.cpp:277-284 and 286-293: [n] blocks from [cur] upwards ([dir]) or downwards. Without the assertions. *)
Fixpoint nd_block_search_loop (dir : bool) (n : nat) (mins : list Z) (cur excess superblock_excess : Z) : res (option Z) :=
  match n with
  | O => Ok None
  | S n =>
      do m <- rd mins cur;
      do v <- int32 (superblock_excess + m);
      if v <=? excess then Ok (Some cur)
      else nd_block_search_loop dir n mins (if dir then cur + 1 else cur - 1) excess superblock_excess
  end.

(** bp_vector.cpp:271-297. Without the assertions. *)
Definition nd_search_block_in_superblock (dir : bool) (bp : bp_vector) (block excess : Z) : res (option Z) :=
  let superblock := block / superblock_size in
  do superblock_excess <- nd_get_block_excess (bp_rs bp) (superblock * superblock_size);
  let mins := bp_block_excess_min bp in
  let n := if dir then Z.min ((superblock + 1) * superblock_size) (zlen mins) - block
           else block + 1 - superblock * superblock_size in
  nd_block_search_loop dir (Z.to_nat n) mins block excess superblock_excess.

(** bp_vector.cpp:307-310. Without the assertions. *)
Definition nd_in_node_range (bp : bp_vector) (node excess : Z) : res bool :=
  do v <- rd (bp_superblock_excess_min bp) node;
  Ok (v <=? excess).

(** bp_vector.cpp:322-333. Without the assertions. *)
Fixpoint nd_tree_up_loop (fuel : nat) (dir : bool) (bp : bp_vector) (cur_node excess : Z) : res Z :=
  match fuel with
  | O => Ub OutOfFuel
  | S fuel =>
      let going_back := Bool.eqb (Z.odd cur_node) dir in
      if going_back then nd_tree_up_loop fuel dir bp (cur_node / 2) excess
      else
        let next_node := if dir then cur_node + 1 else sub64 cur_node 1 in
        do r <- nd_in_node_range bp next_node excess;
        if (r : bool) then Ok next_node else nd_tree_up_loop fuel dir bp (cur_node / 2) excess
  end.

(** bp_vector.cpp:337-348. Without the assertions. *)
Fixpoint nd_tree_down_loop (fuel : nat) (dir : bool) (bp : bp_vector) (cur_node excess : Z) : res Z :=
  if bp_internal_nodes bp <=? cur_node then Ok cur_node
  else
    match fuel with
    | O => Ub OutOfFuel
    | S fuel =>
        let next_node := cur_node * 2 + (if dir then 0 else 1) in
        do r <- nd_in_node_range bp next_node excess;
        if (r : bool) then nd_tree_down_loop fuel dir bp next_node excess
        else
          let next_node := if dir then next_node + 1 else sub64 next_node 1 in
          nd_tree_down_loop fuel dir bp next_node excess
    end.

(** bp_vector.cpp:312-356 What was not found is returned as the initial value [-1U]. Without the assertions. *)
Definition nd_search_min_tree (dir : bool) (bp : bp_vector) (block excess : Z) : res Z :=
  do f <- nd_search_block_in_superblock dir bp block excess;
  match f with
  | Some found_block => Ok found_block
  | None =>
      let fuel := length (bp_superblock_excess_min bp) in
      let cur_superblock := block / superblock_size in
      do cur_node <- nd_tree_up_loop fuel dir bp (bp_internal_nodes bp + cur_superblock) excess;
      do cur_node <- nd_tree_down_loop fuel dir bp cur_node excess;
      let next_superblock := cur_node - bp_internal_nodes bp in
      do f <- nd_search_block_in_superblock dir bp
                (next_superblock * superblock_size + (if dir then 0 else superblock_size - 1)) excess;
      match f with
      | Some found_block => Ok found_block
      | None => Ok (2 ^ 32 - 1)
      end
  end.

(** bp_vector.cpp:169-207; [sp] is what [~0ULL << 64] does when [shift] is 0 What was not found is returned as the initial value [-1U]. Without the assertions. *)
Definition nd_find_close (sp : shift_policy) (bp : bp_vector) (pos : Z) : res Z :=
  let words := bp_words bp in
  let word_pos := (pos + 1) / 64 in
  let shift := (pos + 1) mod 64 in
  do w <- rd words word_pos;
  do shifted_word <- shr w shift;
  do ones <- shl_p sp (2 ^ 64 - 1) (64 - shift);
  let padded_word := Z.lor shifted_word (if shift =? 0 then 0 else ones) in
  let byte_counts := byte_counts padded_word in
  do r <- nd_find_close_in_word padded_word byte_counts 1;
  match r with
  | Some ret => Ok (ret + (pos + 1))
  | None =>
      let block := word_pos / bp_block_size in
      let block_offset := block * bp_block_size in
      let sub_block := word_pos mod bp_block_size in
      let local_rank := sub64 (bytes_sum byte_counts) shift in
      let local_excess := i32 (2 * local_rank - (64 - shift)) in
      do e <- int32 (local_excess + 1);
      do r <- nd_find_close_in_block words block_offset e (sub_block + 1);
      match r with
      | Some ret => Ok ret
      | None =>
          do pos_excess <- nd_excess bp pos;
          do found_block <- nd_search_min_tree true bp (block + 1) pos_excess;
          let found_block_offset := found_block * bp_block_size in
          do found_block_excess <- nd_get_block_excess (bp_rs bp) found_block;
          do e <- int32 (found_block_excess - pos_excess);
          do r <- nd_find_close_in_block words found_block_offset e 0;
          match r with
          | Some ret => Ok ret
          | None => Ok (2 ^ 32 - 1)
          end
      end
  end.

(** bp_vector.cpp:231-269; [sp] is what the shift by 64 does when [len] is 0. [ret += pos - 64]
    wraps, the sum does not. What was not found is returned as the initial value [-1U]. Without the assertions. *)
Definition nd_find_open (sp : shift_policy) (bp : bp_vector) (pos : Z) : res Z :=
  let words := bp_words bp in
  let word_pos := pos / 64 in
  let len := pos mod 64 in
  do w <- rd words word_pos;
  do shifted <- shl_p sp w (64 - len);
  let shifted_word := if len =? 0 then 0 else shifted in
  let byte_counts := byte_counts shifted_word in
  do r <- nd_find_open_in_word shifted_word byte_counts 1;
  match r with
  | Some ret => Ok (u64 (ret + (pos - 64)))
  | None =>
      let block := word_pos / bp_block_size in
      let block_offset := block * bp_block_size in
      let sub_block := word_pos mod bp_block_size in
      let local_rank := bytes_sum byte_counts in
      do local_excess <- int32 (- i32 (2 * local_rank - len));
      do e <- int32 (local_excess + 1);
      do r <- nd_find_open_in_block words block_offset e sub_block;
      match r with
      | Some ret => Ok ret
      | None =>
          do x <- nd_excess bp pos;
          do pos_excess <- int32 (x - 1);
          do found_block <- nd_search_min_tree false bp (sub64 block 1) pos_excess;
          let found_block_offset := found_block * bp_block_size in
          do found_block_excess <- nd_get_block_excess (bp_rs bp) (found_block + 1);
          do e <- int32 (found_block_excess - pos_excess);
          do r <- nd_find_open_in_block words found_block_offset e bp_block_size;
          match r with
          | Some ret => Ok ret
          | None => Ok (2 ^ 32 - 1)
          end
      end
  end.

(** bp_vector.hpp:47-50. Without the assertions. *)
Definition nd_enclose (sp : shift_policy) (bp : bp_vector) (pos : Z) : res Z :=
  nd_find_open sp bp pos.

(** bp_vector.cpp:365-379. Without the assertions. *)
Definition nd_excess_rmq_in_block (cs : bool) (words : list Z) (start end_ exc min_exc min_exc_idx : Z) : res (Z * Z * Z) :=
  if start =? end_ then Ok (exc, min_exc, min_exc_idx)
  else
    rmq_words_loop cs (Z.to_nat (end_ - start)) words start exc min_exc min_exc_idx.

(** bp_vector.cpp:381-400. Without the assertions. *)
Definition nd_excess_rmq_in_superblock (bp : bp_vector) (block_start block_end min_exc min_idx : Z) : res (Z * Z) :=
  if block_start =? block_end then Ok (min_exc, min_idx)
  else
    let superblock := block_start / superblock_size in
    do superblock_excess <- nd_get_block_excess (bp_rs bp) (superblock * superblock_size);
    rmq_blocks_loop (Z.to_nat (block_end - block_start)) (bp_block_excess_min bp) block_start
      superblock_excess min_exc min_idx.

(** bp_vector.cpp:428-450. State: cur_node, h, rightmost_span, node_min_exc, node_min_idx. Without the assertions. *)
Fixpoint nd_span_up_loop (fuel : nat) (tree : list Z) (sb_end cur h span nme nmi : Z) : res (Z * Z * Z * Z * Z) :=
  match fuel with
  | O => Ub OutOfFuel
  | S fuel =>
      if Z.odd cur then nd_span_up_loop fuel tree sb_end (cur / 2) (h + 1) span nme nmi
      else
        let right_sibling := cur + 1 in
        do s <- shl 1 h;
        let span := span + s in
        do (nme, nmi) <-
          (if span <? sb_end then
             do v <- rd tree right_sibling;
             Ok (if v <? nme then (v, right_sibling) else (nme, nmi))
           else Ok (nme, nmi));
        if sb_end - 1 <=? span then Ok (cur + 1, h, span, nme, nmi)
        else nd_span_up_loop fuel tree sb_end (cur / 2) (h + 1) span nme nmi
  end.

(** bp_vector.cpp:455-475. Without the assertions. *)
Fixpoint nd_span_down_loop (fuel : nat) (tree : list Z) (sb_end cur h span nme nmi : Z) : res (Z * Z * Z * Z) :=
  if span <=? sb_end - 1 then Ok (cur, span, nme, nmi)
  else
    match fuel with
    | O => Ub OutOfFuel
    | S fuel =>
        let h := h - 1 in
        let left_child := cur * 2 in
        do right_child_span <- shl 1 h;
        if sb_end - 1 <=? sub64 span right_child_span then
          nd_span_down_loop fuel tree sb_end left_child h (span - right_child_span) nme nmi
        else
          do v <- rd tree left_child;
          let '(nme, nmi) := if v <? nme then (v, left_child) else (nme, nmi) in
          nd_span_down_loop fuel tree sb_end (left_child + 1) h span nme nmi
    end.

(** bp_vector.cpp:403-506: the new superblock_min_exc and superblock_min_idx. Without the assertions. *)
Definition nd_find_min_superblock (bp : bp_vector) (sb_start sb_end min_exc min_idx : Z) : res (Z * Z) :=
  if sb_start =? sb_end then Ok (min_exc, min_idx)
  else
    let tree := bp_superblock_excess_min bp in
    let internal := bp_internal_nodes bp in
    let cur_node := internal + sb_start in
    do node_min_exc <- rd tree cur_node;
    let node_min_idx := cur_node in
    if sub64 sb_end sb_start =? 1 then Ok (node_min_exc, sb_start)
    else
      let fuel := length tree in
      do (cur, h, span, nme, nmi) <- nd_span_up_loop fuel tree sb_end cur_node 0 sb_start node_min_exc node_min_idx;
      do (cur, span, nme, nmi) <- nd_span_down_loop fuel tree sb_end cur h span nme nmi;
      do (nme, nmi) <-
        (if span <? sb_end then
           do v <- rd tree cur;
           Ok (if v <? nme then (v, cur) else (nme, nmi))
         else Ok (nme, nmi));
      if nme <? min_exc then
        do cur <- min_leaf_loop fuel tree internal nmi;
        let superblock_min_idx := cur - internal in
        Ok (nme, superblock_min_idx)
      else Ok (min_exc, min_idx).

(** bp_vector.cpp:558-602: min_exc and min_exc_idx after the whole blocks between block_a and block_b. Without the assertions. *)
Definition nd_excess_rmq_blocks (cs : bool) (bp : bp_vector) (block_a block_b min_exc min_exc_idx : Z) : res (Z * Z) :=
  let superblock_a := (block_a + 1) / superblock_size in
  let superblock_b := block_b / superblock_size in
  do (block_min_exc, block_min_idx) <-
    (if superblock_a =? superblock_b then
       nd_excess_rmq_in_superblock bp (block_a + 1) block_b min_exc minus1U
     else
       do (bme, bmi) <- nd_excess_rmq_in_superblock bp (block_a + 1) ((superblock_a + 1) * superblock_size) min_exc minus1U;
       do (sme, smi) <- nd_find_min_superblock bp (superblock_a + 1) superblock_b min_exc minus1U;
       do (bme, bmi) <-
         (if sme <? min_exc then
            nd_excess_rmq_in_superblock bp (smi * superblock_size) ((smi + 1) * superblock_size) bme bmi
          else Ok (bme, bmi));
       nd_excess_rmq_in_superblock bp (superblock_b * superblock_size) block_b bme bmi);
  if block_min_exc <? min_exc then
    do cur_exc <- nd_get_block_excess (bp_rs bp) block_min_idx;
    do (_, min_exc, min_exc_idx) <-
      nd_excess_rmq_in_block cs (bp_words bp) (block_min_idx * bp_block_size) ((block_min_idx + 1) * bp_block_size)
        cur_exc min_exc min_exc_idx;
    Ok (min_exc, min_exc_idx)
  else Ok (min_exc, min_exc_idx).

(** bp_vector.cpp:508-625: the returned position and min_exc. Without the assertions. *)
Definition nd_excess_rmq (cs : bool) (bp : bp_vector) (a b : Z) : res (Z * Z) :=
  do cur_exc <- nd_excess bp a;
  let min_exc := cur_exc in
  let min_exc_idx := a in
  if a =? b then Ok (min_exc_idx, min_exc)
  else
    let words := bp_words bp in
    let range_len := b - a in
    let word_a_idx := a / 64 in
    let word_b_idx := (b - 1) / 64 in
    let shift_a := a mod 64 in
    do wa <- rd words word_a_idx;
    do shifted_word_a <- shr wa shift_a;
    let subword_len_a := Z.min (64 - shift_a) range_len in
    do padded_word_a <- (if subword_len_a =? 64 then Ok shifted_word_a
                         else do ones <- shl (2 ^ 64 - 1) subword_len_a; Ok (Z.lor shifted_word_a ones));
    do (cur_exc, min_exc, min_exc_idx) <- excess_rmq_in_word cs padded_word_a cur_exc a min_exc min_exc_idx;
    if word_a_idx =? word_b_idx then Ok (min_exc_idx, min_exc)
    else
      let block_a := word_a_idx / bp_block_size in
      let block_b := word_b_idx / bp_block_size in
      do cur_exc <- int32 (cur_exc - (64 - i32 subword_len_a));
      do (cur_exc, min_exc, min_exc_idx) <-
        (if block_a =? block_b then
           nd_excess_rmq_in_block cs words (word_a_idx + 1) word_b_idx cur_exc min_exc min_exc_idx
         else
           do (_, min_exc, min_exc_idx) <-
             nd_excess_rmq_in_block cs words (word_a_idx + 1) ((block_a + 1) * bp_block_size) cur_exc min_exc min_exc_idx;
           do (min_exc, min_exc_idx) <- nd_excess_rmq_blocks cs bp block_a block_b min_exc min_exc_idx;
           do cur_exc <- nd_get_block_excess (bp_rs bp) block_b;
           nd_excess_rmq_in_block cs words (block_b * bp_block_size) word_b_idx cur_exc min_exc min_exc_idx);
      do word_b <- rd words word_b_idx;
      let offset_b := b mod 64 in
      do padded_word_b <- (if offset_b =? 0 then Ok word_b
                           else do ones <- shl (2 ^ 64 - 1) offset_b; Ok (Z.lor word_b ones));
      do (_, min_exc, min_exc_idx) <- excess_rmq_in_word cs padded_word_b cur_exc (word_b_idx * 64) min_exc min_exc_idx;
      Ok (min_exc_idx, min_exc).

(** bp_vector.cpp:640-642 and 661-663. Without the assertions. *)
Definition nd_push_block_min (mins : list Z) (m : Z) : res (list Z) :=
  Ok (mins ++ [i16 m]).

(** bp_vector.cpp:634-659 on the words from [sub_block]; [last] is the number of bits of the last
    word. State: block_excess_min, cur_block_min, cur_superblock_excess. Without the assertions. *)
Fixpoint nd_block_mins_loop (ws : list Z) (last sub_block : Z) (mins : list Z) (block_min sb_excess : Z)
  : res (list Z * Z) :=
  match ws with
  | [] => Ok (mins, block_min)
  | word :: ws =>
      do (mins, block_min, sb_excess) <-
        (if sub_block mod bp_block_size =? 0 then
           let sb_excess := if sub_block mod (bp_block_size * superblock_size) =? 0 then 0 else sb_excess in
           if negb (sub_block =? 0) then
             do mins <- nd_push_block_min mins block_min; Ok (mins, sb_excess, sb_excess)
           else Ok (mins, block_min, sb_excess)
         else Ok (mins, block_min, sb_excess));
      let n_bits := match ws with [] => last | _ => 64 end in
      let '(block_min, sb_excess) := min_bits_loop (Z.to_nat n_bits) word 0 block_min sb_excess in
      nd_block_mins_loop ws last (sub_block + 1) mins block_min sb_excess
  end.

(** bp_vector.cpp:679-691: the leaves of the superblocks from [superblock], in order. Without the assertions. *)
Fixpoint nd_leaves_loop (n : nat) (rs : rs_bit_vector) (mins : list Z) (size superblock : Z) : res (list Z) :=
  match n with
  | O => Ok []
  | S n =>
      do superblock_excess <- nd_get_block_excess rs (superblock * superblock_size);
      let first := superblock * superblock_size in
      let count := Z.min ((superblock + 1) * superblock_size) (zlen mins) - first in
      do m <- super_min_loop (Z.to_nat count) mins first superblock_excess (i32 size);
      do rest <- nd_leaves_loop n rs mins size (superblock + 1);
      Ok (m :: rest)
  end.

(** bp_vector.cpp:628-708. The array is assembled from the internal nodes (693-697) and the
    leaves (678-691), which the source writes in the other order. [uninit] is the
    uninitialised m_internal_nodes of an empty vector. Without the assertions. *)
Definition nd_build_min_tree (uninit : Z) (rs : rs_bit_vector) : res bp_vector :=
  let size := bv_size (rs_bv rs) in
  if size =? 0 then Ok (mk_bp rs uninit [] [])
  else
    let words := bv_words (rs_bv rs) in
    let last := if negb (size mod 64 =? 0) then size mod 64 else 64 in
    do (mins, block_min) <- nd_block_mins_loop words last 0 [] 0 0;
    do mins <- nd_push_block_min mins block_min;
    let n_blocks := ceil_div (zlen words) bp_block_size in
    let n_superblocks := (n_blocks + superblock_size - 1) / superblock_size in
    do internal <- complete_leaves 64 1 n_superblocks;
    do leaves <- nd_leaves_loop (Z.to_nat n_superblocks) rs mins size 0;
    let tree := repeat (i32 size) (Z.to_nat internal) ++ leaves in
    do tree <- parents_loop (Z.to_nat (zlen tree - 2)) tree;
    Ok (mk_bp rs internal mins tree).

(** bp_vector.hpp:19-26. Without the assertions. *)
Definition nd_bp_build (uninit : Z) (bv : bit_vector) (with_select_hints with_select0_hints : bool) : res bp_vector :=
  do rs <- rs_build bv with_select_hints with_select0_hints;
  nd_build_min_tree uninit rs.

(** cartesian_tree.hpp:63-75. Without the assertions. *)
Definition nd_cb_finalize {T} (gr : growth) (c : ct_builder T) : res builder :=
  do b <- push_back gr (cb_bp c) false;
  do b <- cb_flush gr (cb_stack c) b;
  do b <- push_back gr b true;
  nd_reverse b.

(** cartesian_tree.hpp:85-89; the tree is its m_bp (line 179), which get_bp() returns (139-142). Without the assertions. *)
Definition nd_ct_of_builder {T} (gr : growth) (uninit : Z) (c : ct_builder T) : res bp_vector :=
  do b <- nd_cb_finalize gr c;
  do bv <- nd_bv_of_builder b;
  nd_bp_build uninit bv false true.

(** cartesian_tree.hpp:163-176; with [expected_size] = 0 the constructors from a range (91-101), otherwise the calls of a caller of the builder. Without the assertions. *)
Definition nd_ct_build {T} (gr : growth) (uninit : Z) (comp : T -> T -> bool) (expected_size : Z) (v : list T) : res bp_vector :=
  do c <- cb_new gr expected_size;
  do c <- cb_pushes gr comp c v;
  nd_ct_of_builder gr uninit c.

(** cartesian_tree.hpp:106-137. [cs] says whether plain char is signed. Without the assertions. *)
Definition nd_ct_rmq (cs : bool) (bp : bp_vector) (a b : Z) : res Z :=
  if a =? b then Ok a
  else
    let n := ct_size bp in
    let k := sub64 (sub64 n b) 1 in
    do t <- nd_rs_select0 (bp_rs bp) k;
    let exc_t := i32 (sub64 t (u64 (2 * k))) in
    do e <- int32 (exc_t - 1);
    do x <- nd_rs_select0 (bp_rs bp) (sub64 n b);
    do y <- nd_rs_select0 (bp_rs bp) (sub64 n a);
    do (w, exc_w) <- nd_excess_rmq cs bp x y;
    let rank0_w := sub64 w (u64 exc_w) / 2 in
    let ret := if e <=? exc_w then b else sub64 n rank0_w in
    Ok ret.

(** topk_vector.hpp:25-31. Without the assertions. *)
Definition nd_tk_build {T} (gr : growth) (uninit : Z) (lt : T -> T -> bool) (v : list T) : res (topk_vector T) :=
  do ct <- nd_ct_build gr uninit (fun x y => lt y x) 0 v;
  Ok (mk_tk v ct).

(** topk_vector.hpp:66-68 and 72-74: queue the interval [a, b]. Without the assertions. *)
Definition nd_te_push {T} (cs : bool) (h : heap_ops (queue_element T)) (tk : topk_vector T) (q : list (queue_element T)) (a b : Z) : res (list (queue_element T)) :=
  do m <- nd_ct_rmq cs (tk_tree tk) a b;
  do x <- rd (tk_v tk) m;
  Ok (push_heap h (q ++ [(x, m, a, b)])).

(** topk_vector.hpp:51-78. The back of an empty array cannot be read. Without the assertions. *)
Definition nd_te_next {T} (cs : bool) (h : heap_ops (queue_element T)) (tk : topk_vector T) (s : tk_enum T) : res (bool * tk_enum T) :=
  match te_q s with
  | [] => Ok (false, s)
  | _ =>
      let q := pop_heap h (te_q s) in
      match rev q with
      | [] => Ub OutOfBounds
      | (cur_mid_val, cur_mid, cur_a, cur_b) :: _ =>
          let q := removelast q in
          do q <- if cur_mid =? cur_a then Ok q else nd_te_push cs h tk q cur_a (sub64 cur_mid 1);
          do q <- if cur_mid =? cur_b then Ok q else nd_te_push cs h tk q (u64 (cur_mid + 1)) cur_b;
          Ok (true, mk_te q (Some (cur_mid_val, cur_mid)))
      end
  end.

(** topk_vector.hpp:97-105 and 137-140. Without the assertions. *)
Definition nd_te_set {T} (cs : bool) (tk : topk_vector T) (s : tk_enum T) (a b : Z) : res (tk_enum T) :=
  let s := te_clear s in
  do m <- nd_ct_rmq cs (tk_tree tk) a b;
  do x <- rd (tk_v tk) m;
  Ok (mk_te (te_q s ++ [(x, m, a, b)]) (te_cur s)).

(** topk_vector.hpp:156-160, [n] passes remaining; the entries in order. Without the assertions. *)
Fixpoint nd_topk_loop {T} (cs : bool) (h : heap_ops (queue_element T)) (tk : topk_vector T) (n : nat) (s : tk_enum T) : res (list (option (T * Z)) * tk_enum T) :=
  match n with
  | O => Ok ([], s)
  | S n =>
      do (hasnext, s) <- nd_te_next cs h tk s;
      do (ret, s') <- nd_topk_loop cs h tk n s;
      Ok (te_cur s :: ret, s')
  end.

(** topk_vector.hpp:149-165, with the enumerator of 137-147. An entry is [None] if it is the initial m_cur. Without the assertions. *)
Definition nd_topk {T} (cs : bool) (h : heap_ops (queue_element T)) (tk : topk_vector T) (a b k : Z) : res (list (option (T * Z))) :=
  let size := Z.min (u64 (sub64 b a + 1)) k in
  do s <- nd_te_set cs tk te_new a b;
  do (ret, s) <- nd_topk_loop cs h tk (Z.to_nat size) s;
  if size =? k then Ok ret
  else
    do (hasnext, _) <- nd_te_next cs h tk s;
    Ok ret.
