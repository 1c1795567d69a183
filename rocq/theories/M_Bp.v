(** Model of bp_vector.hpp and bp_vector.cpp.

    excess_t is int32_t: conversions to it wrap ([i32]), arithmetic on it is undefined when the
    result is not representable ([int32]). Positions and node indices are exact integers,
    except that subtractions wrap ([sub64]). *)
From Verif Require Import Base M_Broadword M_BitVector M_RsBitVector.

(** an int32_t expression: undefined when not representable; the type excess_t of bp_vector.hpp:52 *)
Definition int32 (x : Z) : res Z :=
  if (- 2 ^ 31 <=? x) && (x <? 2 ^ 31) then Ok x else Ub SignedOverflow.

(** bp_vector.hpp:64-65 *)
Definition bp_block_size : Z := 4.
(** bp_vector.hpp:65 *)
Definition superblock_size : Z := 32.

(** bp_vector.hpp:97-99 and the base class *)
Record bp_vector := mk_bp {
  bp_rs : rs_bit_vector;
  bp_internal_nodes : Z;
  bp_block_excess_min : list Z;
  bp_superblock_excess_min : list Z
}.
(** m_bits of the base class (bp_vector.hpp:12, bit_vector.hpp:526) *)
Definition bp_words (bp : bp_vector) : list Z := bv_words (rs_bv (bp_rs bp)).
(** size() of the base class (bp_vector.hpp:12, bit_vector.hpp:239-241) *)
Definition bp_size (bp : bp_vector) : Z := bv_size (rs_bv (bp_rs bp)).

(** bp_vector.hpp:15-17; [n] is the uninitialised m_internal_nodes *)
Definition bp_default (n : Z) : bp_vector := mk_bp rs_empty n [] [].

(** ** The excess tables: one row, for byte [c], of each table. The program computes all 256
    rows at start-up. *)

(** bp_vector.cpp:24-39; [n] iterations from [i]; [Z.testbit c i] is [(c >> i) & 1].
    State: excess, m_fwd_pos[c], m_fwd_min[c], m_fwd_min_idx[c] *)
Fixpoint fwd_loop (n : nat) (i c excess : Z) (pos : list Z) (mn mi : Z) : res (Z * list Z * Z * Z) :=
  match n with
  | O => Ok (excess, pos, mn, mi)
  | S n =>
      do (excess, pos) <-
        (if Z.testbit c i then Ok (excess + 1, pos)
         else
           let excess := excess - 1 in
           if excess <? 0 then
             do p <- rd pos (- excess);
             if p =? 0 then do pos <- wr pos (- excess) (u8 (i + 1)); Ok (excess, pos)
             else Ok (excess, pos)
           else Ok (excess, pos));
      let '(mn, mi) := if mn <? - excess then (u8 (- excess), u8 (i + 1)) else (mn, mi) in
      fwd_loop n (i + 1) c excess pos mn mi
  end.

(** bp_vector.cpp:15-22 *)
Definition fwd_row (c : Z) : res (Z * list Z * Z * Z) := fwd_loop 8 0 c 0 (repeat 0 9) 0 0.

(** bp_vector.cpp:46-58; [Z.testbit c (7 - i)] is [(c << i) & 128].
    State: excess, m_bwd_pos[c], m_bwd_min[c] *)
Fixpoint bwd_loop (n : nat) (i c excess : Z) (pos : list Z) (mx : Z) : res (list Z * Z) :=
  match n with
  | O => Ok (pos, mx)
  | S n =>
      do (excess, pos) <-
        (if Z.testbit c (7 - i) then
           let excess := excess + 1 in
           if 0 <? excess then
             do p <- rd pos (u8 excess);
             if p =? 0 then do pos <- wr pos (u8 excess) (u8 (i + 1)); Ok (excess, pos)
             else Ok (excess, pos)
           else Ok (excess, pos)
         else Ok (excess - 1, pos));
      bwd_loop n (i + 1) c excess pos (u8 (Z.max excess mx))
  end.
(** bp_vector.cpp:42-58 *)
Definition bwd_row (c : Z) : res (list Z * Z) := bwd_loop 8 0 c 0 (repeat 0 9) 0.

(** Conversion to plain char, signed or unsigned as the implementation chooses (bp_vector.cpp:40) *)
Definition to_char (char_signed : bool) (x : Z) : Z := if char_signed then i8 x else u8 x.

(** bp_vector.cpp:40, 62-70: the table entries; a second index outside the row is out of bounds *)
Definition fwd_exc (char_signed : bool) (c : Z) : res Z :=
  do (e, _, _, _) <- fwd_row c; Ok (to_char char_signed e).
(** m_fwd_pos, bp_vector.cpp:64 *)
Definition fwd_pos (c k : Z) : res Z := do (_, pos, _, _) <- fwd_row c; rd pos k.
(** m_fwd_min, bp_vector.cpp:68 *)
Definition fwd_min (c : Z) : res Z := do (_, _, m, _) <- fwd_row c; Ok m.
(** m_fwd_min_idx, bp_vector.cpp:70 *)
Definition fwd_min_idx (c : Z) : res Z := do (_, _, _, mi) <- fwd_row c; Ok mi.
(** m_bwd_pos, bp_vector.cpp:65 *)
Definition bwd_pos (c k : Z) : res Z := do (pos, _) <- bwd_row c; rd pos k.
(** m_bwd_min, bp_vector.cpp:67 *)
Definition bwd_min (c : Z) : res Z := do (_, m) <- bwd_row c; Ok m.

(** ** Search in a word *)

(** bp_vector.cpp:80-84 and 103-107: lane [i] is [f] of byte [i] of [word] ([lane i] of the
    word read from the top for [rev]) *)
Fixpoint lanes_loop (f : Z -> res Z) (rev : bool) (word : Z) (n : nat) (shift acc : Z) : res Z :=
  match n with
  | O => Ok acc
  | S n =>
      do s <- shr word (if rev then 64 - shift - 8 else shift);
      do v <- f (Z.land s 0xFF);
      do v <- shl v shift;
      lanes_loop f rev word n (shift + 8) (Z.lor acc v)
  end.

(** bp_vector.cpp:75-96 *)
Definition find_close_in_word (word byte_counts cur_exc : Z) : res (option Z) :=
  assert! ((0 <? cur_exc) && (cur_exc <=? 64));
  let steps := u64 (Z.shiftl (u64 (2 * byte_counts - 8 * ones_step_8)) 8) in
  let cum_exc_step_8 := u64 (u64 (cur_exc + steps) * ones_step_8) in
  do min_exc_step_8 <- lanes_loop fwd_min false word 8 0 0;
  do r <- lsb_opt (leq_step_8 cum_exc_step_8 min_exc_step_8);
  match r with
  | Some shift =>
      do w <- shr word shift;
      do k <- shr cum_exc_step_8 shift;
      do bit_pos <- fwd_pos (Z.land w 0xFF) (Z.land k 0xFF);
      assert! (0 <? bit_pos);
      Ok (Some (shift + bit_pos - 1))
  | None => Ok None
  end.

(** bp_vector.cpp:98-119 *)
Definition find_open_in_word (word byte_counts cur_exc : Z) : res (option Z) :=
  assert! ((0 <? cur_exc) && (cur_exc <=? 64));
  let rev_byte_counts := reverse_bytes byte_counts in
  let steps := u64 (Z.shiftl (u64 (2 * rev_byte_counts - 8 * ones_step_8)) 8) in
  let cum_exc_step_8 := u64 (u64 (cur_exc - steps) * ones_step_8) in
  do max_exc_step_8 <- lanes_loop bwd_min true word 8 0 0;
  do r <- lsb_opt (leq_step_8 cum_exc_step_8 max_exc_step_8);
  match r with
  | Some shift =>
      do w <- shr word (64 - shift - 8);
      do k <- shr cum_exc_step_8 shift;
      do bit_pos <- bwd_pos (Z.land w 0xFF) (Z.land k 0xFF);
      assert! (0 <? bit_pos);
      Ok (Some (sub64 64 (shift + bit_pos)))
  | None => Ok None
  end.

(** bp_vector.cpp:128-138. State: exc, min_byte_exc, min_byte_idx *)
Fixpoint rmq_bytes_loop (cs : bool) (word : Z) (n : nat) (i exc mbe mbi : Z) : res (Z * Z * Z) :=
  match n with
  | O => Ok (exc, mbe, mbi)
  | S n =>
      do s <- shr word (i * 8);
      let byte := Z.land s 0xFF in
      do m <- fwd_min byte;
      do cur_min <- int32 (exc - m);
      let mbi := if cur_min <? mbe then i else mbi in
      let mbe := if cur_min <? mbe then cur_min else mbe in
      do e <- fwd_exc cs byte;
      do exc <- int32 (exc + e);
      rmq_bytes_loop cs word n (i + 1) exc mbe mbi
  end.

(** bp_vector.cpp:121-145: the new exc, min_exc, min_exc_idx *)
Definition excess_rmq_in_word (cs : bool) (word exc word_start min_exc min_exc_idx : Z) : res (Z * Z * Z) :=
  do (exc, mbe, mbi) <- rmq_bytes_loop cs word 8 0 exc min_exc 0;
  if mbe <? min_exc then
    let shift := mbi * 8 in
    do s <- shr word shift;
    do k <- fwd_min_idx (Z.land s 0xFF);
    Ok (exc, mbe, word_start + shift + k)
  else Ok (exc, min_exc, min_exc_idx).

(** ** Excess *)

(** bp_vector.cpp:299-305 *)
Definition get_block_excess (rs : rs_bit_vector) (block : Z) : res Z :=
  let sub_block_idx := block * bp_block_size in
  let block_pos := sub_block_idx * 64 in
  do r <- sub_block_rank (rs_pairs rs) sub_block_idx;
  let excess := i32 (2 * r - block_pos) in
  assert! (0 <=? excess);
  Ok excess.

(** bp_vector.cpp:359-363 *)
Definition excess (bp : bp_vector) (pos : Z) : res Z :=
  do r <- rs_rank (bp_rs bp) pos; Ok (i32 (2 * r - pos)).

(** ** Search in a block *)

(** bp_vector.cpp:153-165 *)
Fixpoint close_block_loop (n : nat) (words : list Z) (sub_block excess : Z) : res (option Z) :=
  match n with
  | O => Ok None
  | S n =>
      do word <- rd words sub_block;
      let byte_counts := byte_counts word in
      assert! (0 <? excess);
      do r <- (if excess <=? 64 then find_close_in_word word byte_counts excess else Ok None);
      match r with
      | Some ret => Ok (Some (ret + sub_block * 64))
      | None =>
          do excess <- int32 (excess + i32 (2 * bytes_sum byte_counts - 64));
          close_block_loop n words (sub_block + 1) excess
      end
  end.

(** bp_vector.cpp:148-167 *)
Definition find_close_in_block (words : list Z) (block_offset excess start : Z) : res (option Z) :=
  if i32 ((bp_block_size - start) * 64) <? excess then Ok None
  else
    assert! (0 <? excess);
    close_block_loop (Z.to_nat (bp_block_size - start)) words (block_offset + start) excess.

(** bp_vector.cpp:215-227: [n] iterations down from [block_offset + n - 1] *)
Fixpoint open_block_loop (n : nat) (words : list Z) (block_offset excess : Z) : res (option Z) :=
  match n with
  | O => Ok None
  | S n =>
      assert! (0 <? excess);
      let sub_block := block_offset + Z.of_nat n in
      do word <- rd words sub_block;
      let byte_counts := byte_counts word in
      do r <- (if excess <=? 64 then find_open_in_word word byte_counts excess else Ok None);
      match r with
      | Some ret => Ok (Some (ret + sub_block * 64))
      | None =>
          do excess <- int32 (excess - i32 (2 * bytes_sum byte_counts - 64));
          open_block_loop n words block_offset excess
      end
  end.

(** bp_vector.cpp:209-229 *)
Definition find_open_in_block (words : list Z) (block_offset excess start : Z) : res (option Z) :=
  if i32 (start * 64) <? excess then Ok None
  else
    assert! (0 <=? excess);
    open_block_loop (Z.to_nat start) words block_offset excess.

(** ** Search in the min tree *)

(** bp_vector.cpp:277-284 and 286-293: [n] blocks from [cur] upwards ([dir]) or downwards *)
Fixpoint block_search_loop (dir : bool) (n : nat) (mins : list Z) (cur excess superblock_excess : Z) : res (option Z) :=
  match n with
  | O => Ok None
  | S n =>
      do m <- rd mins cur;
      do v <- int32 (superblock_excess + m);
      if v <=? excess then Ok (Some cur)
      else block_search_loop dir n mins (if dir then cur + 1 else cur - 1) excess superblock_excess
  end.

(** bp_vector.cpp:271-297 *)
Definition search_block_in_superblock (dir : bool) (bp : bp_vector) (block excess : Z) : res (option Z) :=
  let superblock := block / superblock_size in
  do superblock_excess <- get_block_excess (bp_rs bp) (superblock * superblock_size);
  let mins := bp_block_excess_min bp in
  let n := if dir then Z.min ((superblock + 1) * superblock_size) (zlen mins) - block
           else block + 1 - superblock * superblock_size in
  block_search_loop dir (Z.to_nat n) mins block excess superblock_excess.

(** bp_vector.cpp:307-310 *)
Definition in_node_range (bp : bp_vector) (node excess : Z) : res bool :=
  do v <- rd (bp_superblock_excess_min bp) node;
  assert! (negb (v =? i32 (bp_size bp)));
  Ok (v <=? excess).

(** bp_vector.cpp:322-333 *)
Fixpoint tree_up_loop (fuel : nat) (dir : bool) (bp : bp_vector) (cur_node excess : Z) : res Z :=
  match fuel with
  | O => Ub OutOfFuel
  | S fuel =>
      assert! (negb (cur_node =? 0));
      let going_back := Bool.eqb (Z.odd cur_node) dir in
      if going_back then tree_up_loop fuel dir bp (cur_node / 2) excess
      else
        let next_node := if dir then cur_node + 1 else sub64 cur_node 1 in
        do r <- in_node_range bp next_node excess;
        if (r : bool) then Ok next_node else tree_up_loop fuel dir bp (cur_node / 2) excess
  end.

(** bp_vector.cpp:337-348 *)
Fixpoint tree_down_loop (fuel : nat) (dir : bool) (bp : bp_vector) (cur_node excess : Z) : res Z :=
  if bp_internal_nodes bp <=? cur_node then Ok cur_node
  else
    match fuel with
    | O => Ub OutOfFuel
    | S fuel =>
        let next_node := cur_node * 2 + (if dir then 0 else 1) in
        do r <- in_node_range bp next_node excess;
        if (r : bool) then tree_down_loop fuel dir bp next_node excess
        else
          let next_node := if dir then next_node + 1 else sub64 next_node 1 in
          do r <- in_node_range bp next_node excess;
          assert! (r : bool);
          tree_down_loop fuel dir bp next_node excess
    end.

(** bp_vector.cpp:312-356 *)
Definition search_min_tree (dir : bool) (bp : bp_vector) (block excess : Z) : res Z :=
  do f <- search_block_in_superblock dir bp block excess;
  match f with
  | Some found_block => Ok found_block
  | None =>
      let fuel := length (bp_superblock_excess_min bp) in
      let cur_superblock := block / superblock_size in
      do cur_node <- tree_up_loop fuel dir bp (bp_internal_nodes bp + cur_superblock) excess;
      assert! (negb (cur_node =? 0));
      do cur_node <- tree_down_loop fuel dir bp cur_node excess;
      let next_superblock := cur_node - bp_internal_nodes bp in
      do f <- search_block_in_superblock dir bp
                (next_superblock * superblock_size + (if dir then 0 else superblock_size - 1)) excess;
      match f with
      | Some found_block => Ok found_block
      | None => Ub AssertFailed
      end
  end.

(** ** find_close, find_open, enclose *)

(** bp_vector.cpp:169-207; [sp] is what [~0ULL << 64] does when [shift] is 0 *)
Definition find_close (sp : shift_policy) (bp : bp_vector) (pos : Z) : res Z :=
  do b <- bv_get (rs_bv (bp_rs bp)) pos;
  assert! (b : bool);
  let words := bp_words bp in
  let word_pos := (pos + 1) / 64 in
  let shift := (pos + 1) mod 64 in
  do w <- rd words word_pos;
  do shifted_word <- shr w shift;
  do ones <- shl_p sp (2 ^ 64 - 1) (64 - shift);
  let padded_word := Z.lor shifted_word (if shift =? 0 then 0 else ones) in
  let byte_counts := byte_counts padded_word in
  do r <- find_close_in_word padded_word byte_counts 1;
  match r with
  | Some ret => Ok (ret + (pos + 1))
  | None =>
      let block := word_pos / bp_block_size in
      let block_offset := block * bp_block_size in
      let sub_block := word_pos mod bp_block_size in
      let local_rank := sub64 (bytes_sum byte_counts) shift in
      let local_excess := i32 (2 * local_rank - (64 - shift)) in
      do e <- int32 (local_excess + 1);
      do r <- find_close_in_block words block_offset e (sub_block + 1);
      match r with
      | Some ret => Ok ret
      | None =>
          do pos_excess <- excess bp pos;
          do found_block <- search_min_tree true bp (block + 1) pos_excess;
          let found_block_offset := found_block * bp_block_size in
          do found_block_excess <- get_block_excess (bp_rs bp) found_block;
          do e <- int32 (found_block_excess - pos_excess);
          do r <- find_close_in_block words found_block_offset e 0;
          match r with
          | Some ret => Ok ret
          | None => Ub AssertFailed
          end
      end
  end.

(** bp_vector.cpp:231-269; [sp] is what the shift by 64 does when [len] is 0. [ret += pos - 64]
    wraps, the sum does not. *)
Definition find_open (sp : shift_policy) (bp : bp_vector) (pos : Z) : res Z :=
  assert! (negb (pos =? 0));
  let words := bp_words bp in
  let word_pos := pos / 64 in
  let len := pos mod 64 in
  do w <- rd words word_pos;
  do shifted <- shl_p sp w (64 - len);
  let shifted_word := if len =? 0 then 0 else shifted in
  let byte_counts := byte_counts shifted_word in
  do r <- find_open_in_word shifted_word byte_counts 1;
  match r with
  | Some ret => Ok (u64 (ret + (pos - 64)))
  | None =>
      let block := word_pos / bp_block_size in
      let block_offset := block * bp_block_size in
      let sub_block := word_pos mod bp_block_size in
      let local_rank := bytes_sum byte_counts in
      do local_excess <- int32 (- i32 (2 * local_rank - len));
      do e <- int32 (local_excess + 1);
      do r <- find_open_in_block words block_offset e sub_block;
      match r with
      | Some ret => Ok ret
      | None =>
          do x <- excess bp pos;
          do pos_excess <- int32 (x - 1);
          do found_block <- search_min_tree false bp (sub64 block 1) pos_excess;
          let found_block_offset := found_block * bp_block_size in
          do found_block_excess <- get_block_excess (bp_rs bp) (found_block + 1);
          do e <- int32 (found_block_excess - pos_excess);
          do r <- find_open_in_block words found_block_offset e bp_block_size;
          match r with
          | Some ret => Ok ret
          | None => Ub AssertFailed
          end
      end
  end.

(** bp_vector.hpp:47-50 *)
Definition enclose (sp : shift_policy) (bp : bp_vector) (pos : Z) : res Z :=
  do b <- bv_get (rs_bv (bp_rs bp)) pos;
  assert! (b : bool);
  find_open sp bp pos.

(** ** excess_rmq *)

(** bp_vector.cpp:375-378: [n] words from [w] *)
Fixpoint rmq_words_loop (cs : bool) (n : nat) (words : list Z) (w exc min_exc min_exc_idx : Z) : res (Z * Z * Z) :=
  match n with
  | O => Ok (exc, min_exc, min_exc_idx)
  | S n =>
      do word <- rd words w;
      do (exc, min_exc, min_exc_idx) <- excess_rmq_in_word cs word exc (w * 64) min_exc min_exc_idx;
      rmq_words_loop cs n words (w + 1) exc min_exc min_exc_idx
  end.

(** bp_vector.cpp:365-379 *)
Definition excess_rmq_in_block (cs : bool) (words : list Z) (start end_ exc min_exc min_exc_idx : Z) : res (Z * Z * Z) :=
  assert! (start <=? end_);
  if start =? end_ then Ok (exc, min_exc, min_exc_idx)
  else
    assert! (start / bp_block_size =? (end_ - 1) / bp_block_size);
    rmq_words_loop cs (Z.to_nat (end_ - start)) words start exc min_exc min_exc_idx.

(** bp_vector.cpp:394-399: [n] blocks from [block] *)
Fixpoint rmq_blocks_loop (n : nat) (mins : list Z) (block superblock_excess min_exc min_idx : Z) : res (Z * Z) :=
  match n with
  | O => Ok (min_exc, min_idx)
  | S n =>
      do m <- rd mins block;
      do v <- int32 (superblock_excess + m);
      if v <? min_exc then rmq_blocks_loop n mins (block + 1) superblock_excess v block
      else rmq_blocks_loop n mins (block + 1) superblock_excess min_exc min_idx
  end.

(** bp_vector.cpp:381-400 *)
Definition excess_rmq_in_superblock (bp : bp_vector) (block_start block_end min_exc min_idx : Z) : res (Z * Z) :=
  assert! (block_start <=? block_end);
  if block_start =? block_end then Ok (min_exc, min_idx)
  else
    let superblock := block_start / superblock_size in
    assert! (superblock =? (block_end - 1) / superblock_size);
    do superblock_excess <- get_block_excess (bp_rs bp) (superblock * superblock_size);
    rmq_blocks_loop (Z.to_nat (block_end - block_start)) (bp_block_excess_min bp) block_start
      superblock_excess min_exc min_idx.

(** bp_vector.cpp:428-450. State: cur_node, h, rightmost_span, node_min_exc, node_min_idx *)
Fixpoint span_up_loop (fuel : nat) (tree : list Z) (sb_end cur h span nme nmi : Z) : res (Z * Z * Z * Z * Z) :=
  match fuel with
  | O => Ub OutOfFuel
  | S fuel =>
      assert! (negb (cur =? 0));
      if Z.odd cur then span_up_loop fuel tree sb_end (cur / 2) (h + 1) span nme nmi
      else
        let right_sibling := cur + 1 in
        do s <- shl 1 h;
        let span := span + s in
        do (nme, nmi) <-
          (if span <? sb_end then
             do v <- rd tree right_sibling;
             Ok (if v <? nme then (v, right_sibling) else (nme, nmi))
           else Ok (nme, nmi));
        if sb_end - 1 <=? span then Ok (cur + 1, h, span, nme, nmi)
        else span_up_loop fuel tree sb_end (cur / 2) (h + 1) span nme nmi
  end.

(** bp_vector.cpp:455-475 *)
Fixpoint span_down_loop (fuel : nat) (tree : list Z) (sb_end cur h span nme nmi : Z) : res (Z * Z * Z * Z) :=
  if span <=? sb_end - 1 then Ok (cur, span, nme, nmi)
  else
    match fuel with
    | O => Ub OutOfFuel
    | S fuel =>
        assert! (cur <? zlen tree);
        assert! (0 <? h);
        let h := h - 1 in
        let left_child := cur * 2 in
        do right_child_span <- shl 1 h;
        if sb_end - 1 <=? sub64 span right_child_span then
          span_down_loop fuel tree sb_end left_child h (span - right_child_span) nme nmi
        else
          do v <- rd tree left_child;
          let '(nme, nmi) := if v <? nme then (v, left_child) else (nme, nmi) in
          span_down_loop fuel tree sb_end (left_child + 1) h span nme nmi
    end.

(** bp_vector.cpp:490-497 *)
Fixpoint min_leaf_loop (fuel : nat) (tree : list Z) (internal cur : Z) : res Z :=
  if internal <=? cur then Ok cur
  else
    match fuel with
    | O => Ub OutOfFuel
    | S fuel =>
        let cur := cur * 2 in
        do r <- rd tree (cur + 1);
        do l <- rd tree cur;
        min_leaf_loop fuel tree internal (if r <? l then cur + 1 else cur)
    end.

(** bp_vector.cpp:403-506: the new superblock_min_exc and superblock_min_idx *)
Definition find_min_superblock (bp : bp_vector) (sb_start sb_end min_exc min_idx : Z) : res (Z * Z) :=
  if sb_start =? sb_end then Ok (min_exc, min_idx)
  else
    let tree := bp_superblock_excess_min bp in
    let internal := bp_internal_nodes bp in
    let cur_node := internal + sb_start in
    do node_min_exc <- rd tree cur_node;
    let node_min_idx := cur_node in
    if sub64 sb_end sb_start =? 1 then Ok (node_min_exc, sb_start)
    else
      let fuel := length tree in
      do (cur, h, span, nme, nmi) <- span_up_loop fuel tree sb_end cur_node 0 sb_start node_min_exc node_min_idx;
      assert! (negb (cur =? 0));
      do (cur, span, nme, nmi) <- span_down_loop fuel tree sb_end cur h span nme nmi;
      do (nme, nmi) <-
        (if span <? sb_end then
           do v <- rd tree cur;
           Ok (if v <? nme then (v, cur) else (nme, nmi))
         else Ok (nme, nmi));
      assert! (span =? sb_end - 1);
      if nme <? min_exc then
        do cur <- min_leaf_loop fuel tree internal nmi;
        do v <- rd tree cur;
        assert! (v =? nme);
        let superblock_min_idx := cur - internal in
        assert! (sb_start <=? superblock_min_idx);
        assert! (superblock_min_idx <? sb_end);
        Ok (nme, superblock_min_idx)
      else Ok (min_exc, min_idx).

(** [-1U] converted to uint64_t, bp_vector.cpp:172, 234, 315, 560, 578 *)
Definition minus1U : Z := 2 ^ 32 - 1.

(** bp_vector.cpp:558-602: min_exc and min_exc_idx after the whole blocks between block_a and block_b *)
Definition excess_rmq_blocks (cs : bool) (bp : bp_vector) (block_a block_b min_exc min_exc_idx : Z) : res (Z * Z) :=
  let superblock_a := (block_a + 1) / superblock_size in
  let superblock_b := block_b / superblock_size in
  do (block_min_exc, block_min_idx) <-
    (if superblock_a =? superblock_b then
       excess_rmq_in_superblock bp (block_a + 1) block_b min_exc minus1U
     else
       do (bme, bmi) <- excess_rmq_in_superblock bp (block_a + 1) ((superblock_a + 1) * superblock_size) min_exc minus1U;
       do (sme, smi) <- find_min_superblock bp (superblock_a + 1) superblock_b min_exc minus1U;
       do (bme, bmi) <-
         (if sme <? min_exc then
            excess_rmq_in_superblock bp (smi * superblock_size) ((smi + 1) * superblock_size) bme bmi
          else Ok (bme, bmi));
       excess_rmq_in_superblock bp (superblock_b * superblock_size) block_b bme bmi);
  if block_min_exc <? min_exc then
    do cur_exc <- get_block_excess (bp_rs bp) block_min_idx;
    do (_, min_exc, min_exc_idx) <-
      excess_rmq_in_block cs (bp_words bp) (block_min_idx * bp_block_size) ((block_min_idx + 1) * bp_block_size)
        cur_exc min_exc min_exc_idx;
    assert! (min_exc =? block_min_exc);
    Ok (min_exc, min_exc_idx)
  else Ok (min_exc, min_exc_idx).

(** bp_vector.cpp:508-625: the returned position and min_exc *)
Definition excess_rmq (cs : bool) (bp : bp_vector) (a b : Z) : res (Z * Z) :=
  assert! (a <=? b);
  do cur_exc <- excess bp a;
  let min_exc := cur_exc in
  let min_exc_idx := a in
  if a =? b then Ok (min_exc_idx, min_exc)
  else
    let words := bp_words bp in
    let range_len := b - a in
    let word_a_idx := a / 64 in
    let word_b_idx := (b - 1) / 64 in
    let shift_a := a mod 64 in
    do wa <- rd words word_a_idx;
    do shifted_word_a <- shr wa shift_a;
    let subword_len_a := Z.min (64 - shift_a) range_len in
    do padded_word_a <- (if subword_len_a =? 64 then Ok shifted_word_a
                         else do ones <- shl (2 ^ 64 - 1) subword_len_a; Ok (Z.lor shifted_word_a ones));
    do (cur_exc, min_exc, min_exc_idx) <- excess_rmq_in_word cs padded_word_a cur_exc a min_exc min_exc_idx;
    if word_a_idx =? word_b_idx then Ok (min_exc_idx, min_exc)
    else
      let block_a := word_a_idx / bp_block_size in
      let block_b := word_b_idx / bp_block_size in
      do cur_exc <- int32 (cur_exc - (64 - i32 subword_len_a));
      do (cur_exc, min_exc, min_exc_idx) <-
        (if block_a =? block_b then
           excess_rmq_in_block cs words (word_a_idx + 1) word_b_idx cur_exc min_exc min_exc_idx
         else
           do (_, min_exc, min_exc_idx) <-
             excess_rmq_in_block cs words (word_a_idx + 1) ((block_a + 1) * bp_block_size) cur_exc min_exc min_exc_idx;
           do (min_exc, min_exc_idx) <- excess_rmq_blocks cs bp block_a block_b min_exc min_exc_idx;
           do cur_exc <- get_block_excess (bp_rs bp) block_b;
           excess_rmq_in_block cs words (block_b * bp_block_size) word_b_idx cur_exc min_exc min_exc_idx);
      do word_b <- rd words word_b_idx;
      let offset_b := b mod 64 in
      do padded_word_b <- (if offset_b =? 0 then Ok word_b
                           else do ones <- shl (2 ^ 64 - 1) offset_b; Ok (Z.lor word_b ones));
      do (_, min_exc, min_exc_idx) <- excess_rmq_in_word cs padded_word_b cur_exc (word_b_idx * 64) min_exc min_exc_idx;
      assert! (a <=? min_exc_idx);
      do x <- excess bp min_exc_idx;
      assert! (min_exc =? x);
      Ok (min_exc_idx, min_exc).

(** ** build_min_tree *)

(** bp_vector.cpp:654-658: [n] bits from [i]; [Z.testbit word i] is [word & mask]. State:
    cur_block_min, cur_superblock_excess *)
Fixpoint min_bits_loop (n : nat) (word i block_min sb_excess : Z) : Z * Z :=
  match n with
  | O => (block_min, sb_excess)
  | S n =>
      let sb_excess := sb_excess + (if Z.testbit word i then 1 else -1) in
      min_bits_loop n word (i + 1) (Z.min block_min sb_excess) sb_excess
  end.

(** bp_vector.cpp:640-642 and 661-663 *)
Definition push_block_min (mins : list Z) (m : Z) : res (list Z) :=
  assert! ((- 2 ^ 15 <=? m) && (m <=? 2 ^ 15 - 1));
  Ok (mins ++ [i16 m]).

(** bp_vector.cpp:634-659 on the words from [sub_block]; [last] is the number of bits of the last
    word. State: block_excess_min, cur_block_min, cur_superblock_excess *)
Fixpoint block_mins_loop (ws : list Z) (last sub_block : Z) (mins : list Z) (block_min sb_excess : Z)
  : res (list Z * Z) :=
  match ws with
  | [] => Ok (mins, block_min)
  | word :: ws =>
      do (mins, block_min, sb_excess) <-
        (if sub_block mod bp_block_size =? 0 then
           let sb_excess := if sub_block mod (bp_block_size * superblock_size) =? 0 then 0 else sb_excess in
           if negb (sub_block =? 0) then
             do mins <- push_block_min mins block_min; Ok (mins, sb_excess, sb_excess)
           else Ok (mins, block_min, sb_excess)
         else Ok (mins, block_min, sb_excess));
      let n_bits := match ws with [] => last | _ => 64 end in
      let '(block_min, sb_excess) := min_bits_loop (Z.to_nat n_bits) word 0 block_min sb_excess in
      block_mins_loop ws last (sub_block + 1) mins block_min sb_excess
  end.

(** bp_vector.cpp:670-671 *)
Fixpoint complete_leaves (fuel : nat) (n n_superblocks : Z) : res Z :=
  if n_superblocks <=? n then Ok n
  else match fuel with
       | O => Ub OutOfFuel
       | S fuel => complete_leaves fuel (u64 (2 * n)) n_superblocks
       end.

(** bp_vector.cpp:683-687: [n] blocks from [block] *)
Fixpoint super_min_loop (n : nat) (mins : list Z) (block superblock_excess cur : Z) : res Z :=
  match n with
  | O => Ok cur
  | S n =>
      do m <- rd mins block;
      do v <- int32 (superblock_excess + m);
      super_min_loop n mins (block + 1) superblock_excess (Z.min cur v)
  end.

(** bp_vector.cpp:679-691: the leaves of the superblocks from [superblock], in order *)
Fixpoint leaves_loop (n : nat) (rs : rs_bit_vector) (mins : list Z) (size superblock : Z) : res (list Z) :=
  match n with
  | O => Ok []
  | S n =>
      do superblock_excess <- get_block_excess rs (superblock * superblock_size);
      let first := superblock * superblock_size in
      let count := Z.min ((superblock + 1) * superblock_size) (zlen mins) - first in
      do m <- super_min_loop (Z.to_nat count) mins first superblock_excess (i32 size);
      assert! ((0 <=? m) && (m <? i32 size));
      do rest <- leaves_loop n rs mins size (superblock + 1);
      Ok (m :: rest)
  end.

(** bp_vector.cpp:700-704: [n] iterations down from node [n + 1] *)
Fixpoint parents_loop (n : nat) (tree : list Z) : res (list Z) :=
  match n with
  | O => Ok tree
  | S n' =>
      let node := Z.of_nat n + 1 in
      let parent := node / 2 in
      do p <- rd tree parent;
      do v <- rd tree node;
      do tree <- wr tree parent (Z.min p v);
      parents_loop n' tree
  end.

(** bp_vector.cpp:628-708. The array is assembled from the internal nodes (693-697) and the
    leaves (678-691), which the source writes in the other order. [uninit] is the
    uninitialised m_internal_nodes of an empty vector. *)
Definition build_min_tree (uninit : Z) (rs : rs_bit_vector) : res bp_vector :=
  let size := bv_size (rs_bv rs) in
  if size =? 0 then Ok (mk_bp rs uninit [] [])
  else
    let words := bv_words (rs_bv rs) in
    let last := if negb (size mod 64 =? 0) then size mod 64 else 64 in
    do (mins, block_min) <- block_mins_loop words last 0 [] 0 0;
    do mins <- push_block_min mins block_min;
    let n_blocks := ceil_div (zlen words) bp_block_size in
    assert! (n_blocks =? zlen mins);
    let n_superblocks := (n_blocks + superblock_size - 1) / superblock_size in
    do internal <- complete_leaves 64 1 n_superblocks;
    do leaves <- leaves_loop (Z.to_nat n_superblocks) rs mins size 0;
    let tree := repeat (i32 size) (Z.to_nat internal) ++ leaves in
    do tree <- parents_loop (Z.to_nat (zlen tree - 2)) tree;
    Ok (mk_bp rs internal mins tree).

(** bp_vector.hpp:19-26 *)
Definition bp_build (uninit : Z) (bv : bit_vector) (with_select_hints with_select0_hints : bool) : res bp_vector :=
  do rs <- rs_build bv with_select_hints with_select0_hints;
  build_min_tree uninit rs.
