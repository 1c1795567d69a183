(** Model of broadword.hpp and of the intrinsics of intrinsics.hpp it uses. *)
From Verif Require Import Base M_Tables.

(** broadword.hpp:9-15 *)
Definition ones_step_4 : Z := 0x1111111111111111.
(** broadword.hpp:10 *)
Definition ones_step_8 : Z := 0x0101010101010101.
(** broadword.hpp:11 *)
Definition ones_step_9 : Z :=
  Z.lor (2 ^ 0) (Z.lor (2 ^ 9) (Z.lor (2 ^ 18) (Z.lor (2 ^ 27)
    (Z.lor (2 ^ 36) (Z.lor (2 ^ 45) (2 ^ 54)))))).
(** broadword.hpp:12 *)
Definition msbs_step_8 : Z := u64 (0x80 * ones_step_8).
(** broadword.hpp:13 *)
Definition msbs_step_9 : Z := u64 (0x100 * ones_step_9).
(** broadword.hpp:15 *)
Definition inv_count_step_9 : Z :=
  Z.lor (Z.shiftl 1 54) (Z.lor (Z.shiftl 2 45) (Z.lor (Z.shiftl 3 36)
    (Z.lor (Z.shiftl 4 27) (Z.lor (Z.shiftl 5 18) (Z.lor (Z.shiftl 6 9) 7))))).

(** broadword.hpp:17-22 (magic_mask_6 is unused) *)
Definition magic_mask_1 : Z := 0x5555555555555555.
(** broadword.hpp:18 *)
Definition magic_mask_2 : Z := 0x3333333333333333.
(** broadword.hpp:19 *)
Definition magic_mask_3 : Z := 0x0F0F0F0F0F0F0F0F.
(** broadword.hpp:20 *)
Definition magic_mask_4 : Z := 0x00FF00FF00FF00FF.
(** broadword.hpp:21 *)
Definition magic_mask_5 : Z := 0x0000FFFF0000FFFF.

(** broadword.hpp:24-27 *)
Definition leq_step_8 (x y : Z) : Z :=
  Z.shiftr (Z.land (Z.lxor (u64 (Z.lor y msbs_step_8 - Z.land x (not64 msbs_step_8)))
                           (Z.lxor x y)) msbs_step_8) 7.

(** broadword.hpp:29-32 *)
Definition uleq_step_8 (x y : Z) : Z :=
  Z.shiftr (Z.land (Z.lxor (Z.lxor (u64 (Z.lor y msbs_step_8 - Z.land x (not64 msbs_step_8)))
                                   (Z.lxor x y))
                           (Z.land x (not64 y))) msbs_step_8) 7.

(** broadword.hpp:34-37 *)
Definition zcompare_step_8 (x : Z) : Z :=
  Z.shiftr (Z.land (Z.lor x (u64 (Z.lor x msbs_step_8 - ones_step_8))) msbs_step_8) 7.

(** broadword.hpp:39-42 *)
Definition uleq_step_9 (x y : Z) : Z :=
  Z.shiftr (Z.land (Z.lxor (Z.lor (u64 (Z.lor y msbs_step_9 - Z.land x (not64 msbs_step_9)))
                                  (Z.lxor x y))
                           (Z.land x (not64 y))) msbs_step_9) 8.

(** broadword.hpp:44-50 *)
Definition byte_counts (x0 : Z) : Z :=
  let x1 := u64 (x0 - Z.shiftr (Z.land x0 (0xa * ones_step_4)) 1) in
  let x2 := u64 (Z.land x1 (3 * ones_step_4) + Z.land (Z.shiftr x1 2) (3 * ones_step_4)) in
  Z.land (u64 (x2 + Z.shiftr x2 4)) (0x0f * ones_step_8).

(** broadword.hpp:52-55 *)
Definition bytes_sum (x : Z) : Z := Z.shiftr (u64 (x * ones_step_8)) 56.

(** intrinsics.hpp:94-97 [_mm_popcnt_u64]: the number of one bits (hardware contract). *)
Definition popcount_intrinsic (x : Z) : Z :=
  fold_right Z.add 0 (map (fun i => Z.b2z (Z.testbit x (Z.of_nat i))) (seq 0 64)).

(** broadword.hpp:57-64, the [#else] branch; the [#if] branch is [popcount_intrinsic]. *)
Definition popcount (x : Z) : Z := bytes_sum (byte_counts x).

(** intrinsics.hpp:33-42 [__builtin_bswap64] (compiler contract): byte i of the result
    is byte 7-i of the argument. *)
Definition reverse_bytes_intrinsic (x : Z) : Z :=
  fold_right Z.add 0
    (map (fun i => Z.land (Z.shiftr x (8 * Z.of_nat i)) 0xFF * 2 ^ (8 * (7 - Z.of_nat i)))
         (seq 0 8)).

(** broadword.hpp:66-76, the [#else] branch *)
Definition reverse_bytes (x0 : Z) : Z :=
  let x1 := Z.lor (Z.land (Z.shiftr x0 8) magic_mask_4)
                  (u64 (Z.shiftl (Z.land x0 magic_mask_4) 8)) in
  let x2 := Z.lor (Z.land (Z.shiftr x1 16) magic_mask_5)
                  (u64 (Z.shiftl (Z.land x1 magic_mask_5) 16)) in
  Z.lor (Z.shiftr x2 32) (u64 (Z.shiftl x2 32)).

(** broadword.hpp:78-84 *)
Definition reverse_bits (x0 : Z) : Z :=
  let x1 := Z.lor (Z.land (Z.shiftr x0 1) magic_mask_1)
                  (u64 (Z.shiftl (Z.land x0 magic_mask_1) 1)) in
  let x2 := Z.lor (Z.land (Z.shiftr x1 2) magic_mask_2)
                  (u64 (Z.shiftl (Z.land x1 magic_mask_2) 2)) in
  let x3 := Z.lor (Z.land (Z.shiftr x2 4) magic_mask_3)
                  (u64 (Z.shiftl (Z.land x2 magic_mask_3) 4)) in
  reverse_bytes x3.

(** broadword.hpp:86-101. [popcnt] selects the [#if SUCCINCT_USE_POPCNT] branch (line 95)
    or the portable one (line 97). *)
Definition select_in_word_gen (popcnt : bool) (x k : Z) : res Z :=
  assert! (k <? popcount x);
  let byte_sums := u64 (byte_counts x * ones_step_8) in
  let k_step_8 := u64 (k * ones_step_8) in
  let geq_k_step_8 := Z.land (u64 (Z.lor k_step_8 msbs_step_8 - byte_sums)) msbs_step_8 in
  let place :=
    if popcnt then u64 (popcount_intrinsic geq_k_step_8 * 8)
    else Z.land (Z.shiftr (u64 (Z.shiftr geq_k_step_8 7 * ones_step_8)) 53) (not64 7) in
  do s <- shr (u64 (Z.shiftl byte_sums 8)) place;
  let byte_rank := u64 (k - Z.land s 0xFF) in
  do b <- shr x place;
  do t <- rd select_in_byte (Z.lor (Z.land b 0xFF) (u64 (Z.shiftl byte_rank 8)));
  Ok (u64 (place + t)).

(** broadword.hpp:86-101, the portable branch (line 97) *)
Definition select_in_word (x k : Z) : res Z := select_in_word_gen false x k.

(** broadword.hpp:103-106 *)
Definition same_msb (x y : Z) : bool := Z.lxor x y <=? Z.land x y.

(** broadword.hpp:108-121 *)
Definition debruijn64_mapping : list Z :=
  [ 63;  0; 58;  1; 59; 47; 53;  2;
    60; 39; 48; 27; 54; 33; 42;  3;
    61; 51; 37; 40; 49; 18; 28; 20;
    55; 30; 34; 11; 43; 14; 22;  4;
    62; 57; 46; 52; 38; 26; 32; 41;
    50; 36; 17; 19; 29; 10; 13; 21;
    56; 45; 25; 31; 35; 16;  9; 12;
    44; 24; 15;  8; 23;  7;  6;  5 ].
(** broadword.hpp:120 *)
Definition debruijn64 : Z := 0x07EDD5E59A4E28C2.

(** broadword.hpp:123-129. The table has 64 entries and the index is a 6-bit number, so
    the read is always in bounds; the assert (one bit set) is kept. *)
Definition bit_position (x : Z) : res Z :=
  assert! (popcount x =? 1);
  rd debruijn64_mapping (Z.shiftr (u64 (x * debruijn64)) 58).

(** broadword.hpp:131-154, [#else] branch; [None] is the result [false] (ret untouched). *)
Definition msb_opt (x0 : Z) : res (option Z) :=
  if x0 =? 0 then Ok None
  else
    let x1 := Z.lor x0 (Z.shiftr x0 1) in
    let x2 := Z.lor x1 (Z.shiftr x1 2) in
    let x3 := Z.lor x2 (Z.shiftr x2 4) in
    let x4 := Z.lor x3 (Z.shiftr x3 8) in
    let x5 := Z.lor x4 (Z.shiftr x4 16) in
    let x6 := Z.lor x5 (Z.shiftr x5 32) in
    let x7 := Z.lxor x6 (Z.shiftr x6 1) in
    do r <- bit_position x7;
    Ok (Some r).

(** broadword.hpp:156-162 *)
Definition msb (x : Z) : res Z :=
  assert! (negb (x =? 0));
  do o <- msb_opt x;
  match o with Some r => Ok (u8 r) | None => Ok (u8 (2 ^ 32 - 1)) end.

(** broadword.hpp:164-175, [#else] branch *)
Definition lsb_opt (x : Z) : res (option Z) :=
  if x =? 0 then Ok None
  else
    do r <- bit_position (Z.land x (u64 (- x)));
    Ok (Some r).

(** broadword.hpp:177-183 *)
Definition lsb (x : Z) : res Z :=
  assert! (negb (x =? 0));
  do o <- lsb_opt x;
  match o with Some r => Ok (u8 r) | None => Ok (u8 (2 ^ 32 - 1)) end.

(** intrinsics.hpp:44-58: [__builtin_ctzll] (compiler contract): the number of zero bits
    below the lowest one bit. *)
Definition bsf64 (x : Z) : option Z :=
  match find (fun i => Z.testbit x (Z.of_nat i)) (seq 0 64) with
  | Some i => Some (Z.of_nat i)
  | None => None
  end.

(** intrinsics.hpp:60-74: [63 - __builtin_clzll] (compiler contract). *)
Definition bsr64 (x : Z) : option Z :=
  match find (fun i => Z.testbit x (Z.of_nat i)) (rev (seq 0 64)) with
  | Some i => Some (Z.of_nat i)
  | None => None
  end.
