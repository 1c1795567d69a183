(** Model of the two configuration macros of succinct_config.hpp (written by the build, CMakeLists.txt) and of what depends on
    them: the branches of broadword.hpp and the prefetch of bit_vector::enumerator. *)
From Verif Require Import Base M_Tables M_Broadword M_BitVector M_Darray M_Gamma.

(** SUCCINCT_USE_INTRINSICS and SUCCINCT_USE_POPCNT, intrinsics.hpp:6 and 19 *)
Record config := mk_config { cf_intrinsics : bool; cf_popcnt : bool }.

(** intrinsics.hpp:19-22: the configurations without the [#error] *)
Definition cf_compiles (c : config) : bool := negb (cf_popcnt c) || cf_intrinsics c.

(** broadword.hpp:57-64 *)
Definition c_popcount (c : config) (x : Z) : Z := if cf_popcnt c then popcount_intrinsic x else bytes_sum (byte_counts x).

(** broadword.hpp:66-76; the [#else] branch is [reverse_bytes] *)
Definition c_reverse_bytes (c : config) (x : Z) : Z := if cf_intrinsics c then reverse_bytes_intrinsic x else reverse_bytes x.

(** broadword.hpp:78-84 *)
Definition c_reverse_bits (c : config) (x0 : Z) : Z :=
  let x1 := Z.lor (Z.land (Z.shiftr x0 1) magic_mask_1) (u64 (Z.shiftl (Z.land x0 magic_mask_1) 1)) in
  let x2 := Z.lor (Z.land (Z.shiftr x1 2) magic_mask_2) (u64 (Z.shiftl (Z.land x1 magic_mask_2) 2)) in
  let x3 := Z.lor (Z.land (Z.shiftr x2 4) magic_mask_3) (u64 (Z.shiftl (Z.land x2 magic_mask_3) 4)) in
  c_reverse_bytes c x3.

(** an assertion (e.g. broadword.hpp:88), which is there unless NDEBUG is defined ([dbg] is then false) *)
Definition c_assert {A : Type} (dbg b : bool) (k : res A) : res A := if dbg then (assert! b; k) else k.

(** broadword.hpp:86-101 *)
Definition c_select_in_word (dbg : bool) (c : config) (x k : Z) : res Z :=
  c_assert dbg (k <? c_popcount c x)
  (let byte_sums := u64 (byte_counts x * ones_step_8) in
   let k_step_8 := u64 (k * ones_step_8) in
   let geq_k_step_8 := Z.land (u64 (Z.lor k_step_8 msbs_step_8 - byte_sums)) msbs_step_8 in
   let place :=
     if cf_popcnt c then u64 (popcount_intrinsic geq_k_step_8 * 8)
     else Z.land (Z.shiftr (u64 (Z.shiftr geq_k_step_8 7 * ones_step_8)) 53) (not64 7) in
   do s <- shr (u64 (Z.shiftl byte_sums 8)) place;
   let byte_rank := u64 (k - Z.land s 0xFF) in
   do b <- shr x place;
   do t <- rd select_in_byte (Z.lor (Z.land b 0xFF) (u64 (Z.shiftl byte_rank 8)));
   Ok (u64 (place + t))).

(** broadword.hpp:123-129 *)
Definition c_bit_position (dbg : bool) (c : config) (x : Z) : res Z :=
  c_assert dbg (c_popcount c x =? 1) (rd debruijn64_mapping (Z.shiftr (u64 (x * debruijn64)) 58)).

(** broadword.hpp:131-154; [None] is the result [false] (ret untouched) *)
Definition c_msb_opt (dbg : bool) (c : config) (x0 : Z) : res (option Z) :=
  if cf_intrinsics c then Ok (bsr64 x0)
  else if x0 =? 0 then Ok None
  else
    let x1 := Z.lor x0 (Z.shiftr x0 1) in
    let x2 := Z.lor x1 (Z.shiftr x1 2) in
    let x3 := Z.lor x2 (Z.shiftr x2 4) in
    let x4 := Z.lor x3 (Z.shiftr x3 8) in
    let x5 := Z.lor x4 (Z.shiftr x4 16) in
    let x6 := Z.lor x5 (Z.shiftr x5 32) in
    let x7 := Z.lxor x6 (Z.shiftr x6 1) in
    do r <- c_bit_position dbg c x7;
    Ok (Some r).

(** broadword.hpp:156-162 *)
Definition c_msb (dbg : bool) (c : config) (x : Z) : res Z :=
  c_assert dbg (negb (x =? 0))
  (do o <- c_msb_opt dbg c x;
   match o with Some r => Ok (u8 r) | None => Ok (u8 (2 ^ 32 - 1)) end).

(** broadword.hpp:164-175 *)
Definition c_lsb_opt (dbg : bool) (c : config) (x : Z) : res (option Z) :=
  if cf_intrinsics c then Ok (bsf64 x)
  else if x =? 0 then Ok None
  else
    do r <- c_bit_position dbg c (Z.land x (u64 (- x)));
    Ok (Some r).

(** broadword.hpp:177-183 *)
Definition c_lsb (dbg : bool) (c : config) (x : Z) : res Z :=
  c_assert dbg (negb (x =? 0))
  (do o <- c_lsb_opt dbg c x;
   match o with Some r => Ok (u8 r) | None => Ok (u8 (2 ^ 32 - 1)) end).

(** mappable_vector.hpp:110-112 and intrinsics.hpp:76-88. In both configurations the pointer [m_data + i] is formed, which is
    defined up to one behind the last element; the instruction itself (a hint, intrinsics.hpp:79) changes nothing and may be
    given any address. *)
Definition c_prefetch (ws : list Z) (i : Z) : res unit := if i <=? zlen ws then Ok tt else Ub OutOfBounds.

(** bit_vector.hpp:358-365, with the prefetch of line 364 *)
Definition c_enum_new (bv : bit_vector) (pos : Z) : res enumerator :=
  do _ <- c_prefetch (bv_words bv) (pos / 64);
  Ok (enum_new pos).

(** gamma_vector.hpp:86-97, with the prefetch *)
Definition c_gv_enum_new (g : gamma) (idx : Z) : res gamma_enum :=
  if idx <? gamma_size g then
    do pos <- d64_select (g_high g) idx;
    do u <- unary_new (bv_words (d64_bits (g_high g))) (pos + 1);
    do low <- c_enum_new (g_low g) (sub64 pos idx);
    Ok (mk_ge idx pos (Some u) (Some low))
  else Ok (mk_ge idx 0 None None).

(** gamma_bit_vector.hpp:95-106, with the prefetch *)
Definition c_gb_enum_new (g : gamma) (idx : Z) : res gamma_enum :=
  if idx <? gamma_size g then
    do pos <- d64_select (g_high g) idx;
    do u <- unary_new (bv_words (d64_bits (g_high g))) (pos + 1);
    do low <- c_enum_new (g_low g) pos;
    Ok (mk_ge idx pos (Some u) (Some low))
  else Ok (mk_ge idx 0 None None).
