(** The constructors from ranges of integers of any type: the template argument Range decides in which type
    the elements are added and shifted. *)
From Verif Require Import Base M_Broadword M_BitVector M_Darray M_EliasFano M_Gamma M_Util.

(** An integer type of 8, 16, 32 or 64 bits; int has 32 and long 64 bits. (gamma_vector.hpp:17-18, gamma_bit_vector.hpp:22-23,
    elias_fano_list.hpp:13, elias_fano_compressed_list.hpp:13, nibble_vector.hpp:17) *)
Record ity := mk_ity { it_bits : Z; it_signed : bool }.
(** the type after integral promotion (gamma_vector.hpp:29) *)
Definition promoted (t : ity) : ity := if it_bits t <? 32 then mk_ity 32 true else t.
(** [*iter + k] for an int constant [k] and its conversion to uint64_t (gamma_vector.hpp:29, gamma_bit_vector.hpp:34,
    elias_fano_compressed_list.hpp:23 and 34) *)
Definition plus_const (t : ity) (x k : Z) : res Z :=
  let p := promoted t in
  if it_signed p then
    if (- 2 ^ (it_bits p - 1) <=? x + k) && (x + k <? 2 ^ (it_bits p - 1)) then Ok (u64 (x + k)) else Ub SignedOverflow
  else Ok ((x + k) mod 2 ^ it_bits p).

(** gamma_vector.hpp:26-35 *)
Fixpoint gv_loop_t (gr : growth) (t : ity) (ints : list Z) (high : d64_builder) (low : builder)
  : res (d64_builder * builder) :=
  match ints with
  | [] => Ok (high, low)
  | x :: ints =>
      do val <- plus_const t x 1;
      do r <- msb val;
      let l := u8 r in
      do m <- shl 1 l;
      do low <- append_bits gr low (Z.lxor val m) l;
      do high <- append1 gr high l;
      gv_loop_t gr t ints high low
  end.
(** gamma_vector.hpp:18-39 *)
Definition gv_build_t (gr : growth) (t : ity) (ints : list Z) : res gamma :=
  do low <- new_builder 0 false;
  do high <- append1 gr d64_new 0;
  do (high, low) <- gv_loop_t gr t ints high low;
  do h <- d64_build high;
  do l <- bv_of_builder low;
  Ok (mk_gamma h l).

(** gamma_bit_vector.hpp:31-41 *)
Fixpoint gb_loop_t (gr : growth) (t : ity) (vals : list Z) (high : d64_builder) (low : builder)
  : res (d64_builder * builder) :=
  match vals with
  | [] => Ok (high, low)
  | x :: vals =>
      do val <- plus_const t x 2;
      do r <- msb val;
      let l := u8 r in
      assert! (0 <? l);
      do high <- append1 gr high (l - 1);
      do m <- shl 1 l;
      do low <- append_bits gr low (Z.lxor val m) l;
      gb_loop_t gr t vals high low
  end.
(** gamma_bit_vector.hpp:23-45 *)
Definition gb_build_t (gr : growth) (t : ity) (vals : list Z) : res gamma :=
  do low <- new_builder 0 false;
  do high <- append1 gr d64_new 0;
  do (high, low) <- gb_loop_t gr t vals high low;
  do h <- d64_build high;
  do l <- bv_of_builder low;
  Ok (mk_gamma h l).

(** elias_fano_list.hpp:28-34; the element is converted to size_t before it is added *)
Fixpoint efl_loop_t (gr : growth) (ints : list Z) (cur_base : Z) (b : ef_builder) : res ef_builder :=
  match ints with
  | [] => Ok b
  | x :: ints =>
      let cur_base := u64 (cur_base + u64 x) in
      do b <- ef_push gr b cur_base;
      efl_loop_t gr ints cur_base b
  end.
(** elias_fano_list.hpp:13-36 *)
Definition efl_build_t (gr : growth) (ints : list Z) : res elias_fano :=
  let s := fold_left (fun s x => u64 (s + u64 x)) ints 0 in
  let n := zlen ints in
  do b <- ef_builder_new gr (u64 (s + 1)) n;
  do b <- efl_loop_t gr ints 0 b;
  ef_build b false.

(** elias_fano_compressed_list.hpp:18-25 *)
Fixpoint code_sum_t (t : ity) (ints : list Z) (s : Z) : res Z :=
  match ints with
  | [] => Ok s
  | x :: ints => do val <- plus_const t x 1; do r <- msb val; code_sum_t t ints (u64 (s + r))
  end.
(** elias_fano_compressed_list.hpp:31-38 *)
Fixpoint efc_loop_t (gr : growth) (t : ity) (ints : list Z) (b : ef_builder) (bits : builder)
  : res (ef_builder * builder) :=
  match ints with
  | [] => Ok (b, bits)
  | x :: ints =>
      do val <- plus_const t x 1;
      do l <- msb val;
      do m <- shl 1 l;
      do bits <- append_bits gr bits (Z.lxor val m) l;
      do b <- ef_push gr b (b_size bits);
      efc_loop_t gr t ints b bits
  end.
(** elias_fano_compressed_list.hpp:13-41 *)
Definition efc_build_t (gr : growth) (t : ity) (ints : list Z) : res ef_compressed :=
  do s <- code_sum_t t ints 0;
  do b <- ef_builder_new gr (u64 (s + 1)) (zlen ints + 1);
  do bits <- new_builder 0 false;
  do b <- ef_push gr b (b_size bits);
  do (b, bits) <- efc_loop_t gr t ints b bits;
  do ef <- ef_build b false;
  do bv <- bv_of_builder bits;
  Ok (mk_efc ef bv).

(** nibble_vector.hpp:24-38. An element of an unsigned type, and a char or short, is not negative after promotion or is shifted
    as an int; to shift a negative int is undefined before C++20. The value shifted is below 16, so the shift does not overflow. *)
Fixpoint nv_loop_t (from : list Z) (nibbles : list Z) (parity : bool) (cur_byte size : Z) : res nibble_vector :=
  match from with
  | [] => Ok (mk_nv size (if parity then nibbles ++ [cur_byte] else nibbles))
  | x :: from =>
      assert! (x <? 16);
      do shifted <- (if x <? 0 then Ub BadShift else Ok (Z.shiftl x (Z.b2z parity * 4)));
      let cur_byte := u8 (Z.lor cur_byte shifted) in
      let parity := negb parity in
      if negb parity then nv_loop_t from (nibbles ++ [cur_byte]) parity 0 (size + 1)
      else nv_loop_t from nibbles parity cur_byte (size + 1)
  end.
(** nibble_vector.hpp:17-40 *)
Definition nv_build_t (from : list Z) : res nibble_vector := nv_loop_t from [] false 0 0.
