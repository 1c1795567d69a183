(** Model of gamma_vector.hpp and gamma_bit_vector.hpp. *)
From Verif Require Import Base M_Broadword M_BitVector M_Darray.

(** gamma_vector.hpp:77-78 and gamma_bit_vector.hpp:86-87 *)
Record gamma := mk_gamma { g_high : darray64; g_low : bit_vector }.

(** gamma_vector.hpp:15, gamma_bit_vector.hpp:20 with darray64.hpp:36-38 *)
Definition gamma_default : gamma := mk_gamma (mk_d64 0 bv_empty [] []) bv_empty.

(** gamma_vector.hpp:48-51, gamma_bit_vector.hpp:54-57 *)
Definition gamma_size (g : gamma) : Z := sub64 (d64_num_ones (g_high g)) 1.

(** ** gamma_vector *)

(** gamma_vector.hpp:26-35 *)
Fixpoint gv_loop (gr : growth) (ints : list Z) (high : d64_builder) (low : builder)
  : res (d64_builder * builder) :=
  match ints with
  | [] => Ok (high, low)
  | x :: ints =>
      let val := u64 (x + 1) in
      do r <- msb val;
      let l := u8 r in
      do m <- shl 1 l;
      do low <- append_bits gr low (Z.lxor val m) l;
      do high <- append1 gr high l;
      gv_loop gr ints high low
  end.

(** gamma_vector.hpp:18-39 *)
Definition gv_build (gr : growth) (ints : list Z) : res gamma :=
  do low <- new_builder 0 false;
  do high <- append1 gr d64_new 0;
  do (high, low) <- gv_loop gr ints high low;
  do h <- d64_build high;
  do l <- bv_of_builder low;
  Ok (mk_gamma h l).

(** gamma_vector.hpp:69-74; the value and [l] *)
Definition gv_retrieve (g : gamma) (idx pos : Z) : res (Z * Z) :=
  do b <- bv_get (d64_bits (g_high g)) pos;
  assert! b;
  do w <- get_word (d64_bits (g_high g)) (pos + 1);
  do l <- lsb w;
  do m <- shl 1 l;
  do v <- get_bits strict_shift (g_low g) (sub64 pos idx) l;
  Ok (sub64 (Z.lor m v) 1, l).

(** gamma_vector.hpp:41-46 *)
Definition gv_get (g : gamma) (idx : Z) : res Z :=
  do pos <- d64_select (g_high g) idx;
  do (v, _) <- gv_retrieve g idx pos;
  Ok v.

(** gamma_vector.hpp:112-117, gamma_bit_vector.hpp:127-132; [m_c] is the extra argument. The
    two enumerators are [None] while default-constructed. *)
Record gamma_enum := mk_ge {
  ge_idx : Z;
  ge_pos : Z;
  ge_high : option unary_enum;
  ge_low : option enumerator
}.

(** gamma_vector.hpp:86-97 *)
Definition gv_enum_new (g : gamma) (idx : Z) : res gamma_enum :=
  if idx <? gamma_size g then
    do pos <- d64_select (g_high g) idx;
    do u <- unary_new (bv_words (d64_bits (g_high g))) (pos + 1);
    Ok (mk_ge idx pos (Some u) (Some (enum_new (sub64 pos idx))))
  else Ok (mk_ge idx 0 None None).

(** unary_enumerator::next on a default-constructed enumerator reads through its null
    m_data (bit_vector.hpp:431-435, 456-471) *)
Definition ge_unary_next (g : gamma) (u : option unary_enum) : res (Z * unary_enum) :=
  match u with
  | Some u => unary_next (bv_words (d64_bits (g_high g))) u
  | None => unary_next [] (mk_unary 0 0)
  end.

(** enumerator::take; the default-constructed one (bit_vector.hpp:353-356) has a null vector *)
Definition ge_low_take (g : gamma) (e : option enumerator) (l : Z) : res (Z * enumerator) :=
  match e with
  | Some e => enum_take (g_low g) e l
  | None => Ub OutOfBounds
  end.

(** gamma_vector.hpp:99-109 *)
Definition gv_enum_next (g : gamma) (e : gamma_enum) : res (Z * gamma_enum) :=
  assert! (ge_idx e <=? gamma_size g);
  do (next_pos, u) <- ge_unary_next g (ge_high e);
  let l := u64 (next_pos - ge_pos e - 1) in
  do (chunk, low) <- ge_low_take g (ge_low e) l;
  do m <- shl 1 l;
  Ok (sub64 (Z.lor chunk m) 1, mk_ge (ge_idx e + 1) next_pos (Some u) (Some low)).

(** ** gamma_bit_vector *)

(** gamma_bit_vector.hpp:31-41 *)
Fixpoint gb_loop (gr : growth) (vals : list Z) (high : d64_builder) (low : builder)
  : res (d64_builder * builder) :=
  match vals with
  | [] => Ok (high, low)
  | x :: vals =>
      let val := u64 (x + 2) in
      do r <- msb val;
      let l := u8 r in
      assert! (0 <? l);
      do high <- append1 gr high (l - 1);
      do m <- shl 1 l;
      do low <- append_bits gr low (Z.lxor val m) l;
      gb_loop gr vals high low
  end.

(** gamma_bit_vector.hpp:23-45 *)
Definition gb_build (gr : growth) (vals : list Z) : res gamma :=
  do low <- new_builder 0 false;
  do high <- append1 gr d64_new 0;
  do (high, low) <- gb_loop gr vals high low;
  do h <- d64_build high;
  do l <- bv_of_builder low;
  Ok (mk_gamma h l).

(** gamma_bit_vector.hpp:75-82 *)
Definition gb_retrieve (g : gamma) (pos : Z) : res (Z * Z) :=
  do b <- bv_get (d64_bits (g_high g)) pos;
  assert! b;
  do w <- get_word (d64_bits (g_high g)) (pos + 1);
  do l <- lsb w;
  do chunk <- get_bits strict_shift (g_low g) pos (l + 1);
  do m <- shl 1 (l + 1);
  Ok (sub64 (Z.lor m chunk) 2, l).

(** gamma_bit_vector.hpp:47-52 *)
Definition gb_get (g : gamma) (idx : Z) : res Z :=
  do pos <- d64_select (g_high g) idx;
  do (v, _) <- gb_retrieve g pos;
  Ok v.

(** gamma_bit_vector.hpp:95-106 *)
Definition gb_enum_new (g : gamma) (idx : Z) : res gamma_enum :=
  if idx <? gamma_size g then
    do pos <- d64_select (g_high g) idx;
    do u <- unary_new (bv_words (d64_bits (g_high g))) (pos + 1);
    Ok (mk_ge idx pos (Some u) (Some (enum_new pos)))
  else Ok (mk_ge idx 0 None None).

(** gamma_bit_vector.hpp:114-124 *)
Definition gb_enum_next (g : gamma) (e : gamma_enum) : res (Z * gamma_enum) :=
  assert! (ge_idx e <=? gamma_size g);
  do (next_pos, u) <- ge_unary_next g (ge_high e);
  let l := u64 (next_pos - ge_pos e - 1) in
  do (chunk, low) <- ge_low_take g (ge_low e) (l + 1);
  do m <- shl 1 (l + 1);
  Ok (sub64 (Z.lor chunk m) 2, mk_ge (ge_idx e + 1) next_pos (Some u) (Some low)).

(** gamma_bit_vector.hpp:108-112 *)
Fixpoint gb_enum_skip (g : gamma) (e : gamma_enum) (k : nat) : res gamma_enum :=
  match k with
  | O => Ok e
  | S k => do (_, e) <- gb_enum_next g e; gb_enum_skip g e k
  end.
