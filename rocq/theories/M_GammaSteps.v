(** The next() of the enumerators of gamma_vector and gamma_bit_vector with its work counted: the rounds of the loop over the
    words of the high bits and the calls of get_word on the low bits. *)
From Verif Require Import Base M_BitVector M_Darray M_Gamma M_BvSteps.

(** bit_vector.hpp:377-390. As M_BitVector.enum_take. *)
Definition enum_take_c (bv : bit_vector) (e : enumerator) (l : Z) : res (Z * enumerator * Z) :=
  do (e, r) <- (if e_avail e <? l then do e <- fill_buf bv e; Ok (e, 1) else Ok (e, 0));
  do (val, buf) <-
    (if l =? 64 then Ok (e_buf e, e_buf e)
     else
       do m <- shl 1 l;
       do s <- shr (e_buf e) l;
       Ok (Z.land (e_buf e) (u64 (m - 1)), s));
  Ok (val, mk_enum (e_pos e + l) buf (u64 (e_avail e - l)), r).

(** As M_Gamma.ge_unary_next (bit_vector.hpp:431-435, 456-471) *)
Definition ge_unary_next_c (g : gamma) (u : option unary_enum) : res (Z * unary_enum * Z) :=
  match u with
  | Some u => unary_next_c (bv_words (d64_bits (g_high g))) u
  | None => unary_next_c [] (mk_unary 0 0)
  end.

(** As M_Gamma.ge_low_take (bit_vector.hpp:353-356, 377-390) *)
Definition ge_low_take_c (g : gamma) (e : option enumerator) (l : Z) : res (Z * enumerator * Z) :=
  match e with
  | Some e => enum_take_c (g_low g) e l
  | None => Ub OutOfBounds
  end.

(** gamma_vector.hpp:99-109 *)
Definition gv_next_c (g : gamma) (e : gamma_enum) : res (Z * gamma_enum * Z * Z) :=
  assert! (ge_idx e <=? gamma_size g);
  do (next_pos, u, c) <- ge_unary_next_c g (ge_high e);
  let l := u64 (next_pos - ge_pos e - 1) in
  do (chunk, low, r) <- ge_low_take_c g (ge_low e) l;
  do m <- shl 1 l;
  Ok (sub64 (Z.lor chunk m) 1, mk_ge (ge_idx e + 1) next_pos (Some u) (Some low), c, r).

(** gamma_bit_vector.hpp:114-124 *)
Definition gb_next_c (g : gamma) (e : gamma_enum) : res (Z * gamma_enum * Z * Z) :=
  assert! (ge_idx e <=? gamma_size g);
  do (next_pos, u, c) <- ge_unary_next_c g (ge_high e);
  let l := u64 (next_pos - ge_pos e - 1) in
  do (chunk, low, r) <- ge_low_take_c g (ge_low e) (l + 1);
  do m <- shl 1 (l + 1);
  Ok (sub64 (Z.lor chunk m) 2, mk_ge (ge_idx e + 1) next_pos (Some u) (Some low), c, r).

(** [k] calls of next (gamma_vector.hpp:99-109): the values, and the rounds and reads of all calls together *)
Fixpoint gv_run_c (g : gamma) (e : gamma_enum) (k : nat) : res (list Z * Z * Z) :=
  match k with
  | O => Ok ([], 0, 0)
  | S k =>
      do (v, e, c, r) <- gv_next_c g e;
      do (vs, c', r') <- gv_run_c g e k;
      Ok (v :: vs, c + c', r + r')
  end.

(** the same for gamma_bit_vector (gamma_bit_vector.hpp:114-124) *)
Fixpoint gb_run_c (g : gamma) (e : gamma_enum) (k : nat) : res (list Z * Z * Z) :=
  match k with
  | O => Ok ([], 0, 0)
  | S k =>
      do (v, e, c, r) <- gb_next_c g e;
      do (vs, c', r') <- gb_run_c g e k;
      Ok (v :: vs, c + c', r + r')
  end.
