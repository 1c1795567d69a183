(** Model of bit_vector_builder with sizes of 64 bits that wrap, where M_BitVector has exact integers.
    Memory does not run out; the only exception is std::length_error of [insert], for more words than
    std::vector::max_size(). Calls that throw return [true] as their second result. *)
From Verif Require Import Base M_Broadword M_BitVector S_BitVector.

(** util.hpp:265-271 and bit_vector.hpp:14-17 *)
Definition w_ceil_div (a b : Z) : Z := u64 (u64 (a + b) - 1) / b.
(** bit_vector.hpp:14-17 *)
Definition w_words_for (n : Z) : Z := w_ceil_div n 64.

(** std::vector<uint64_t>::max_size() of libstdc++ (bit_vector.hpp:184) *)
Definition w_max_words : Z := 2 ^ 60 - 1.

(** bit_vector.hpp:27-38; [back()] of an empty vector is undefined *)
Definition w_new (size : Z) (init : bool) : res builder :=
  let n := w_words_for size in
  let fill := if init then 2 ^ 64 - 1 else 0 in
  let ws := repeat fill (Z.to_nat n) in
  if size =? 0 then Ok (mk_builder ws size n 0 None)
  else if n =? 0 then Ub OutOfBounds
  else
    let b := set_cur_back (mk_builder ws size n 0 None) in
    if init && negb (size mod 64 =? 0) then
      do w <- rd ws (n - 1);
      do w' <- shr w (64 - size mod 64);
      do ws' <- wr ws (n - 1) w';
      Ok (with_bits b ws')
    else Ok b.

(** bit_vector.hpp:40-42 *)
Definition w_reserve (gr : growth) (b : builder) (size : Z) : builder :=
  v_need gr b (w_words_for size).

(** bit_vector.hpp:44-52 *)
Definition w_push_back (gr : growth) (b : builder) (x : bool) : res builder :=
  let pos_in_word := b_size b mod 64 in
  let b := if pos_in_word =? 0 then set_cur_back (v_push gr b 0) else b in
  do x' <- shl (Z.b2z x) pos_in_word;
  do b <- cur_or b x';
  Ok (with_size b (u64 (b_size b + 1))).

(** bit_vector.hpp:82-98 *)
Definition w_append_bits (gr : growth) (b : builder) (bits len : Z) : res builder :=
  do ok <- no_spurious bits len;
  assert! ok;
  if len =? 0 then Ok b
  else
    let pos_in_word := b_size b mod 64 in
    let b := with_size b (u64 (b_size b + len)) in
    if pos_in_word =? 0 then Ok (set_cur_back (v_push gr b bits))
    else
      do x <- shl bits pos_in_word;
      do b <- cur_or b x;
      if 64 - pos_in_word <? len then
        do y <- shr bits (64 - pos_in_word);
        Ok (set_cur_back (v_push gr b y))
      else Ok (set_cur_back b).

(** bit_vector.hpp:100-107 *)
Definition w_zero_extend (gr : growth) (b : builder) (n : Z) : res (builder * bool) :=
  let b := with_size b (u64 (b_size b + n)) in
  let needed := sub64 (w_words_for (b_size b)) (zlen (b_bits b)) in
  if needed =? 0 then Ok (b, false)
  else if w_max_words - zlen (b_bits b) <? needed then Ok (b, true)
  else Ok (set_cur_back (v_grow gr b (zlen (b_bits b) + needed)), false).

(** bit_vector.hpp:109-118; [fuel] bounds the number of full words *)
Fixpoint w_one_extend_loop (gr : growth) (fuel : nat) (b : builder) (n : Z) : res (builder * Z) :=
  if 64 <=? n then
    match fuel with
    | O => Ub OutOfFuel
    | S fuel =>
        do b <- w_append_bits gr b (2 ^ 64 - 1) 64;
        w_one_extend_loop gr fuel b (n - 64)
    end
  else Ok (b, n).
(** bit_vector.hpp:109-118 *)
Definition w_one_extend (gr : growth) (b : builder) (n : Z) : res builder :=
  do (b, n) <- w_one_extend_loop gr (Z.to_nat (n / 64)) b n;
  if n =? 0 then Ok b
  else
    do x <- shr (2 ^ 64 - 1) (64 - n);
    w_append_bits gr b x n.

(** bit_vector.hpp:120-145; [rhs] is another builder *)
Definition w_append (gr : growth) (b rhs : builder) : res builder :=
  if b_size rhs =? 0 then Ok b
  else
    let pos := zlen (b_bits b) in
    let shift := b_size b mod 64 in
    let b := with_size b (u64 (b_size b + b_size rhs)) in
    let n := w_words_for (b_size b) in
    let b := if n <? pos then with_bits b (firstn (Z.to_nat n) (b_bits b)) else v_grow gr b n in
    if shift =? 0 then
      if pos + zlen (b_bits rhs) <=? zlen (b_bits b) then
        Ok (set_cur_back (with_bits b
              (firstn (Z.to_nat pos) (b_bits b) ++ b_bits rhs ++
               skipn (Z.to_nat (pos + zlen (b_bits rhs))) (b_bits b))))
      else Ub OutOfBounds
    else
      do last_w <- rd (b_bits rhs) (zlen (b_bits rhs) - 1);
      do (ws, cur) <- append_loop (b_bits b) (pos - 1) shift (removelast (b_bits rhs));
      do x <- shl last_w shift;
      do ws <- mod_word ws cur (fun c => Z.lor c x);
      if cur <? zlen ws - 1 then
        do y <- shr last_w (64 - shift);
        do ws <- wr ws (cur + 1) y;
        Ok (set_cur_back (with_bits b ws))
      else Ok (set_cur_back (with_bits b ws)).

(** one call on a family of builders; [set], [set_bits], [reverse] and [swap] (lines 54-80 and
    147-181) compute no size *)
Definition wstep (gr : growth) (s : nat -> builder) (o : op) : res ((nat -> builder) * bool) :=
  match o with
  | New i size init => do b <- w_new size init; Ok (put s i b, false)
  | Reserve i n => Ok (put s i (w_reserve gr (s i) n), false)
  | PushBack i x => do b <- w_push_back gr (s i) x; Ok (put s i b, false)
  | AppendBits i bits len => do b <- w_append_bits gr (s i) bits len; Ok (put s i b, false)
  | ZeroExtend i n => do (b, threw) <- w_zero_extend gr (s i) n; Ok (put s i b, threw)
  | OneExtend i n => do b <- w_one_extend gr (s i) n; Ok (put s i b, false)
  | Append i j => do b <- w_append gr (s i) (s j); Ok (put s i b, false)
  | SetBit _ _ _ | SetBits _ _ _ _ | Reverse _ | Swap _ _ => do s <- step gr s o; Ok (s, false)
  end.
(** the calls in order, and which of them threw (callers of bit_vector.hpp:27-145) *)
Fixpoint wrun (gr : growth) (s : nat -> builder) (os : list op) : res ((nat -> builder) * list bool) :=
  match os with
  | [] => Ok (s, [])
  | o :: os => do (s, t) <- wstep gr s o; do (s, ts) <- wrun gr s os; Ok (s, t :: ts)
  end.

(** bit_vector.hpp:222-225 with 167-170 *)
Definition w_bv_of_builder (b : builder) : res bit_vector :=
  assert! (w_words_for (b_size b) =? zlen (b_bits b));
  Ok (mk_bv (b_size b) (b_bits b)).
