(** Model of bit_vector.hpp:27-181 when memory runs out: [std::vector] throws [bad_alloc] (or
    [length_error]) when a reallocation would need more than [lim] words. Every member used here
    ([push_back], [resize], [reserve], [insert] at the end) then has no effect on the vector.
    Results are paired with [true] when the call left with an exception. *)
From Verif Require Import Base M_Broadword M_BitVector S_BitVector.

(** the vector of [b] must hold [n] words, and the reallocation this takes fails. The allocations behind bit_vector.hpp:30, 41, 47, 90, 94, 104 and 127. *)
Definition x_fails (lim : Z) (gr : growth) (b : builder) (n : Z) : bool :=
  (b_cap b <? n) && (lim <? Z.max n (gr (b_cap b) n)).

(** [m_bits.push_back(w)], then [m_cur_word = &m_bits.back()] if it returned; lines 47-48,
    89-96 of bit_vector.hpp *)
Definition x_push (lim : Z) (gr : growth) (b : builder) (w : Z) : builder * bool :=
  if x_fails lim gr b (zlen (b_bits b) + 1) then (b, true)
  else (set_cur_back (v_push gr b w), false).

(** bit_vector.hpp:27-38. A constructor that throws makes no builder. *)
Definition x_new (lim size : Z) (init : bool) : res (option builder) :=
  if lim <? words_for size then Ok None
  else do b <- new_builder size init; Ok (Some b).

(** bit_vector.hpp:40-42 *)
Definition x_reserve (lim : Z) (gr : growth) (b : builder) (size : Z) : builder * bool :=
  if x_fails lim gr b (words_for size) then (b, true) else (reserve gr b size, false).

(** bit_vector.hpp:44-52 *)
Definition x_push_back (lim : Z) (gr : growth) (b : builder) (x : bool) : res (builder * bool) :=
  let pos_in_word := b_size b mod 64 in
  let (b, threw) := if pos_in_word =? 0 then x_push lim gr b 0 else (b, false) in
  if threw then Ok (b, true)
  else
    do x' <- shl (Z.b2z x) pos_in_word;
    do b <- cur_or b x';
    Ok (with_size b (b_size b + 1), false).

(** bit_vector.hpp:82-98; [m_size] is raised (line 88) before the vector grows *)
Definition x_append_bits (lim : Z) (gr : growth) (b : builder) (bits len : Z)
  : res (builder * bool) :=
  do ok <- no_spurious bits len;
  assert! ok;
  if len =? 0 then Ok (b, false)
  else
    let pos_in_word := b_size b mod 64 in
    let b := with_size b (b_size b + len) in
    if pos_in_word =? 0 then Ok (x_push lim gr b bits)
    else
      do x <- shl bits pos_in_word;
      do b <- cur_or b x;
      if 64 - pos_in_word <? len then
        do y <- shr bits (64 - pos_in_word);
        Ok (x_push lim gr b y)
      else Ok (set_cur_back b, false).

(** bit_vector.hpp:100-107 *)
Definition x_zero_extend (lim : Z) (gr : growth) (b : builder) (n : Z) : res (builder * bool) :=
  let b := with_size b (b_size b + n) in
  let needed := u64 (words_for (b_size b) - zlen (b_bits b)) in
  if needed =? 0 then Ok (b, false)
  else if x_fails lim gr b (zlen (b_bits b) + needed) then Ok (b, true)
  else Ok (set_cur_back (v_grow gr b (zlen (b_bits b) + needed)), false).

(** bit_vector.hpp:109-118; [fuel] bounds the number of full words *)
Fixpoint x_one_extend_loop (lim : Z) (gr : growth) (fuel : nat) (b : builder) (n : Z)
  : res (builder * Z * bool) :=
  if 64 <=? n then
    match fuel with
    | O => Ub OutOfFuel
    | S fuel =>
        do (b, threw) <- x_append_bits lim gr b (2 ^ 64 - 1) 64;
        if threw then Ok (b, n, true)
        else x_one_extend_loop lim gr fuel b (n - 64)
    end
  else Ok (b, n, false).
(** bit_vector.hpp:109-118 *)
Definition x_one_extend (lim : Z) (gr : growth) (b : builder) (n : Z) : res (builder * bool) :=
  do (b, n, threw) <- x_one_extend_loop lim gr (Z.to_nat (n / 64)) b n;
  if threw then Ok (b, true)
  else if n =? 0 then Ok (b, false)
  else
    do x <- shr (2 ^ 64 - 1) (64 - n);
    x_append_bits lim gr b x n.

(** bit_vector.hpp:120-145; only the [resize] of line 127 can throw, and it comes after the new
    [m_size] of line 126 and before the first word is written *)
Definition x_append (lim : Z) (gr : growth) (b rhs : builder) : res (builder * bool) :=
  if b_size rhs =? 0 then Ok (b, false)
  else
    let raised := with_size b (b_size b + b_size rhs) in
    if x_fails lim gr raised (words_for (b_size raised)) then Ok (raised, true)
    else do b <- append gr b rhs; Ok (b, false).

(** one call on a family of builders; [set], [set_bits], [reverse] and [swap] (lines 54-80 and
    147-181) allocate nothing. A constructor that throws leaves the name bound as before. *)
Definition bxstep (lim : Z) (gr : growth) (s : nat -> builder) (o : op)
  : res ((nat -> builder) * bool) :=
  match o with
  | New i size init =>
      do r <- x_new lim size init;
      match r with Some b => Ok (put s i b, false) | None => Ok (s, true) end
  | Reserve i n => let (b, threw) := x_reserve lim gr (s i) n in Ok (put s i b, threw)
  | PushBack i x => do (b, threw) <- x_push_back lim gr (s i) x; Ok (put s i b, threw)
  | AppendBits i bits len =>
      do (b, threw) <- x_append_bits lim gr (s i) bits len; Ok (put s i b, threw)
  | ZeroExtend i n => do (b, threw) <- x_zero_extend lim gr (s i) n; Ok (put s i b, threw)
  | OneExtend i n => do (b, threw) <- x_one_extend lim gr (s i) n; Ok (put s i b, threw)
  | Append i j => do (b, threw) <- x_append lim gr (s i) (s j); Ok (put s i b, threw)
  | SetBit _ _ _ | SetBits _ _ _ _ | Reverse _ | Swap _ _ =>
      do s <- step gr s o; Ok (s, false)
  end.

(** a history in which every call meets its own limit; the exceptions are caught. Callers of bit_vector.hpp:27-181. *)
Fixpoint bxrun (gr : growth) (s : nat -> builder) (los : list (Z * op))
  : res ((nat -> builder) * list bool) :=
  match los with
  | [] => Ok (s, [])
  | (lim, o) :: los =>
      do (s, threw) <- bxstep lim gr s o;
      do (s, ts) <- bxrun gr s los;
      Ok (s, threw :: ts)
  end.
