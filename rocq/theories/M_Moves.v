(** Model of bit_vector_builder with the number of words its reallocations move. The functions are those of M_BitVector with a
    counter, and the growth policy of the vector may depend on its size. *)
From Verif Require Import Base M_BitVector S_BitVector S_Moves.

(** a builder and the words moved so far, by the reallocations of m_bits (bit_vector.hpp:184) *)
Definition mbuilder : Type := (builder * Z)%type.

(** a reallocation moves all the words there are. The std::vector calls at bit_vector.hpp:41, 47, 90, 94, 104, 127. *)
Definition m_need (gr : policy) (s : mbuilder) (n : Z) : mbuilder :=
  let '(b, m) := s in
  if n <=? b_cap b then s else (v_need (gr (zlen (b_bits b))) b n, m + zlen (b_bits b)).

(** [m_bits.push_back(w)]; bit_vector.hpp:47, 90, 94 *)
Definition m_push (gr : policy) (s : mbuilder) (w : Z) : mbuilder :=
  let '(b, m) := m_need gr s (zlen (b_bits (fst s)) + 1) in (with_bits b (b_bits b ++ [w]), m).
(** [m_bits.resize(n)] and [insert(end, n - size, 0)] for n >= size; bit_vector.hpp:104, 127 *)
Definition m_grow (gr : policy) (s : mbuilder) (n : Z) : mbuilder :=
  let '(b, m) := m_need gr s n in (with_bits b (b_bits b ++ repeat 0 (Z.to_nat (n - zlen (b_bits b)))), m).

(** bit_vector.hpp:40-42 *)
Definition m_reserve (gr : policy) (s : mbuilder) (size : Z) : mbuilder := m_need gr s (words_for size).

(** bit_vector.hpp:44-52 *)
Definition m_push_back (gr : policy) (s : mbuilder) (x : bool) : res mbuilder :=
  let pos_in_word := b_size (fst s) mod 64 in
  let '(b, m) := if pos_in_word =? 0 then let '(b, m) := m_push gr s 0 in (set_cur_back b, m) else s in
  do x' <- shl (Z.b2z x) pos_in_word;
  do b <- cur_or b x';
  Ok (with_size b (b_size b + 1), m).

(** bit_vector.hpp:82-98 *)
Definition m_append_bits (gr : policy) (s : mbuilder) (bits len : Z) : res mbuilder :=
  let '(b, m) := s in
  do ok <- no_spurious bits len;
  assert! ok;
  if len =? 0 then Ok (b, m)
  else
    let pos_in_word := b_size b mod 64 in
    let b := with_size b (b_size b + len) in
    if pos_in_word =? 0 then let '(b, m) := m_push gr (b, m) bits in Ok (set_cur_back b, m)
    else
      do x <- shl bits pos_in_word;
      do b <- cur_or b x;
      if 64 - pos_in_word <? len then
        do y <- shr bits (64 - pos_in_word);
        let '(b, m) := m_push gr (b, m) y in Ok (set_cur_back b, m)
      else Ok (set_cur_back b, m).

(** bit_vector.hpp:100-107 *)
Definition m_zero_extend (gr : policy) (s : mbuilder) (n : Z) : res mbuilder :=
  let '(b, m) := s in
  let b := with_size b (b_size b + n) in
  let needed := u64 (words_for (b_size b) - zlen (b_bits b)) in
  if needed =? 0 then Ok (b, m)
  else let '(b, m) := m_grow gr (b, m) (zlen (b_bits b) + needed) in Ok (set_cur_back b, m).

(** bit_vector.hpp:109-118; [fuel] bounds the number of full words *)
Fixpoint m_one_extend_loop (gr : policy) (fuel : nat) (s : mbuilder) (n : Z) : res (mbuilder * Z) :=
  if 64 <=? n then
    match fuel with
    | O => Ub OutOfFuel
    | S fuel =>
        do s <- m_append_bits gr s (2 ^ 64 - 1) 64;
        m_one_extend_loop gr fuel s (n - 64)
    end
  else Ok (s, n).
(** bit_vector.hpp:109-118 *)
Definition m_one_extend (gr : policy) (s : mbuilder) (n : Z) : res mbuilder :=
  do (s, n) <- m_one_extend_loop gr (Z.to_nat (n / 64)) s n;
  if n =? 0 then Ok s
  else
    do x <- shr (2 ^ 64 - 1) (64 - n);
    m_append_bits gr s x n.

(** bit_vector.hpp:120-145; the words of [rhs] that are copied are not counted *)
Definition m_append (gr : policy) (s : mbuilder) (rhs : builder) : res mbuilder :=
  let '(b, m) := s in
  if b_size rhs =? 0 then Ok (b, m)
  else
    let pos := zlen (b_bits b) in
    let shift := b_size b mod 64 in
    let b := with_size b (b_size b + b_size rhs) in
    let n := words_for (b_size b) in
    let '(b, m) := if n <? pos then (with_bits b (firstn (Z.to_nat n) (b_bits b)), m) else m_grow gr (b, m) n in
    if shift =? 0 then
      if pos + zlen (b_bits rhs) <=? zlen (b_bits b) then
        Ok (set_cur_back (with_bits b
              (firstn (Z.to_nat pos) (b_bits b) ++ b_bits rhs ++
               skipn (Z.to_nat (pos + zlen (b_bits rhs))) (b_bits b))), m)
      else Ub OutOfBounds
    else
      do last_w <- rd (b_bits rhs) (zlen (b_bits rhs) - 1);
      do (ws, cur) <- append_loop (b_bits b) (pos - 1) shift (removelast (b_bits rhs));
      do x <- shl last_w shift;
      do ws <- mod_word ws cur (fun c => Z.lor c x);
      if cur <? zlen ws - 1 then
        do y <- shr last_w (64 - shift);
        do ws <- wr ws (cur + 1) y;
        Ok (set_cur_back (with_bits b ws), m)
      else Ok (set_cur_back (with_bits b ws), m).

(** one call on a family of builders; the calls of bit_vector.hpp:54-80 and 147-165 do not reallocate, swap (176-181) exchanges the
    vectors with what they have cost, and a new builder (27-38) has moved nothing *)
Definition m_step (gr : policy) (s : nat -> mbuilder) (o : op) : res (nat -> mbuilder) :=
  match o with
  | New i size init => do b <- new_builder size init; Ok (put s i (b, 0))
  | Reserve i n => Ok (put s i (m_reserve gr (s i) n))
  | PushBack i x => do b <- m_push_back gr (s i) x; Ok (put s i b)
  | SetBit i pos x => do b <- bset (fst (s i)) pos x; Ok (put s i (b, snd (s i)))
  | SetBits i pos bits len => do b <- set_bits (fst (s i)) pos bits len; Ok (put s i (b, snd (s i)))
  | AppendBits i bits len => do b <- m_append_bits gr (s i) bits len; Ok (put s i b)
  | ZeroExtend i n => do b <- m_zero_extend gr (s i) n; Ok (put s i b)
  | OneExtend i n => do b <- m_one_extend gr (s i) n; Ok (put s i b)
  | Append i j => do b <- m_append gr (s i) (fst (s j)); Ok (put s i b)
  | Reverse i => do b <- reverse (fst (s i)); Ok (put s i (b, snd (s i)))
  | Swap i j => let '(x, y) := builder_swap (fst (s i)) (fst (s j)) in Ok (put (put s i (x, snd (s j))) j (y, snd (s i)))
  end.
(** the calls in order (callers of bit_vector.hpp:27-181), each with the policy its std::vector call has *)
Fixpoint m_run (pol : op -> policy) (s : nat -> mbuilder) (os : list op) : res (nat -> mbuilder) :=
  match os with [] => Ok s | o :: os => do s <- m_step (pol o) s o; m_run pol s os end.
(** default-constructed builders (bit_vector.hpp:27), which have moved nothing *)
Definition mbuilders0 : nat -> mbuilder := fun i => (builders0 i, 0).
