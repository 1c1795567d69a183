(** Model of a bit_vector_builder that is used again after a bit_vector was built from it. The
    builder keeps its size and its pointer to the last word, which now belongs to the vector. *)
From Verif Require Import Base M_BitVector.

(** the builder, the vector built from it, and the identity of the buffer the vector owns (bit_vector.hpp:183-186, 222-225) *)
Record reuse := mk_reuse { ru_b : builder; ru_v : bit_vector; ru_buf : option Z }.

(** bit_vector.hpp:222-225 with mappable_vector.hpp:72-81: the words of the builder are exchanged with
    those of a new, empty std::vector, unless there are none. Pointers into the words stay valid. *)
Definition build_from (b : builder) : res reuse :=
  do v <- bv_of_builder b;
  if zlen (b_bits b) =? 0 then Ok (mk_reuse b v None)
  else Ok (mk_reuse (mk_builder [] (b_size b) 0 (b_gen b + 1) (b_cur b)) v (Some (b_gen b))).

(** [*m_cur_word |= x], where the pointer may lead into the buffer of the vector (bit_vector.hpp:50, 92) *)
Definition ru_or (s : reuse) (x : Z) : res reuse :=
  let own := do b <- cur_or (ru_b s) x; Ok (mk_reuse b (ru_v s) (ru_buf s)) in
  match b_cur (ru_b s), ru_buf s with
  | Some (g, i), Some h =>
      if g =? h then
        do ws <- mod_word (bv_words (ru_v s)) i (fun w => Z.lor w x);
        Ok (mk_reuse (ru_b s) (mk_bv (bv_size (ru_v s)) ws) (ru_buf s))
      else own
  | _, _ => own
  end.

(** the builder changes, the vector does not (bit_vector.hpp:222-225) *)
Definition with_b (s : reuse) (b : builder) : reuse := mk_reuse b (ru_v s) (ru_buf s).

(** [m_cur_word = &m_bits.back()], undefined for an empty vector (bit_vector.hpp:48, 97) *)
Definition cur_back (b : builder) : res builder :=
  if zlen (b_bits b) =? 0 then Ub OutOfBounds else Ok (set_cur_back b).

(** bit_vector.hpp:44-52 *)
Definition ru_push (gr : growth) (s : reuse) (x : bool) : res reuse :=
  let b := ru_b s in
  let pos_in_word := b_size b mod 64 in
  let s := if pos_in_word =? 0 then with_b s (set_cur_back (v_push gr b 0)) else s in
  do x' <- shl (Z.b2z x) pos_in_word;
  do s <- ru_or s x';
  Ok (with_b s (with_size (ru_b s) (b_size (ru_b s) + 1))).

(** bit_vector.hpp:82-98 *)
Definition ru_append_bits (gr : growth) (s : reuse) (bits len : Z) : res reuse :=
  do ok <- no_spurious bits len;
  assert! ok;
  if len =? 0 then Ok s
  else
    let b := ru_b s in
    let pos_in_word := b_size b mod 64 in
    let s := with_b s (with_size b (b_size b + len)) in
    if pos_in_word =? 0 then Ok (with_b s (set_cur_back (v_push gr (ru_b s) bits)))
    else
      do x <- shl bits pos_in_word;
      do s <- ru_or s x;
      if 64 - pos_in_word <? len then
        do y <- shr bits (64 - pos_in_word);
        Ok (with_b s (set_cur_back (v_push gr (ru_b s) y)))
      else
        do b <- cur_back (ru_b s);
        Ok (with_b s b).

(** bit_vector.hpp:109-118 *)
Fixpoint ru_one_extend_loop (gr : growth) (fuel : nat) (s : reuse) (n : Z) : res (reuse * Z) :=
  if 64 <=? n then
    match fuel with
    | O => Ub OutOfFuel
    | S fuel =>
        do s <- ru_append_bits gr s (2 ^ 64 - 1) 64;
        ru_one_extend_loop gr fuel s (n - 64)
    end
  else Ok (s, n).
(** bit_vector.hpp:109-118 *)
Definition ru_one_extend (gr : growth) (s : reuse) (n : Z) : res reuse :=
  do (s, n) <- ru_one_extend_loop gr (Z.to_nat (n / 64)) s n;
  if n =? 0 then Ok s
  else
    do x <- shr (2 ^ 64 - 1) (64 - n);
    ru_append_bits gr s x n.

(** The calls on the builder. The others do not follow m_cur_word, so they are those of M_BitVector;
    [rhs] is another builder. (bit_vector.hpp:40-145) *)
Inductive rop : Type :=
| RReserve (n : Z)
| RPushBack (x : bool)
| RSetBit (pos : Z) (x : bool)
| RSetBits (pos bits len : Z)
| RAppendBits (bits len : Z)
| RZeroExtend (n : Z)
| ROneExtend (n : Z)
| RAppend (rhs : builder)
| RReverse.
(** one of the calls of bit_vector.hpp:40-145 *)
Definition ru_step (gr : growth) (s : reuse) (o : rop) : res reuse :=
  let lift m := do b <- m; Ok (with_b s b) in
  match o with
  | RReserve n => Ok (with_b s (reserve gr (ru_b s) n))
  | RPushBack x => ru_push gr s x
  | RSetBit pos x => lift (bset (ru_b s) pos x)
  | RSetBits pos bits len => lift (set_bits (ru_b s) pos bits len)
  | RAppendBits bits len => ru_append_bits gr s bits len
  | RZeroExtend n => lift (zero_extend gr (ru_b s) n)
  | ROneExtend n => ru_one_extend gr s n
  | RAppend rhs => lift (append gr (ru_b s) rhs)
  | RReverse => lift (reverse (ru_b s))
  end.
(** calls of bit_vector.hpp:40-145 in order *)
Fixpoint ru_run (gr : growth) (s : reuse) (os : list rop) : res reuse :=
  match os with [] => Ok s | o :: os => do s <- ru_step gr s o; ru_run gr s os end.
