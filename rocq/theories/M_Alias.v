(** Model of bit_vector_builder::append called on the builder itself, where the argument shows every
    change the call makes. *)
From Verif Require Import Base M_BitVector.

(** bit_vector.hpp:134-138: [n] more iterations; the words of the argument are read from the vector being written *)
Fixpoint append_self_loop (n : nat) (i : Z) (ws : list Z) (cur shift : Z) : res (list Z * Z) :=
  match n with
  | O => Ok (ws, cur)
  | S n =>
      do w <- rd ws i;
      do x <- shl w shift;
      do ws <- mod_word ws cur (fun c => Z.lor c x);
      do y <- shr w (64 - shift);
      do ws <- wr ws (cur + 1) y;
      append_self_loop n (i + 1) ws (cur + 1) shift
  end.

(** bit_vector.hpp:120-145 for b.append(b). std::copy at 130-131 copies the resized vector behind the
    old words; the destination must have room for it. *)
Definition append_self (gr : growth) (b : builder) : res builder :=
  if b_size b =? 0 then Ok b
  else
    let pos := zlen (b_bits b) in
    let shift := b_size b mod 64 in
    let b := with_size b (b_size b + b_size b) in
    let n := words_for (b_size b) in
    let b := if n <? pos then with_bits b (firstn (Z.to_nat n) (b_bits b)) else v_grow gr b n in
    if shift =? 0 then
      if pos + zlen (b_bits b) <=? zlen (b_bits b) then
        Ok (set_cur_back (with_bits b (firstn (Z.to_nat pos) (b_bits b) ++ b_bits b)))
      else Ub OutOfBounds
    else
      do (ws, cur) <- append_self_loop (Z.to_nat (zlen (b_bits b) - 1)) 0 (b_bits b) (pos - 1) shift;
      do last_w <- rd ws (zlen ws - 1);
      do x <- shl last_w shift;
      do ws <- mod_word ws cur (fun c => Z.lor c x);
      if cur <? zlen ws - 1 then
        do last_w <- rd ws (zlen ws - 1);
        do y <- shr last_w (64 - shift);
        do ws <- wr ws (cur + 1) y;
        Ok (set_cur_back (with_bits b ws))
      else Ok (set_cur_back (with_bits b ws)).
