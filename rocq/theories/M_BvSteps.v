(** The scanning functions of bit_vector.hpp with a counter [c] of the rounds of their loops *)
From Verif Require Import Base M_Broadword M_BitVector.

(** bit_vector.hpp:294-299 and 324-329; [neg] for the search of a zero *)
Fixpoint predecessor_loop_c (neg : bool) (fuel : nat) (ws : list Z) (block word c : Z) : res (Z * Z) :=
  do o <- msb_opt word;
  match o with
  | Some ret => Ok (block * 64 + ret, c)
  | None =>
      match fuel with
      | O => Ub OutOfFuel
      | S fuel =>
          assert! (negb (block =? 0));
          do w <- rd ws (block - 1);
          predecessor_loop_c neg fuel ws (block - 1) (if neg then not64 w else w) (c + 1)
      end
  end.
(** bit_vector.hpp:287-300 and 317-330 *)
Definition predecessor_c (neg : bool) (bv : bit_vector) (pos : Z) : res (Z * Z) :=
  assert! (pos <? bv_size bv);
  let block := pos / 64 in
  let shift := 64 - pos mod 64 - 1 in
  do w <- rd (bv_words bv) block;
  do x <- shl (if neg then not64 w else w) shift;
  do word <- shr x shift;
  predecessor_loop_c neg (S (Z.to_nat block)) (bv_words bv) block word 0.

(** bit_vector.hpp:308-314 and 338-344 *)
Fixpoint successor_loop_c (neg : bool) (fuel : nat) (ws : list Z) (block word c : Z) : res (Z * Z) :=
  do o <- lsb_opt word;
  match o with
  | Some ret => Ok (block * 64 + ret, c)
  | None =>
      match fuel with
      | O => Ub OutOfFuel
      | S fuel =>
          assert! (block + 1 <? zlen ws);
          do w <- rd ws (block + 1);
          successor_loop_c neg fuel ws (block + 1) (if neg then not64 w else w) (c + 1)
      end
  end.
(** bit_vector.hpp:302-315 and 332-345 *)
Definition successor_c (neg : bool) (bv : bit_vector) (pos : Z) : res (Z * Z) :=
  assert! (pos <? bv_size bv);
  let block := pos / 64 in
  let shift := pos mod 64 in
  do w <- rd (bv_words bv) block;
  do x <- shr (if neg then not64 w else w) shift;
  do word <- shl x shift;
  successor_loop_c neg (S (length (bv_words bv))) (bv_words bv) block word 0.

(** bit_vector.hpp:455-458 *)
Fixpoint unary_next_loop_c (fuel : nat) (ws : list Z) (pos buf c : Z) : res (Z * Z * Z * Z) :=
  do o <- lsb_opt buf;
  match o with
  | Some r => Ok (pos, buf, r, c)
  | None =>
      match fuel with
      | O => Ub OutOfFuel
      | S fuel =>
          do w <- rd ws ((pos + 64) / 64);
          unary_next_loop_c fuel ws (pos + 64) w (c + 1)
      end
  end.
(** bit_vector.hpp:451-463 *)
Definition unary_next_c (ws : list Z) (e : unary_enum) : res (Z * unary_enum * Z) :=
  do (pos, buf, pos_in_word, c) <- unary_next_loop_c (S (length ws)) ws (u_pos e) (u_buf e) 0;
  let p := align64 pos + pos_in_word in
  Ok (p, mk_unary p (Z.land buf (u64 (buf - 1))), c).

(** bit_vector.hpp:471-475 and 489-493, and with [neg] 507-511 *)
Fixpoint skip_loop_c (neg : bool) (fuel : nat) (ws : list Z) (k skipped pos buf c : Z) : res (Z * Z * Z * Z) :=
  let w := popcount buf in
  if skipped + w <=? k then
    match fuel with
    | O => Ub OutOfFuel
    | S fuel =>
        do b <- rd ws ((pos + 64) / 64);
        skip_loop_c neg fuel ws k (skipped + w) (pos + 64) (if neg then not64 b else b) (c + 1)
    end
  else Ok (skipped, pos, buf, c).
(** bit_vector.hpp:466-480 *)
Definition unary_skip_c (ws : list Z) (e : unary_enum) (k : Z) : res (unary_enum * Z) :=
  do (skipped, pos, buf, c) <- skip_loop_c false (S (length ws)) ws k 0 (u_pos e) (u_buf e) 0;
  assert! (negb (buf =? 0));
  do pos_in_word <- select_in_word buf (k - skipped);
  do m <- shl (2 ^ 64 - 1) pos_in_word;
  Ok (mk_unary (align64 pos + pos_in_word) (Z.land buf m), c).
(** bit_vector.hpp:483-498 *)
Definition unary_skip_no_move_c (ws : list Z) (e : unary_enum) (k : Z) : res (Z * Z) :=
  do (skipped, pos, buf, c) <- skip_loop_c false (S (length ws)) ws k 0 (u_pos e) (u_buf e) 0;
  assert! (negb (buf =? 0));
  do pos_in_word <- select_in_word buf (k - skipped);
  Ok (align64 pos + pos_in_word, c).
(** bit_vector.hpp:501-516 *)
Definition unary_skip0_c (ws : list Z) (e : unary_enum) (k : Z) : res (unary_enum * Z) :=
  do m0 <- shl (2 ^ 64 - 1) (u_pos e mod 64);
  let buf0 := Z.land (not64 (u_buf e)) m0 in
  do (skipped, pos, buf, c) <- skip_loop_c true (S (length ws)) ws k 0 (u_pos e) buf0 0;
  assert! (negb (buf =? 0));
  do pos_in_word <- select_in_word buf (k - skipped);
  do m <- shl (2 ^ 64 - 1) pos_in_word;
  Ok (mk_unary (align64 pos + pos_in_word) (Z.land (not64 buf) m), c).
