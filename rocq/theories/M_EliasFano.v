(** Model of elias_fano.hpp, elias_fano_list.hpp and elias_fano_compressed_list.hpp.

    Bit positions and products of counters are exact integers; stored values, sizes
    passed to constructors and differences are uint64_t. *)
From Verif Require Import Base M_Broadword M_BitVector M_Darray.

(** elias_fano.hpp:42-48 *)
Record ef_builder := mk_efb {
  eb_n : Z;
  eb_m : Z;
  eb_pos : Z;
  eb_last : Z;
  eb_l : Z;
  eb_high : builder;
  eb_low : builder
}.

(** elias_fano.hpp:15-25 *)
Definition ef_builder_new (gr : growth) (n m : Z) : res ef_builder :=
  do l <- (if negb (m =? 0) && negb (n / m =? 0) then do r <- msb (n / m); Ok (u8 r) else Ok 0);
  do h <- shr n l;
  do high <- new_builder (u64 (m + 1 + h + 1)) false;
  do low <- new_builder 0 false;
  assert! (l <? 64);
  Ok (mk_efb n m 0 0 l high (reserve gr low (u64 (m * l)))).

(** elias_fano.hpp:27-38 *)
Definition ef_push (gr : growth) (b : ef_builder) (i : Z) : res ef_builder :=
  assert! ((eb_last b <=? i) && (i <=? eb_n b));
  do m <- shl 1 (eb_l b);
  let low_mask := u64 (m - 1) in
  do low <- (if eb_l b =? 0 then Ok (eb_low b)
             else append_bits gr (eb_low b) (Z.land i low_mask) (eb_l b));
  do h <- shr i (eb_l b);
  do high <- bset (eb_high b) (h + eb_pos b) true;
  assert! (eb_pos b + 1 <=? eb_m b);
  Ok (mk_efb (eb_n b) (eb_m b) (eb_pos b + 1) i (eb_l b) high low).

(** elias_fano.hpp:266-271; size() (101-103) is a field *)
Record elias_fano := mk_ef {
  ef_size : Z;
  ef_high : bit_vector;
  ef_d1 : darray;
  ef_d0 : darray;
  ef_low : bit_vector;
  ef_l : Z
}.

(** elias_fano.hpp:10-12; [l] is the uninitialised m_l *)
Definition ef_empty (l : Z) : elias_fano := mk_ef 0 bv_empty darray_empty darray_empty bv_empty l.

(** elias_fano.hpp:255-264 (and 75-78) *)
Definition ef_build (b : ef_builder) (with_rank_index : bool) : res elias_fano :=
  do high <- bv_of_builder (eb_high b);
  do d1 <- darray_build false high;
  do d0 <- (if with_rank_index then darray_build true high else Ok darray_empty);
  do low <- bv_of_builder (eb_low b);
  Ok (mk_ef (eb_n b) high d1 d0 low (eb_l b)).

(** elias_fano.hpp:65-70 *)
Fixpoint ef_ones_loop (gr : growth) (n : nat) (bv : bit_vector) (i : Z) (b : ef_builder)
  : res ef_builder :=
  match n with
  | O => Ok b
  | S n =>
      do i <- successor1 bv i;
      do b <- ef_push gr b i;
      ef_ones_loop gr n bv (i + 1) b
  end.

(** elias_fano.hpp:52-73 *)
Definition ef_of_bits (gr : growth) (bvb : builder) (with_rank_index : bool) : res elias_fano :=
  let n := b_size bvb in
  let m := fold_left (fun m w => m + popcount w) (b_bits bvb) 0 in
  do bv <- bv_of_builder bvb;
  do b <- ef_builder_new gr n m;
  do b <- ef_ones_loop gr (Z.to_nat m) bv 0 b;
  ef_build b with_rank_index.

(** elias_fano.hpp:105-107 *)
Definition ef_num_ones (ef : elias_fano) : Z := da_positions (ef_d1 ef).

(** elias_fano.hpp:117-127 *)
Fixpoint ef_get_loop (fuel : nat) (ef : elias_fano) (l_pos rank h_pos : Z) : res bool :=
  if h_pos <=? 0 then Ok false
  else
    do b <- bv_get (ef_high ef) (h_pos - 1);
    if b then
      match fuel with
      | O => Ub OutOfFuel
      | S fuel =>
          let rank := sub64 rank 1 in
          do cur <- get_bits strict_shift (ef_low ef) (rank * ef_l ef) (ef_l ef);
          if cur =? l_pos then Ok true
          else if cur <? l_pos then Ok false
          else ef_get_loop fuel ef l_pos rank (h_pos - 1)
      end
    else Ok false.

(** elias_fano.hpp:109-130 *)
Definition ef_get (ef : elias_fano) (pos : Z) : res bool :=
  assert! (pos <? ef_size ef);
  assert! (negb (da_positions (ef_d0 ef) =? 0));
  do h_rank <- shr pos (ef_l ef);
  do h_pos <- darray0_select (ef_d0 ef) (ef_high ef) h_rank;
  do m <- shl 1 (ef_l ef);
  ef_get_loop (Z.to_nat h_pos) ef (Z.land pos (u64 (m - 1))) (sub64 h_pos h_rank) h_pos.

(** elias_fano.hpp:132-136 *)
Definition ef_select (ef : elias_fano) (n : Z) : res Z :=
  do p <- darray1_select (ef_d1 ef) (ef_high ef) n;
  do h <- shl (sub64 p n) (ef_l ef);
  do low <- get_bits strict_shift (ef_low ef) (n * ef_l ef) (ef_l ef);
  Ok (Z.lor h low).

(** elias_fano.hpp:150-155 *)
Fixpoint ef_rank_loop (fuel : nat) (ef : elias_fano) (l_pos rank h_pos : Z) : res Z :=
  if h_pos <=? 0 then Ok rank
  else
    do b <- bv_get (ef_high ef) (h_pos - 1);
    if b then
      do cur <- get_bits strict_shift (ef_low ef) (sub64 rank 1 * ef_l ef) (ef_l ef);
      if l_pos <=? cur then
        match fuel with
        | O => Ub OutOfFuel
        | S fuel => ef_rank_loop fuel ef l_pos (sub64 rank 1) (h_pos - 1)
        end
      else Ok rank
    else Ok rank.

(** elias_fano.hpp:138-158 *)
Definition ef_rank (ef : elias_fano) (pos : Z) : res Z :=
  assert! (pos <=? ef_size ef);
  assert! (negb (da_positions (ef_d0 ef) =? 0));
  if pos =? ef_size ef then Ok (ef_num_ones ef)
  else
    do h_rank <- shr pos (ef_l ef);
    do h_pos <- darray0_select (ef_d0 ef) (ef_high ef) h_rank;
    do m <- shl 1 (ef_l ef);
    ef_rank_loop (Z.to_nat h_pos) ef (Z.land pos (u64 (m - 1))) (sub64 h_pos h_rank) h_pos.

(** elias_fano.hpp:160-162 *)
Definition ef_predecessor1 (ef : elias_fano) (pos : Z) : res Z :=
  do r <- ef_rank ef (u64 (pos + 1));
  ef_select ef (sub64 r 1).

(** elias_fano.hpp:164-166 *)
Definition ef_successor1 (ef : elias_fano) (pos : Z) : res Z :=
  do r <- ef_rank ef pos;
  ef_select ef r.

(** elias_fano.hpp:173-186 *)
Definition ef_delta (ef : elias_fano) (n : Z) : res Z :=
  do high_val <- darray1_select (ef_d1 ef) (ef_high ef) n;
  do low_val <- get_bits strict_shift (ef_low ef) (n * ef_l ef) (ef_l ef);
  if negb (n =? 0) then
    do p <- predecessor1 (ef_high ef) (sub64 high_val 1);
    do h <- shl (u64 (high_val - p - 1)) (ef_l ef);
    do low_prev <- get_bits strict_shift (ef_low ef) ((n - 1) * ef_l ef) (ef_l ef);
    Ok (u64 (h + low_val - low_prev))
  else
    do h <- shl (sub64 high_val n) (ef_l ef);
    Ok (Z.lor h low_val).

(** elias_fano.hpp:190-199 *)
Definition ef_select_range (ef : elias_fano) (n : Z) : res (Z * Z) :=
  assert! (u64 (n + 1) <? ef_num_ones ef);
  do high_b <- darray1_select (ef_d1 ef) (ef_high ef) n;
  do low_b <- get_bits strict_shift (ef_low ef) (n * ef_l ef) (ef_l ef);
  do high_e <- successor1 (ef_high ef) (high_b + 1);
  do low_e <- get_bits strict_shift (ef_low ef) ((n + 1) * ef_l ef) (ef_l ef);
  do hb <- shl (sub64 high_b n) (ef_l ef);
  do he <- shl (u64 (high_e - n - 1)) (ef_l ef);
  Ok (Z.lor hb low_b, Z.lor he low_e).

(** elias_fano.hpp:244-251; [m_ef] is the extra argument, [m_l] its [ef_l]; [se_high] is
    [None] while m_high_enum is default-constructed *)
Record select_enum := mk_se {
  se_i : Z;
  se_high : option unary_enum;
  se_buf : Z;
  se_mask : Z;
  se_in_word : Z;
  se_avail : Z
}.

(** elias_fano.hpp:203-222 *)
Definition se_new (ef : elias_fano) (i : Z) : res select_enum :=
  do m <- shl 1 (ef_l ef);
  let mask := u64 (m - 1) in
  let in_word := if ef_l ef =? 0 then 0 else 64 / ef_l ef in
  let avail := if ef_l ef =? 0 then ef_num_ones ef else 0 in
  if ef_num_ones ef =? 0 then Ok (mk_se i None 0 mask in_word avail)
  else
    do pos <- darray1_select (ef_d1 ef) (ef_high ef) i;
    do u <- unary_new (bv_words (ef_high ef)) pos;
    assert! (ef_l ef <? 64);
    Ok (mk_se i (Some u) 0 mask in_word avail).

(** elias_fano.hpp:224-240. The null data of a default-constructed enumerator is an empty array. *)
Definition se_next (ef : elias_fano) (e : select_enum) : res (Z * select_enum) :=
  do (buf, avail) <-
    (if se_avail e =? 0 then
       do w <- get_word (ef_low ef) (se_i e * ef_l ef);
       Ok (w, sub64 (se_in_word e) 1)
     else Ok (se_buf e, se_avail e - 1));
  do (high, u) <-
    (match se_high e with
     | Some u => unary_next (bv_words (ef_high ef)) u
     | None => unary_next [] (mk_unary 0 0)
     end);
  do s <- darray1_select (ef_d1 ef) (ef_high ef) (se_i e);
  assert! (high =? s);
  let low := Z.land buf (se_mask e) in
  do h <- shl (sub64 high (se_i e)) (ef_l ef);
  do buf <- shr buf (ef_l ef);
  Ok (Z.lor h low, mk_se (se_i e + 1) (Some u) buf (se_mask e) (se_in_word e) avail).

(** ** elias_fano_list *)

(** elias_fano_list.hpp:28-34 *)
Fixpoint efl_loop (gr : growth) (ints : list Z) (cur_base : Z) (b : ef_builder) : res ef_builder :=
  match ints with
  | [] => Ok b
  | x :: ints =>
      let cur_base := u64 (cur_base + x) in
      do b <- ef_push gr b cur_base;
      efl_loop gr ints cur_base b
  end.

(** elias_fano_list.hpp:13-36; the list is its only member m_ef *)
Definition efl_build (gr : growth) (ints : list Z) : res elias_fano :=
  let s := fold_left (fun s x => u64 (s + x)) ints 0 in
  let n := zlen ints in
  do b <- ef_builder_new gr (u64 (s + 1)) n;
  do b <- efl_loop gr ints 0 b;
  ef_build b false.

(** elias_fano_list.hpp:38-50 *)
Definition efl_get (l : elias_fano) (idx : Z) : res Z := ef_delta l idx.
(** elias_fano_list.hpp:43-46 *)
Definition efl_size (l : elias_fano) : Z := ef_num_ones l.
(** elias_fano_list.hpp:48-50 *)
Definition efl_sum (l : elias_fano) : Z := sub64 (ef_size l) 1.

(** ** elias_fano_compressed_list *)

(** elias_fano_compressed_list.hpp:18-25: the total length of the codes *)
Fixpoint code_sum (ints : list Z) (s : Z) : res Z :=
  match ints with
  | [] => Ok s
  | x :: ints => do r <- msb (u64 (x + 1)); code_sum ints (u64 (s + r))
  end.

(** elias_fano_compressed_list.hpp:31-38 *)
Fixpoint efc_loop (gr : growth) (ints : list Z) (b : ef_builder) (bits : builder)
  : res (ef_builder * builder) :=
  match ints with
  | [] => Ok (b, bits)
  | x :: ints =>
      let val := u64 (x + 1) in
      do l <- msb val;
      do m <- shl 1 l;
      do bits <- append_bits gr bits (Z.lxor val m) l;
      do b <- ef_push gr b (b_size bits);
      efc_loop gr ints b bits
  end.

(** elias_fano_compressed_list.hpp:69-70 *)
Record ef_compressed := mk_efc { efc_ef : elias_fano; efc_bits : bit_vector }.

(** elias_fano_compressed_list.hpp:13-41 *)
Definition efc_build (gr : growth) (ints : list Z) : res ef_compressed :=
  do s <- code_sum ints 0;
  do b <- ef_builder_new gr (u64 (s + 1)) (zlen ints + 1);
  do bits <- new_builder 0 false;
  do b <- ef_push gr b (b_size bits);
  do (b, bits) <- efc_loop gr ints b bits;
  do ef <- ef_build b false;
  do bv <- bv_of_builder bits;
  Ok (mk_efc ef bv).

(** elias_fano_compressed_list.hpp:43-48 *)
Definition efc_get (c : ef_compressed) (idx : Z) : res Z :=
  do (first, second) <- ef_select_range (efc_ef c) idx;
  let l := sub64 second first in
  do m <- shl 1 l;
  do v <- get_bits strict_shift (efc_bits c) first l;
  Ok (sub64 (Z.lor m v) 1).

(** elias_fano_compressed_list.hpp:50-53 *)
Definition efc_size (c : ef_compressed) : Z := sub64 (ef_num_ones (efc_ef c)) 1.
