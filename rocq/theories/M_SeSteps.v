(** The next() of elias_fano's select_enumerator with its work counted: the rounds of the loop over the words
    of the high bits and the calls of get_word on the low bits. *)
From Verif Require Import Base M_BitVector M_Darray M_EliasFano M_BvSteps.

(** elias_fano.hpp:224-240. As M_EliasFano.se_next; the select in the assertion (line 231) is not counted. *)
Definition se_next_c (ef : elias_fano) (e : select_enum) : res (Z * select_enum * Z * Z) :=
  do (buf, avail, r) <-
    (if se_avail e =? 0 then
       do w <- get_word (ef_low ef) (se_i e * ef_l ef);
       Ok (w, sub64 (se_in_word e) 1, 1)
     else Ok (se_buf e, se_avail e - 1, 0));
  do (high, u, c) <-
    (match se_high e with
     | Some u => unary_next_c (bv_words (ef_high ef)) u
     | None => unary_next_c [] (mk_unary 0 0)
     end);
  do s <- darray1_select (ef_d1 ef) (ef_high ef) (se_i e);
  assert! (high =? s);
  let low := Z.land buf (se_mask e) in
  do h <- shl (sub64 high (se_i e)) (ef_l ef);
  do buf <- shr buf (ef_l ef);
  Ok (Z.lor h low, mk_se (se_i e + 1) (Some u) buf (se_mask e) (se_in_word e) avail, c, r).

(** [k] calls of next (elias_fano.hpp:224-240): the values, and the rounds and reads of all calls together *)
Fixpoint se_run_c (ef : elias_fano) (e : select_enum) (k : nat) : res (list Z * Z * Z) :=
  match k with
  | O => Ok ([], 0, 0)
  | S k =>
      do (v, e, c, r) <- se_next_c ef e;
      do (vs, c', r') <- se_run_c ef e k;
      Ok (v :: vs, c + c', r + r')
  end.
