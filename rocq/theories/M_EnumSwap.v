(** Model of enumerators whose structure is swapped with another one between two calls.

    A bit_vector::enumerator keeps a pointer to the bit_vector (bit_vector.hpp:424), so that it reads whatever the object holds
    when it refills its buffer. A unary_enumerator keeps a pointer to the words (bit_vector.hpp:519), which swap hands over to
    the other object without moving them (mappable_vector.hpp:61-66): it goes on reading the words it began with. The
    enumerators of elias_fano and of the gamma codes have both: unary enumerators of the high bits and pointers to the object
    for the low bits. Below, the object of the enumerator is [a], the other one [b]; no object is destroyed. *)
From Verif Require Import Base M_BitVector M_Darray M_EliasFano M_Gamma M_Swap.

(** a call of next (bit_vector.hpp:367-375), or a.swap(b) (bit_vector.hpp:234-237) *)
Inductive scall : Type := SCall | SSwap.

(** bit_vector.hpp:367-375 and 234-237 *)
Fixpoint en_calls (a b : bit_vector) (e : enumerator) (os : list scall) : res (list bool) :=
  match os with
  | [] => Ok []
  | SCall :: os => do (v, e) <- enum_next a e; do vs <- en_calls a b e os; Ok (v :: vs)
  | SSwap :: os => let '(a, b) := bv_swap a b in en_calls a b e os
  end.

(** bit_vector.hpp:456-471 and 234-237; [data] is m_data, set by the constructor *)
Fixpoint un_calls (a b : bit_vector) (data : list Z) (u : unary_enum) (os : list scall) : res (list Z) :=
  match os with
  | [] => Ok []
  | SCall :: os => do (v, u) <- unary_next data u; do vs <- un_calls a b data u os; Ok (v :: vs)
  | SSwap :: os => let '(a, b) := bv_swap a b in un_calls a b data u os
  end.

(** gamma_vector.hpp:99-109; [data] is the m_data of m_high_bits, and m_low_bits reads the low bits [a] holds now. Only
    enumerators of an index within the vector. *)
Definition gvs_next (a : gamma) (data : list Z) (e : gamma_enum) : res (Z * gamma_enum) :=
  assert! (ge_idx e <=? gamma_size a);
  do (next_pos, u) <- match ge_high e with Some u => unary_next data u | None => unary_next [] (mk_unary 0 0) end;
  let l := u64 (next_pos - ge_pos e - 1) in
  do (chunk, low) <- ge_low_take a (ge_low e) l;
  do m <- shl 1 l;
  Ok (sub64 (Z.lor chunk m) 1, mk_ge (ge_idx e + 1) next_pos (Some u) (Some low)).

(** gamma_bit_vector.hpp:114-124, in the same way *)
Definition gbs_next (a : gamma) (data : list Z) (e : gamma_enum) : res (Z * gamma_enum) :=
  assert! (ge_idx e <=? gamma_size a);
  do (next_pos, u) <- match ge_high e with Some u => unary_next data u | None => unary_next [] (mk_unary 0 0) end;
  let l := u64 (next_pos - ge_pos e - 1) in
  do (chunk, low) <- ge_low_take a (ge_low e) (l + 1);
  do m <- shl 1 (l + 1);
  Ok (sub64 (Z.lor chunk m) 2, mk_ge (ge_idx e + 1) next_pos (Some u) (Some low)).

(** the two with gamma_vector.hpp:53-57 and gamma_bit_vector.hpp:59-63 *)
Fixpoint gs_calls (next : gamma -> list Z -> gamma_enum -> res (Z * gamma_enum)) (a b : gamma) (data : list Z) (e : gamma_enum)
  (os : list scall) : res (list Z) :=
  match os with
  | [] => Ok []
  | SCall :: os => do (v, e) <- next a data e; do vs <- gs_calls next a b data e os; Ok (v :: vs)
  | SSwap :: os => let '(a, b) := gamma_swap a b in gs_calls next a b data e os
  end.

(** elias_fano.hpp:224-240; [data] is the m_data of m_high_enum and [l] the member m_l, a copy (elias_fano.hpp:206) *)
Definition ses_next (a : elias_fano) (data : list Z) (l : Z) (e : select_enum) : res (Z * select_enum) :=
  do (buf, avail) <-
    (if se_avail e =? 0 then do w <- get_word (ef_low a) (se_i e * l); Ok (w, sub64 (se_in_word e) 1) else Ok (se_buf e, se_avail e - 1));
  do (high, u) <- match se_high e with Some u => unary_next data u | None => unary_next [] (mk_unary 0 0) end;
  do s <- darray1_select (ef_d1 a) (ef_high a) (se_i e);
  assert! (high =? s);
  let low := Z.land buf (se_mask e) in
  do h <- shl (sub64 high (se_i e)) l;
  do buf <- shr buf l;
  Ok (Z.lor h low, mk_se (se_i e + 1) (Some u) buf (se_mask e) (se_in_word e) avail).

(** with elias_fano.hpp:92-99 *)
Fixpoint ses_calls (a b : elias_fano) (data : list Z) (l : Z) (e : select_enum) (os : list scall) : res (list Z) :=
  match os with
  | [] => Ok []
  | SCall :: os => do (v, e) <- ses_next a data l e; do vs <- ses_calls a b data l e os; Ok (v :: vs)
  | SSwap :: os => let '(a, b) := ef_swap a b in ses_calls a b data l e os
  end.
