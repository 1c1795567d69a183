(** Integer types of ranges. *)
From Verif Require Import Base M_Ranges.

(** [x] is a value of the type *)
Definition value_of (t : ity) (x : Z) : Prop :=
  if it_signed t then - 2 ^ (it_bits t - 1) <= x < 2 ^ (it_bits t - 1) else 0 <= x < 2 ^ it_bits t.
(** a type of C++ *)
Definition integer_type (t : ity) : Prop := it_bits t = 8 \/ it_bits t = 16 \/ it_bits t = 32 \/ it_bits t = 64.

(** [x + k] needs no more than the type the compiler adds in: int for types narrower than int, else the type itself. A wrapped
    sum of 64 bits is the sum of the 64-bit model. *)
Definition adds (t : ity) (k x : Z) : Prop :=
  match it_signed t with
  | true => it_bits t < 32 \/ x + k < 2 ^ (it_bits t - 1)
  | false => it_bits t <> 32 \/ x + k < 2 ^ 32
  end.

(** uint32_t, int, long and others *)
Definition uint32 : ity := mk_ity 32 false.
Definition int32 : ity := mk_ity 32 true.
Definition int64 : ity := mk_ity 64 true.
