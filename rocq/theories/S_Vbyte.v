(** Specification side of the bytes vbyte decoding accepts. *)
From Verif Require Import Base.

(** the number whose base-128 digits are the low seven bits of the bytes, the most significant first *)
Definition base128 (bs : list Z) : Z := fold_left (fun a b => 128 * a + b mod 128) bs 0.
(** a byte with and without the continuation bit *)
Definition more (b : Z) : Prop := 128 <= b < 256.
Definition final (b : Z) : Prop := 0 <= b < 128.
(** the initial segment of a code carries no leading zero digit *)
Definition no_leading_zero (bs : list Z) : Prop := match bs with [] => True | b :: _ => b <> 128 end.
