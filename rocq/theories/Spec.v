(** Independent specification vocabulary: bit sequences are [list bool], position 0 first.
    Nothing here refers to the model. *)
From Verif Require Import Base.

(** number of occurrences of [b] *)
Definition count (b : bool) (l : list bool) : nat := count_occ bool_dec l b.

(** number of [b]s among the first [p] elements *)
Definition rank (b : bool) (l : list bool) (p : nat) : nat := count b (firstn p l).

(** position [p] holds the [k]-th (0-based) [b] of the sequence *)
Definition is_select (b : bool) (l : list bool) (k p : nat) : Prop :=
  nth_error l p = Some b /\ rank b l p = k.

(** [len] elements from position [pos] *)
Definition window {A} (l : list A) (pos len : nat) : list A := firstn len (skipn pos l).

(** the number whose binary digits, least significant first, are [l] *)
Fixpoint value (l : list bool) : Z :=
  match l with
  | [] => 0
  | b :: l => Z.b2z b + 2 * value l
  end.

(** the [n] low binary digits of [w], least significant first *)
Definition bits_of (n : nat) (w : Z) : list bool :=
  map (fun i => Z.testbit w (Z.of_nat i)) (seq 0 n).

(** the digits of a 64-bit word *)
Definition word_bits (w : Z) : list bool := bits_of 64 w.

(** byte [i] of a word *)
Definition byte (w : Z) (i : nat) : Z := (w / 2 ^ (8 * Z.of_nat i)) mod 2 ^ 8.

(** [n]-bit lane [i] of a word *)
Definition lane (n : Z) (w : Z) (i : nat) : Z := (w / 2 ^ (n * Z.of_nat i)) mod 2 ^ n.

(** the 64-bit words whose digits, word after word, are [l]; the last word is padded
    with zeros *)
Definition pack (l : list bool) : list Z :=
  map (fun k => value (window l (64 * k) 64)) (seq 0 ((length l + 63) / 64)).
