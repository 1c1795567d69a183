(** Specification for C71: between which positions the hints of select lie *)
From Verif Require Import Base Spec.

(** the bits [b] are counted off in chunks of 1024, and [n] falls into one of them; [p] is where it starts: the front of the vector for
    the first chunk, else the first bit of the chunk *)
Definition chunk_start (b : bool) (l : list bool) (n p : nat) : Prop :=
  (n < 1024)%nat /\ p = 0%nat \/ (1024 <= n)%nat /\ is_select b l (n / 1024 * 1024) p.
(** [p] is where the next chunk starts, or the end of the vector, rounded up to blocks of 512 *)
Definition chunk_end (b : bool) (l : list bool) (n p : nat) : Prop :=
  is_select b l ((n / 1024 + 1) * 1024) p \/ (count b l <= (n / 1024 + 1) * 1024)%nat /\ p = (length l + 511)%nat.
(** the blocks between the two *)
Definition spread (p p' : nat) : Z := Z.of_nat p' / 512 - Z.of_nat p / 512 + 1.
