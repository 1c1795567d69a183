(** What a history of calls and swaps does to the object of the enumerator. *)
From Verif Require Import Base Spec M_EnumSwap.

(** the contents of the object at each call, oldest first, when it holds [a] and the other one [b] at the start *)
Fixpoint seen {A} (a b : A) (os : list scall) : list A :=
  match os with [] => [] | SCall :: os => a :: seen a b os | SSwap :: os => seen b a os end.

(** a bit of a sequence that goes on with zeros *)
Definition bit_or_zero (l : list bool) (p : Z) : bool := nth (Z.to_nat p) l false.
