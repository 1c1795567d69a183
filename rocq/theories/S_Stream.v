(** Specification side of the adaptors: order of byte strings. *)
From Verif Require Import Base.

(** [s] comes before [t] in the lexicographic order of byte strings *)
Inductive lex : list Z -> list Z -> Prop :=
| lex_nil y t : lex [] (y :: t)
| lex_lt x y s t : x < y -> lex (x :: s) (y :: t)
| lex_eq x s t : lex s t -> lex (x :: s) (x :: t).

(** no proper prefix and no other string *)
Definition prefix (s t : list Z) : Prop := exists u, t = s ++ u.
