(** Specification side of the calls past the end of an enumerator. *)
From Verif Require Import Base Spec S_BitVector.

(** The histories of S_BitVector with the state they end in. *)
Inductive espec_to (l : list bool) : estate -> list eop -> list Z -> estate -> Prop :=
| est_nil s : espec_to l s [] [] s
| est_cons s o r s' os rs t : espec l s o r s' -> espec_to l s' os rs t -> espec_to l s (o :: os) (r :: rs) t.
Inductive uspec_to (l : list bool) : Z * bool -> list uop -> list Z -> Z * bool -> Prop :=
| ust_nil s : uspec_to l s [] [] s
| ust_cons s o r s' os rs t : uspec l s o r s' -> uspec_to l s' os rs t -> uspec_to l s (o :: os) (r :: rs) t.
