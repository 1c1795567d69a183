(** Specification side of reproducible construction. *)
From Verif Require Import Base S_BitVector.

(** a call other than reserve *)
Definition no_reserve (o : op) : bool := match o with Reserve _ _ => false | _ => true end.
