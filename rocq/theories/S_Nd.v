(** What it means that leaving out assertions changes no result *)
From Verif Require Import Base.

(** where [r] has a result [r'] has the same *)
Inductive le {A} (r r' : res A) : Prop := Le : (forall x, r = Ok x -> r' = Ok x) -> le r r'.
