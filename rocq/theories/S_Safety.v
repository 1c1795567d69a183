(** A run with a defined result: no access outside an array, no failed assertion, no shift by the word
    width, no signed overflow, no endless loop. *)
From Verif Require Import Base.
Definition defined {A} (r : res A) : Prop := exists x, r = Ok x.
