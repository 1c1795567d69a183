(** Specification side of the sizes that wrap. *)
From Verif Require Import Base M_BitVector S_BitVector.

(** the argument of [reserve] leaves room for the rounding of [words_for]; [legal] says so of the
    other calls *)
Definition sized (o : op) : Prop :=
  match o with
  | Reserve _ n => 0 <= n /\ fits n
  | _ => True
  end.
