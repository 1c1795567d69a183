(** Specification side of the reservations. *)
From Verif Require Import Base Spec M_BitVector S_BitVector.

(** a call that keeps the words of builder [i] in place as long as they fit in [n] bits *)
Definition stays (i : nat) (n : Z) (o : op) : Prop :=
  match o with
  | New j _ _ => j <> i
  | Swap j k => j <> i /\ k <> i
  | Reserve j n' => j = i -> n' <= n
  | _ => True
  end.
