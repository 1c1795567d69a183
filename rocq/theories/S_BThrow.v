(** Specification side of the builder calls that may throw. *)
From Verif Require Import Base Spec M_BitVector S_BitVector.

(** the calls that promise to have no effect when they throw *)
Definition keeps (o : op) : Prop :=
  match o with
  | AppendBits _ _ _ | ZeroExtend _ _ | OneExtend _ _ | Append _ _ => False
  | _ => True
  end.

(** the builder one of the other calls works on, and the bits it was to add to it *)
Definition target (o : op) : nat :=
  match o with
  | AppendBits i _ _ | ZeroExtend i _ | OneExtend i _ | Append i _ => i
  | _ => 0%nat
  end.
Definition added (s : nat -> list bool) (o : op) : list bool :=
  match o with
  | AppendBits _ bits len => bits_of (Z.to_nat len) bits
  | ZeroExtend _ n => repeat false (Z.to_nat n)
  | OneExtend _ n => repeat true (Z.to_nat n)
  | Append _ j => s j
  | _ => []
  end.

(** The meaning of a history whose calls are marked with whether they threw: those that threw are
    left out. Every call must be legal, and only the calls of [keeps] may throw. *)
Fixpoint bxmeaning (s : nat -> list bool) (h : list (op * bool)) : nat -> list bool :=
  match h with
  | [] => s
  | (o, threw) :: h => bxmeaning (if threw then s else spec_step s o) h
  end.
Fixpoint bxlegal (s : nat -> list bool) (h : list (op * bool)) : Prop :=
  match h with
  | [] => True
  | (o, threw) :: h =>
      legal s o /\ (threw = true -> keeps o) /\ bxlegal (if threw then s else spec_step s o) h
  end.
