(** Specification for C45: which vectors a call uses *)
From Verif Require Import Base Spec M_MVec S_MVec.

(** the call reads or writes the vector [i] *)
Definition uses (o : vop) (i : nat) : Prop :=
  match o with
  | VNew _ | SSet _ _ => False
  | VFrom _ r => range_of r i
  | VDestroy j | VClear j | VMap j _ | VSteal j _ => j = i
  | VSwap j k => j = i \/ k = i
  | VAssign j r => j = i \/ range_of r i
  end.
