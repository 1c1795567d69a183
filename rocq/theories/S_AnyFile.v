(** Files of any content *)
From Verif Require Import Base Spec M_Mapper S_Mapper.

(** no member type is empty, as in C++ *)
Fixpoint sized_layout (l : layout) : Prop :=
  match l with
  | LPod size _ | LVec size _ => 0 < size
  | LObj ms => sized_members ms
  end
with sized_members (ms : members) : Prop :=
  match ms with
  | MNil => True
  | MCons _ l ms => sized_layout l /\ sized_members ms
  end.

(** [n] bytes of a file from position [pos] *)
Definition section (file : list Z) (pos n : Z) : list Z := window file (Z.to_nat pos) (Z.to_nat n).

(** the two files differ in one byte *)
Definition one_byte_apart (f g : list Z) : Prop :=
  exists a x y b, f = a ++ x :: b /\ g = a ++ y :: b /\ x <> y /\ 0 <= y < 256.

(** all members of the right types make an object *)
Definition onto {A} (M : mappable A) : Prop := forall d, typed (layout_of M) d -> exists x, d = data_of M x.
