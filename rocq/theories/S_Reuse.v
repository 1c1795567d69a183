(** Which calls on a builder are considered after a bit_vector was built from it: arguments of their
    C++ types within the documented ranges, and sizes that stay representable. *)
From Verif Require Import Base M_BitVector M_Reuse.

Definition added (o : rop) : Z :=
  match o with
  | RPushBack _ => 1
  | RAppendBits _ len => len
  | RZeroExtend n | ROneExtend n => n
  | RAppend rhs => b_size rhs
  | _ => 0
  end.
Definition arg_ok (o : rop) : Prop :=
  match o with
  | RAppendBits bits len => 0 <= len <= 64 /\ 0 <= bits < 2 ^ len
  | _ => 0 <= added o
  end.
Fixpoint ru_legal (size : Z) (os : list rop) : Prop :=
  match os with
  | [] => size + 63 < 2 ^ 64
  | o :: os => arg_ok o /\ ru_legal (size + added o) os
  end.
