(** Specification side of the gamma_vector and gamma_bit_vector properties. *)
From Verif Require Import Base Spec M_Gamma.

(** [k] calls of next *)
Fixpoint gv_run (g : gamma) (e : gamma_enum) (k : nat) : res (list Z) :=
  match k with
  | O => Ok []
  | S k => do (v, e) <- gv_enum_next g e; do vs <- gv_run g e k; Ok (v :: vs)
  end.

(** calls on a gamma_bit_vector enumerator *)
Inductive gop := GNext | GSkip (k : nat).
Fixpoint gb_run (g : gamma) (e : gamma_enum) (os : list gop) : res (list Z) :=
  match os with
  | [] => Ok []
  | GNext :: os => do (v, e) <- gb_enum_next g e; do vs <- gb_run g e os; Ok (v :: vs)
  | GSkip k :: os => do e <- gb_enum_skip g e k; gb_run g e os
  end.

(** what they return when the enumerator stands in front of the integers [rest];
    [None]: the calls run past the end *)
Fixpoint gop_spec (rest : list Z) (os : list gop) : option (list Z) :=
  match os with
  | [] => Some []
  | GNext :: os =>
      match rest with
      | [] => None
      | x :: rest => option_map (cons x) (gop_spec rest os)
      end
  | GSkip k :: os => if (k <=? length rest)%nat then gop_spec (skipn k rest) os else None
  end.
