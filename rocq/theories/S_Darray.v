(** Specification side of the darray64 property. *)
From Verif Require Import Base Spec M_BitVector M_Darray.

(** the bits 0^s 1 for every call append1(s) *)
Definition d64_seq (skips : list Z) : list bool :=
  flat_map (fun s => repeat false (Z.to_nat s) ++ [true]) skips.

(** a sequence of calls *)
Fixpoint append1_all (gr : growth) (b : d64_builder) (skips : list Z) : res d64_builder :=
  match skips with
  | [] => Ok b
  | s :: skips => do b <- append1 gr b s; append1_all gr b skips
  end.
