(** Specification side of the elias_fano properties. *)
From Coq Require Import Sorted.
From Verif Require Import Base Spec M_BitVector M_EliasFano.

(** a sequence of calls of push_back *)
Fixpoint ef_push_all (gr : growth) (b : ef_builder) (vs : list Z) : res ef_builder :=
  match vs with
  | [] => Ok b
  | v :: vs => do b <- ef_push gr b v; ef_push_all gr b vs
  end.

(** [elias_fano_builder b(n, m)], the pushes, [elias_fano(&b, index)] *)
Definition ef_make (gr : growth) (n m : Z) (vs : list Z) (index : bool) : res elias_fano :=
  do b <- ef_builder_new gr n m;
  do b <- ef_push_all gr b vs;
  ef_build b index.

(** the arguments an elias_fano_builder is meant for; the bounds keep the bit vectors
    indexable by a signed 64-bit position *)
Definition ef_input (n m : Z) (vs : list Z) : Prop :=
  0 <= n < 2 ^ 64 /\ 0 <= m < 2 ^ 61 /\ (m = 0 -> n < 2 ^ 62) /\
  zlen vs <= m /\ Forall (fun v => 0 <= v <= n) vs /\ StronglySorted Z.le vs.

(** [k] calls of next *)
Fixpoint se_run (ef : elias_fano) (e : select_enum) (k : nat) : res (list Z) :=
  match k with
  | O => Ok []
  | S k => do (v, e) <- se_next ef e; do vs <- se_run ef e k; Ok (v :: vs)
  end.

Definition sum (ints : list Z) : Z := fold_right Z.add 0 ints.
