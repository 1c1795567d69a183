(** Specification side of the benchmark programs. *)
From Verif Require Import Base Spec M_Perftest.

(** uniform_int_distribution(0, m) returns a value of that range *)
Definition draws (pick : nat -> Z -> Z) : Prop := forall k m, 0 <= m -> 0 <= pick k m <= m.

(** [n] calls of monotone_generator::next: the values and the stack *)
Fixpoint mg_calls (pick : nat -> Z -> Z) (bits : Z) (n k : nat) (stack : list state_t) : res (list Z * list state_t) :=
  match n with
  | O => Ok ([], stack)
  | S n =>
      do (w, stack, k) <- mg_next pick bits k stack;
      do (ws, stack) <- mg_calls pick bits n k stack;
      Ok (w :: ws, stack)
  end.

Definition xor_all (xs : list Z) : Z := fold_left Z.lxor xs 0.
