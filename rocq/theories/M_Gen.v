(** Model of the generators of parenthesis sequences of test_bp_vector_common.hpp. The templates
    are modelled over the push_back they call; [rnd i] is the value of the i-th call of rand(). *)
From Verif Require Import Base M_BitVector M_Bp M_Tests.

(** push_back of std::vector<char>, the builder of test_bp_vector.cpp:62-86 *)
Definition vpush (v : list bool) (b : bool) : res (list bool) := Ok (v ++ [b]).

(** test_bp_vector_common.hpp:6-25. The recursion is on [fuel], which [size] bounds; [i] calls of
    rand() were made before. M_GenDepth is about the depth of the C++ call stack. *)
Fixpoint random_binary_tree_helper {B} (push : B -> bool -> res B) (rnd : nat -> Z) (fuel : nat) (i : nat) (builder : B) (size : Z)
  : res (B * nat) :=
  match fuel with
  | O => Ub OutOfFuel
  | S fuel =>
      assert! (size mod 2 =? 1);
      if size =? 1 then do builder <- push builder false; Ok (builder, i)
      else
        do builder <- push builder true;
        let left := u64 (2 * (u64 (rnd i) mod sub64 size 1 / 2) + 1) in
        assert! (1 <=? left);
        let right := sub64 (sub64 size 1) left in
        assert! (1 <=? right);
        assert! (u64 (left + right + 1) =? size);
        do (builder, i) <- random_binary_tree_helper push rnd fuel (S i) builder left;
        random_binary_tree_helper push rnd fuel i builder right
  end.
(** test_bp_vector_common.hpp:28-35 *)
Definition random_binary_tree {B} (push : B -> bool -> res B) (rnd : nat -> Z) (builder : B) (size : Z) : res B :=
  assert! ((size mod 2 =? 0) && (2 <=? size));
  do builder <- push builder true;
  do (builder, _) <- random_binary_tree_helper push rnd (Z.to_nat size) 0 builder (size - 1);
  Ok builder.

(** test_bp_vector_common.hpp:41-48, [n] iterations left; the result also holds excess *)
Fixpoint random_bp_loop {B} (push : B -> bool -> res B) (rand_max : Z) (rnd : nat -> Z) (n i : nat) (builder : B) (excess : Z)
  : res (B * Z) :=
  match n with
  | O => Ok (builder, excess)
  | S n =>
      let val := rand_max / 2 <? rnd i in
      let val := if (excess <=? 1) && negb val then true else val in
      do excess <- int32 (excess + (if val then 1 else -1));
      do builder <- push builder val;
      random_bp_loop push rand_max rnd n (S i) builder excess
  end.
(** the loops test_bp_vector_common.hpp:50-52, 59-61 and 62-64: [n] times the same bit *)
Fixpoint push_times {B} (push : B -> bool -> res B) (b : bool) (n : nat) (builder : B) : res B :=
  match n with
  | O => Ok builder
  | S n => do builder <- push builder b; push_times push b n builder
  end.
(** test_bp_vector_common.hpp:37-53; [u64 excess] is size_t(excess) *)
Definition random_bp {B} (push : B -> bool -> res B) (rand_max : Z) (rnd : nat -> Z) (builder : B) (size_est : Z) : res B :=
  do (builder, excess) <- random_bp_loop push rand_max rnd (Z.to_nat size_est) 0 builder 0;
  push_times push false (Z.to_nat (u64 excess)) builder.
(** test_bp_vector_common.hpp:55-65 *)
Definition bp_path {B} (push : B -> bool -> res B) (builder : B) (size : Z) : res B :=
  assert! (size mod 2 =? 0);
  do builder <- push_times push true (Z.to_nat (size / 2)) builder;
  push_times push false (Z.to_nat (size / 2)) builder.

(** test_bp_vector.cpp:83-86 and test_bp_vector_rmq.cpp:94-97: [n] paths one after the other *)
Fixpoint bp_paths (n : nat) (v : list bool) (size : Z) : res (list bool) :=
  match n with
  | O => Ok v
  | S n => do v <- bp_path vpush v size; bp_paths n v size
  end.
(** what test_bp_vector.cpp:64-65, 73-74, 87-88 and test_bp_vector_rmq.cpp:75-76, 84-85, 98-99 do with a
    generated [v]; char is signed *)
Definition bp_tests (sp : shift_policy) (uninit : Z) (rands : list Z) (v : list bool) : res bool :=
  do bitmap <- bp_build uninit (bv_range v) false false;
  then_ (test_parentheses sp v bitmap) (test_bp_rmq true rands v bitmap).
