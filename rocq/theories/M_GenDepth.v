(** Model of the call stack of random_binary_tree of test_bp_vector_common.hpp *)
From Verif Require Import Base M_Gen.

(** test_bp_vector_common.hpp:28-35 with room for [frames] calls of random_binary_tree_helper (6-25) on the stack: the model of the
    helper in M_Gen gives every nested call one unit of fuel less, and both nested calls of it the same, so its fuel is the number of frames
    that are left. A stack that overflows is [Ub OutOfFuel]. That all frames of the helper have the same size is an assumption. *)
Definition random_binary_tree_frames {B} (push : B -> bool -> res B) (rnd : nat -> Z) (frames : nat) (builder : B) (size : Z) : res B :=
  assert! ((size mod 2 =? 0) && (2 <=? size));
  do builder <- push builder true;
  do (builder, _) <- random_binary_tree_helper push rnd frames 0 builder (size - 1);
  Ok builder.

(** test_bp_vector_common.hpp:6-25 as compiled when the last call, in line 23, is made a jump: it runs in the frame of its caller.
    [frames] are the frames left, this one included; [fuel] is for the recursion of the model alone, and [size] bounds it. *)
Fixpoint tail_helper {B} (push : B -> bool -> res B) (rnd : nat -> Z) (fuel frames : nat) (i : nat) (builder : B) (size : Z)
  : res (B * nat) :=
  match fuel, frames with
  | S fuel, S frames' =>
      assert! (size mod 2 =? 1);
      if size =? 1 then do builder <- push builder false; Ok (builder, i)
      else
        do builder <- push builder true;
        let left := u64 (2 * (u64 (rnd i) mod sub64 size 1 / 2) + 1) in
        assert! (1 <=? left);
        let right := sub64 (sub64 size 1) left in
        assert! (1 <=? right);
        assert! (u64 (left + right + 1) =? size);
        do (builder, i) <- tail_helper push rnd fuel frames' (S i) builder left;
        tail_helper push rnd fuel frames i builder right
  | _, _ => Ub OutOfFuel
  end.
(** test_bp_vector_common.hpp:28-35 with the helper compiled so *)
Definition random_binary_tree_tail {B} (push : B -> bool -> res B) (rnd : nat -> Z) (frames : nat) (builder : B) (size : Z) : res B :=
  assert! ((size mod 2 =? 0) && (2 <=? size));
  do builder <- push builder true;
  do (builder, _) <- tail_helper push rnd (Z.to_nat size) frames 0 builder (size - 1);
  Ok builder.
