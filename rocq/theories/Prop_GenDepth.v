(** Property C114: the call stack of random_binary_tree. [frames] are the calls of random_binary_tree_helper that the stack has room for. *)
From Verif Require Import Base M_BitVector M_Bp M_Gen M_GenDepth S_GenDepth P_GenDepth.

(** C114: the calls nest as deep as the tree is high, whatever the values of rand() are *)
Theorem C114_height : forall rnd v size, 2 <= size < 2 ^ 64 -> size mod 2 = 0 ->
  exists t, zlen (preorder t) = size - 1 /\ (forall frames, (height t <= frames)%nat ->
      random_binary_tree_frames vpush rnd frames v size = Ok (v ++ true :: preorder t)) /\
    (forall frames, (frames < height t)%nat -> random_binary_tree_frames vpush rnd frames v size = Ub OutOfFuel).
Proof. exact tree_exact. Qed.
Print Assumptions C114_height.
Example C114_height_ex : let t := Inner (Inner Leaf (Inner Leaf Leaf)) (Inner Leaf Leaf) in height t = 4%nat /\
  random_binary_tree_frames vpush (fun i => nth i [4; 0; 0; 0] 0) 4 [] 10 = Ok (true :: preorder t) /\
  random_binary_tree_frames vpush (fun i => nth i [4; 0; 0; 0] 0) 3 [] 10 = Ub OutOfFuel.
Proof. repeat split. Qed.

(** C114: this is between the logarithm and half of the size *)
Theorem C114_range : forall t size, zlen (preorder t) = size - 1 -> size <= 2 ^ Z.of_nat (height t) /\ 2 * Z.of_nat (height t) <= size.
Proof. exact tree_log. Qed.
Print Assumptions C114_range.
Example C114_range_ex : zlen (preorder (Inner (Inner Leaf Leaf) (Inner Leaf Leaf))) = 8 - 1 /\
  height (Inner (Inner Leaf Leaf) (Inner Leaf Leaf)) = 3%nat /\
  zlen (preorder (Inner Leaf (Inner Leaf (Inner Leaf Leaf)))) = 8 - 1 /\ height (Inner Leaf (Inner Leaf (Inner Leaf Leaf))) = 4%nat.
Proof. repeat split. Qed.

(** C114: with room for size / 2 calls the stack does not show, for any builder *)
Theorem C114_enough : forall (B : Type) (push : B -> bool -> res B) rnd b size frames, 2 <= size < 2 ^ 64 -> size mod 2 = 0 ->
  size <= 2 * Z.of_nat frames -> random_binary_tree_frames push rnd frames b size = random_binary_tree push rnd b size.
Proof. exact @tree_enough. Qed.
Print Assumptions C114_enough.
Example C114_enough_ex : 6 <= 2 * Z.of_nat 3 /\
  random_binary_tree_frames vpush (fun i => 5 * Z.of_nat i) 3 [true] 6 = Ok [true; true; true; false; true; false; false] /\
  random_binary_tree vpush (fun i => 5 * Z.of_nat i) [true] 6 = Ok [true; true; true; false; true; false; false].
Proof. split; [lia|]. split; reflexivity. Qed.

(** C114: fewer do not always suffice. A rand() that gives only 0 and 1 needs them all. For the 100000 parentheses of the tests
    these are 50000 calls; with 168 bytes or more each they do not fit into the 8 MiB that Linux gives.
    perftest_bp_vector.cpp:91-96 asks for up to 2^28 parentheses. *)
Theorem C114_fewer : forall rnd v size frames, (forall i, 0 <= rnd i <= 1) -> 2 <= size < 2 ^ 64 -> size mod 2 = 0 ->
  2 * Z.of_nat frames < size -> random_binary_tree_frames vpush rnd frames v size = Ub OutOfFuel.
Proof. exact tree_zero. Qed.
Print Assumptions C114_fewer.
Example C114_fewer_ex : (forall i, 0 <= Z.of_nat (i mod 2) <= 1) /\ 2 * Z.of_nat 4 < 10 /\
  random_binary_tree_frames vpush (fun i => Z.of_nat (i mod 2)) 4 [] 10 = Ub OutOfFuel /\
  random_binary_tree_frames vpush (fun i => Z.of_nat (i mod 2)) 5 [] 10 =
    Ok [true; true; false; true; false; true; false; true; false; false].
Proof.
  split; [intros i; pose proof (Nat.mod_upper_bound i 2); lia|]. split; [lia|]. split; reflexivity.
Qed.

(** C114: if the compiler makes the last call a jump, the calls nest as deep as the parentheses do, and the result stays the same *)
Theorem C114_jump : forall rnd v size, 2 <= size < 2 ^ 64 -> size mod 2 = 0 ->
  exists u, random_binary_tree vpush rnd v size = Ok (v ++ u) /\ forall frames,
    (nested_at_most (Z.of_nat frames) u -> random_binary_tree_tail vpush rnd frames v size = Ok (v ++ u)) /\
    (~ nested_at_most (Z.of_nat frames) u -> random_binary_tree_tail vpush rnd frames v size = Ub OutOfFuel).
Proof. exact tail_exact. Qed.
Print Assumptions C114_jump.
Example C114_jump_ex : random_binary_tree_tail vpush (fun _ => 0) 2 [] 10 = random_binary_tree vpush (fun _ => 0) [] 10 /\
  random_binary_tree vpush (fun _ => 0) [] 10 = Ok [true; true; false; true; false; true; false; true; false; false] /\
  random_binary_tree_tail vpush (fun _ => 0) 1 [] 10 = Ub OutOfFuel.
Proof. repeat split. Qed.

(** C114: then the values of rand() bound them too, for any builder *)
Theorem C114_jump_enough : forall (B : Type) (push : B -> bool -> res B) rnd rand_max b size frames, 2 <= size < 2 ^ 64 -> size mod 2 = 0 ->
  0 <= rand_max < 2 ^ 64 -> (forall i, 0 <= rnd i <= rand_max) -> Z.min (size / 2) (rand_max / 2 + 2) <= Z.of_nat frames ->
  random_binary_tree_tail push rnd frames b size = random_binary_tree push rnd b size.
Proof. exact @tail_enough. Qed.
Print Assumptions C114_jump_enough.
Example C114_jump_enough_ex : Z.min (12 / 2) (2 / 2 + 2) <= Z.of_nat 3 /\
  random_binary_tree_tail vpush (fun _ => 2) 3 [] 12 = Ok [true; true; true; false; false; true; true; false; false; true; false; false] /\
  random_binary_tree_tail vpush (fun _ => 2) 2 [] 12 = Ub OutOfFuel.
Proof. split; [vm_compute; discriminate|]. split; reflexivity. Qed.

(** C114: still size / 2 calls can be needed, if rand() is large enough *)
Theorem C114_jump_fewer : forall rand_max size, 0 <= rand_max -> 2 <= size < 2 ^ 64 -> size mod 2 = 0 -> size - 4 <= rand_max ->
  exists rnd, (forall i, 0 <= rnd i <= rand_max) /\ forall frames, 2 * Z.of_nat frames < size ->
    random_binary_tree_tail vpush rnd frames [] size = Ub OutOfFuel.
Proof. exact tail_path. Qed.
Print Assumptions C114_jump_fewer.
Example C114_jump_fewer_ex : random_binary_tree_tail vpush (fun i => nth i [4; 2; 0] 0) 3 [] 8 = Ub OutOfFuel /\
  random_binary_tree_tail vpush (fun i => nth i [4; 2; 0] 0) 4 [] 8 = Ok [true; true; true; true; false; false; false; false].
Proof. repeat split. Qed.
