(** Property C106: the generators of the tests reach every input *)
From Verif Require Import Base Spec M_BitVector M_Bp M_Gen M_GenBits S_Bp P_GenAll.

(** C106: every call of random_bit_vector gives as many bits as it is asked for *)
Theorem C106_length : forall rand_max num den rnd n, 0 <= n -> exists v, random_bit_vector rand_max num den rnd n = Ok v /\ zlen v = n.
Proof. exact some_bits. Qed.
Print Assumptions C106_length.
Example C106_length_ex : random_bit_vector 100 1 4 (fun i => 7 * Z.of_nat i) 6 = Ok [true; true; true; true; false; false].
Proof. reflexivity. Qed.

(** C106: a bit is a one exactly if the share of the value of rand() in RAND_MAX is below the density *)
Theorem C106_density : forall rand_max num den rnd n v, 0 <= n -> random_bit_vector rand_max num den rnd n = Ok v ->
  forall i, (i < length v)%nat -> nth i v false = true <-> rnd i * den < rand_max * num.
Proof. exact bits_density. Qed.
Print Assumptions C106_density.
Example C106_density_ex : random_bit_vector 100 1 4 (fun i => 7 * Z.of_nat i) 6 = Ok [true; true; true; true; false; false] /\
  (3 < length [true; true; true; true; false; false])%nat /\ 7 * 3 * 4 < 100 * 1.
Proof. split; [reflexivity|]. split; [cbn|]; lia. Qed.

(** C106: whatever the density is, every bit vector is produced by some values of rand() *)
Theorem C106_bits : forall rand_max num den v, 0 < num <= den -> 0 < rand_max ->
  exists rnd, (forall i, 0 <= rnd i <= rand_max) /\ random_bit_vector rand_max num den rnd (zlen v) = Ok v.
Proof. exact all_bits. Qed.
Print Assumptions C106_bits.
Example C106_bits_ex : 0 < 1 <= 128 /\ 0 < 32767 /\
  random_bit_vector 32767 1 128 (fun i => nth i [0; 32767; 0] 0) (zlen [true; false; true]) = Ok [true; false; true].
Proof. split; [lia|]. split; [lia|]. reflexivity. Qed.

(** C106: random_binary_tree produces every tree whose size rand() can reach *)
Theorem C106_trees_partial : forall rand_max u, bal u -> 0 <= rand_max -> zlen u - 2 <= rand_max -> zlen u + 2 < 2 ^ 64 ->
  exists rnd, (forall i, 0 <= rnd i <= rand_max) /\ random_binary_tree vpush rnd [] (zlen u + 2) = Ok (true :: u ++ [false]).
Proof. exact all_trees. Qed.
Print Assumptions C106_trees_partial.
Example C106_trees_ex : let u := [true; true; false; false; true; false] in bal u /\ zlen u - 2 <= 4 /\
  random_binary_tree vpush (fun i => nth i [2; 0; 0] 0) [] (zlen u + 2) = Ok (true :: u ++ [false]).
Proof.
  cbv zeta. split; [|split; [vm_compute; discriminate|reflexivity]].
  apply (bal_pair [true; false] [true; false]); [apply (bal_pair [] [])|apply (bal_pair [] [])]; constructor.
Qed.

(** C106 refuted: it produces no path longer than that. The tests ask for trees of 100000 parentheses; with a RAND_MAX of 32767, which
    the C standard allows, no path of this size is tested. *)
Theorem C106_trees_refuted : forall rand_max rnd size, (forall i, 0 <= rnd i <= rand_max) -> size mod 2 = 0 -> rand_max + 4 < size < 2 ^ 64 ->
  random_binary_tree vpush rnd [] size <> Ok (repeat true (Z.to_nat (size / 2)) ++ repeat false (Z.to_nat (size / 2))).
Proof. exact no_path. Qed.
Print Assumptions C106_trees_refuted.
Example C106_trees_refuted_ex : (forall i : nat, 0 <= (fun _ => 32767) i <= 32767) /\ 100000 mod 2 = 0 /\ 32767 + 4 < 100000 < 2 ^ 64.
Proof. split; [intros; lia|]. split; [reflexivity|lia]. Qed.

(** C106: random_bp produces every tree that ends with closing parentheses only from the requested size on; so with a size of one less
    than that of the tree it produces every tree *)
Theorem C106_parentheses : forall rand_max u a k, bal u -> 0 < rand_max -> true :: u ++ [false] = a ++ repeat false (S k) -> zlen a < 2 ^ 31 ->
  exists rnd, (forall i, 0 <= rnd i <= rand_max) /\ random_bp vpush rand_max rnd [] (zlen a) = Ok (true :: u ++ [false]).
Proof. exact all_bps. Qed.
Print Assumptions C106_parentheses.
Example C106_parentheses_ex : let u := [true; true; false; false] in bal u /\ true :: u ++ [false] = [true; true; true] ++ repeat false 3 /\
  true :: u ++ [false] = (true :: u) ++ repeat false 1 /\
  random_bp vpush 1 (fun i => nth i [1; 1; 1] 0) [] 3 = Ok (true :: u ++ [false]) /\
  random_bp vpush 1 (fun i => nth i [1; 1; 1; 0; 0] 0) [] 5 = Ok (true :: u ++ [false]).
Proof. cbv zeta. split; [apply (bal_pair [true; false] []); [apply (bal_pair [] [])|]; constructor|]. repeat split. Qed.
