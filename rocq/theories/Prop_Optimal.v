(** C111: the frozen structures take little more space than every code for the same contents must take for some of them. *)
From Verif Require Import Base Spec Lib S_Bp S_EliasFano M_Mapper M_BitVector M_RsBitVector M_EliasFano M_Util M_Bp M_Cartesian S_FileSize S_Optimal P_Optimal.

(** C111: whatever code tells the bit sequences of length [n] apart, for one of them the bit_vector takes 255 bits more than the code
    at most, and the rs_bit_vector 1 + 1/4 + 1/16 times the code and 1000 bits *)
Theorem C111_bits : forall n enc flags, 0 <= n < 2 ^ 64 -> 0 <= flags < 2 ^ 64 -> is_code (fun l : list bool => zlen l = n) enc ->
  exists l, zlen l = n /\ 8 * file_bytes bv_map (bv_range l) flags <= zlen (enc l) + 255 /\
  forall h h0, exists rs, rs_build (bv_range l) h h0 = Ok rs /\ 8 * file_bytes rs_map rs flags <= zlen (enc l) + zlen (enc l) / 4 + zlen (enc l) / 16 + 1000.
Proof. exact bv_optimal. Qed.
Print Assumptions C111_bits.
Example C111_bits_ex : is_code (fun l : list bool => zlen l = 70) (map negb) /\ zlen (map negb (repeat true 70)) = 70 /\
  8 * file_bytes bv_map (bv_range (repeat true 70)) 0 = 320.
Proof.
  split; [|split; reflexivity]. intros x y _ _ H. apply (f_equal (map negb)) in H. rewrite !map_map in H.
  rewrite !(map_ext (fun b => negb (negb b)) (fun b => b)) in H by apply negb_involutive. rewrite !map_id in H. exact H.
Qed.

(** C111: the same for numbers of four bits and the nibble_vector, with 199 bits *)
Theorem C111_nibbles : forall n enc flags, 0 <= n < 2 ^ 62 -> 0 <= flags < 2 ^ 64 ->
  is_code (fun l : list Z => zlen l = n /\ Forall (fun x => 0 <= x < 16) l) enc ->
  exists l v, zlen l = n /\ Forall (fun x => 0 <= x < 16) l /\ nv_build l = Ok v /\ 8 * file_bytes nv_map v flags <= zlen (enc l) + 199.
Proof. exact nv_optimal. Qed.
Print Assumptions C111_nibbles.
Example C111_nibbles_ex : is_code (fun l : list Z => zlen l = 2 /\ Forall (fun x => 0 <= x < 16) l)
    (fun l => repeat true (Z.to_nat (16 * nth 0 l 0 + nth 1 l 0))) /\
  (do v <- nv_build [15; 3]; Ok (8 * file_bytes nv_map v 0)) = Ok 200 /\ zlen (repeat true (Z.to_nat (16 * 15 + 3))) = 243.
Proof.
  split; [|split; reflexivity]. intros x y [Lx Fx] [Ly Fy] H. apply (f_equal (@length bool)) in H. rewrite !repeat_length in H.
  destruct x as [|a [|b [|c x]]]; unfold zlen in Lx; cbn [length] in Lx; try lia. destruct y as [|a' [|b' [|c' y]]]; unfold zlen in Ly; cbn [length] in Ly; try lia.
  cbn [nth] in H. pose proof (Forall_inv Fx). pose proof (Forall_inv (Forall_inv_tail Fx)). pose proof (Forall_inv Fy). pose proof (Forall_inv (Forall_inv_tail Fy)).
  cbv beta in *. assert (a = a') by lia. assert (b = b') by lia. subst. reflexivity.
Qed.

(** C111: whatever code tells the sorted lists of [m] numbers up to [n] apart, for one of them the elias_fano takes at most seven bits
    per number more, eleven with the index for rank, and 1300 bits *)
Theorem C111_elias_fano : forall gr n m idx flags enc, 0 <= n < 2 ^ 64 -> 0 < m < 2 ^ 61 -> 0 <= flags < 2 ^ 64 ->
  is_code (fun vs => ef_input n m vs /\ zlen vs = m) enc ->
  exists vs ef, ef_input n m vs /\ zlen vs = m /\ ef_make gr n m vs idx = Ok ef /\
  8 * file_bytes ef_map ef flags <= zlen (enc vs) + m * (if idx then 11 else 7) + 1300.
Proof. exact ef_optimal. Qed.
Print Assumptions C111_elias_fano.
Example C111_elias_fano_ex : is_code (fun vs => ef_input 10 2 vs /\ zlen vs = 2) (fun vs => repeat true (Z.to_nat (11 * nth 0 vs 0 + nth 1 vs 0))).
Proof.
  intros x y [(_ & _ & _ & _ & Fx & _) Lx] [(_ & _ & _ & _ & Fy & _) Ly] H. apply (f_equal (@length bool)) in H. rewrite !repeat_length in H.
  destruct x as [|a [|b [|c x]]]; unfold zlen in Lx; cbn [length] in Lx; try lia. destruct y as [|a' [|b' [|c' y]]]; unfold zlen in Ly; cbn [length] in Ly; try lia.
  cbn [nth] in H. pose proof (Forall_inv Fx). pose proof (Forall_inv (Forall_inv_tail Fx)). pose proof (Forall_inv Fy). pose proof (Forall_inv (Forall_inv_tail Fy)).
  cbv beta in *. assert (a = a') by lia. assert (b = b') by lia. subst. reflexivity.
Qed.

(** C111: whatever code tells the balanced sequences of [n] pairs apart, it takes 2 n bits for one of them but for twice the
    logarithm of 2 n + 1 *)
Theorem C111_balanced : forall n enc, 0 <= n -> is_code (fun l => bal l /\ zlen l = 2 * n) enc ->
  exists l, bal l /\ zlen l = 2 * n /\ 2 * n <= zlen (enc l) + 2 * Z.log2_up (2 * n + 1).
Proof. exact bal_code. Qed.
Print Assumptions C111_balanced.
(** the last parenthesis closes: a code may leave it out *)
Example C111_balanced_ex : is_code (fun l => bal l /\ zlen l = 2 * 2) (fun l => removelast l).
Proof.
  intros x y [Bx Lx] [By Ly] H. unfold zlen in *.
  destruct x as [|a [|b [|c [|d [|e x]]]]]; cbn [length] in Lx; try lia. destruct y as [|a' [|b' [|c' [|d' [|e' y]]]]]; cbn [length] in Ly; try lia.
  cbn [removelast] in H. injection H as -> -> ->. apply P_Optimal.balb_bal in Bx, By. destruct a', b', c', d, d'; try reflexivity; discriminate.
Qed.

(** C111: for one of them the bp_vector takes at most 1 + 1/4 + 1/8 + 1/64 times the code and 1600 bits *)
Theorem C111_bp_vector : forall uninit n enc h h0 flags, 0 < n < 2 ^ 30 -> 0 <= uninit < 2 ^ 64 -> 0 <= flags < 2 ^ 64 ->
  is_code (fun l => bal l /\ zlen l = 2 * n) enc ->
  exists l bp, bal l /\ zlen l = 2 * n /\ bp_build uninit (bv_range l) h h0 = Ok bp /\
  8 * file_bytes bp_map bp flags <= zlen (enc l) + zlen (enc l) / 4 + zlen (enc l) / 8 + zlen (enc l) / 64 + 1600.
Proof. exact bp_optimal. Qed.
Print Assumptions C111_bp_vector.
Example C111_bp_vector_ex : is_code (fun l => bal l /\ zlen l = 2 * 2) (fun l => removelast l) /\
  (do bp <- bp_build 0 (bv_range [true; true; false; false]) false true; Ok (file_bytes bp_map bp 0)) = Ok 130.
Proof. split; [exact C111_balanced_ex|vm_compute; reflexivity]. Qed.

(** C111: whatever is kept of [n] numbers to find the leftmost minima of all ranges, it takes 2 n bits for some numbers but for twice
    the logarithm of 2 n + 1 *)
Theorem C111_range_minima : forall n enc, 0 <= n -> (forall v w, zlen v = n -> zlen w = n -> enc v = enc w -> same_minima v w) ->
  exists v : list Z, zlen v = n /\ 2 * n <= zlen (enc v : list bool) + 2 * Z.log2_up (2 * n + 1).
Proof. exact rmq_code. Qed.
Print Assumptions C111_range_minima.
Example C111_range_minima_ex : forall v w, zlen v = 2 -> zlen w = 2 -> [nth 1 v 0 <? nth 0 v 0] = [nth 1 w 0 <? nth 0 w 0] -> same_minima v w.
Proof. exact pair_code. Qed.

(** C111: for some numbers the cartesian_tree takes at most 7/5 of that and 1600 bits *)
Theorem C111_cartesian_tree : forall gr uninit e n enc flags, 0 <= n -> 2 * n + 2 < 2 ^ 31 -> 0 <= uninit < 2 ^ 64 -> 0 <= flags < 2 ^ 64 ->
  (forall v w, zlen v = n -> zlen w = n -> enc v = enc w -> same_minima v w) ->
  exists v ct, zlen v = n /\ ct_build gr uninit Z.ltb e v = Ok ct /\ 8 * file_bytes ct_map ct flags <= 7 * zlen (enc v : list bool) / 5 + 1600.
Proof. exact ct_optimal. Qed.
Print Assumptions C111_cartesian_tree.
Example C111_cartesian_tree_ex : (forall v w, zlen v = 2 -> zlen w = 2 -> [nth 1 v 0 <? nth 0 v 0] = [nth 1 w 0 <? nth 0 w 0] -> same_minima v w) /\
  (do ct <- ct_build (fun c _ => 2 * c) 0 Z.ltb 0 [4; 1]; Ok (file_bytes ct_map ct 0)) = Ok 130.
Proof. split; [exact pair_code|vm_compute; reflexivity]. Qed.
