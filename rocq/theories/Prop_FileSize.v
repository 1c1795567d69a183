(** Property C109: how long frozen files are *)
From Verif Require Import Base Spec S_BitVector M_BitVector M_RsBitVector M_Darray M_EliasFano M_Gamma M_Util M_Bp M_Cartesian M_Topk M_Mapper.
From Verif Require Import S_EliasFano S_Bp S_GammaSteps S_FileSize P_FileSize.

(** C109: the file of a bit_vector has 24 bytes and its words *)
Theorem C109_bit_vector : forall l flags, zlen l < 2 ^ 64 -> 0 <= flags < 2 ^ 64 -> file_bytes bv_map (bv_range l) flags = 24 + 8 * words_for (zlen l).
Proof. exact bv_file. Qed.
Print Assumptions C109_bit_vector.
Example C109_bit_vector_ex : zlen (repeat true 65) < 2 ^ 64 /\ words_for 65 = 2 /\ file_bytes bv_map (bv_range (repeat true 65)) 3 = 40.
Proof. split; [reflexivity|split; reflexivity]. Qed.

(** C109: the file of a nibble_vector has 24 bytes and one for two values *)
Theorem C109_nibble_vector : forall l flags, Forall (fun x => 0 <= x < 16) l -> zlen l < 2 ^ 64 -> 0 <= flags < 2 ^ 64 -> exists v, nv_build l = Ok v /\
  file_bytes nv_map v flags = 24 + (zlen l + 1) / 2.
Proof. exact nv_file. Qed.
Print Assumptions C109_nibble_vector.
Example C109_nibble_vector_ex : Forall (fun x => 0 <= x < 16) [3; 15; 0] /\ (do v <- nv_build [3; 15; 0]; Ok (file_bytes nv_map v 0)) = Ok 26.
Proof. split; [repeat (apply Forall_cons; [lia|]); apply Forall_nil|reflexivity]. Qed.

(** C109: the file of an rs_bit_vector has at most 1 + 1/4 + 1/16 bits for each bit, with both kinds of hints *)
Theorem C109_rs_bit_vector : forall l h h0 flags, zlen l < 2 ^ 64 -> 0 <= flags < 2 ^ 64 -> exists rs, rs_build (bv_range l) h h0 = Ok rs /\
  8 * file_bytes rs_map rs flags <= zlen l + zlen l / 4 + zlen l / 16 + 1000.
Proof. exact rs_file. Qed.
Print Assumptions C109_rs_bit_vector.
Example C109_rs_bit_vector_ex : zlen (repeat true 600) < 2 ^ 64 /\ (do rs <- rs_build (bv_range (repeat true 600)) true true; Ok (file_bytes rs_map rs 0)) = Ok 192.
Proof. split; [reflexivity|vm_compute; reflexivity]. Qed.

(** C109: the file of a darray has at most as many bits as the bit vector it indexes, and 9/16 for each position *)
Theorem C109_darray : forall neg l flags, zlen l < 2 ^ 63 -> 0 <= flags < 2 ^ 64 -> exists d, darray_build neg (bv_range l) = Ok d /\
  let c := Z.of_nat (count (negb neg) l) in 8 * file_bytes da_map d flags <= zlen l + c / 16 + c / 2 + 404.
Proof. exact da_file. Qed.
Print Assumptions C109_darray.
Example C109_darray_ex : zlen (repeat true 100) < 2 ^ 63 /\ (do d <- darray_build false (bv_range (repeat true 100)); Ok (file_bytes da_map d 0)) = Ok 56.
Proof. split; [reflexivity|vm_compute; reflexivity]. Qed.

(** C109: the file of an elias_fano with room for [m] values up to [n] has at most log2 (n / m) + 7 bits for each, with the index
    for rank log2 (n / m) + 11 *)
Theorem C109_elias_fano : forall gr n m vs idx flags, ef_input n m vs -> 0 < m -> 0 <= flags < 2 ^ 64 -> exists ef, ef_make gr n m vs idx = Ok ef /\
  8 * file_bytes ef_map ef flags <= m * (Z.log2 (n / m) + if idx then 11 else 7) + 1300.
Proof. exact ef_file. Qed.
Print Assumptions C109_elias_fano.
Example C109_elias_fano_ex : ef_input 100 4 [3; 3; 50; 99] /\
  (do ef <- ef_make (fun c _ => 2 * c) 100 4 [3; 3; 50; 99] true; Ok (file_bytes ef_map ef 0)) = Ok 149.
Proof.
  split; [|vm_compute; reflexivity]. unfold ef_input. split; [lia|]. split; [lia|]. split; [vm_compute; reflexivity|]. split; [vm_compute; discriminate|].
  split; [repeat (apply Forall_cons; [lia|]); apply Forall_nil|]. repeat constructor; lia.
Qed.

(** C109: the files of gamma codes have exactly the bytes given by the lengths of the codes *)
Theorem C109_gamma : forall gr ints flags, zlen ints < 2 ^ 57 -> 0 <= flags < 2 ^ 64 ->
  (Forall (fun x => 0 <= x < 2 ^ 64 - 1) ints -> exists g, gv_build gr ints = Ok g /\
    file_bytes gamma_map g flags = gamma_file (payload 1 ints + zlen ints + 1) (payload 1 ints) (zlen ints)) /\
  (Forall (fun x => 0 <= x < 2 ^ 64 - 2) ints -> exists g, gb_build gr ints = Ok g /\
    file_bytes gamma_map g flags = gamma_file (payload 2 ints + 1) (payload 2 ints) (zlen ints)).
Proof. exact (fun gr ints flags L F => conj (fun H => gv_file gr ints flags H L F) (fun H => gb_file gr ints flags H L F)). Qed.
Print Assumptions C109_gamma.
Example C109_gamma_ex : Forall (fun x => 0 <= x < 2 ^ 64 - 2) [2 ^ 40; 0; 2 ^ 50; 7] /\ payload 1 [2 ^ 40; 0; 2 ^ 50; 7] = 93 /\
  payload 2 [2 ^ 40; 0; 2 ^ 50; 7] = 94 /\ gamma_file (93 + 4 + 1) 93 4 = 106 /\
  (do g <- gv_build (fun c _ => 2 * c) [2 ^ 40; 0; 2 ^ 50; 7]; Ok (file_bytes gamma_map g 0)) = Ok 106 /\
  (do g <- gb_build (fun c _ => 2 * c) [2 ^ 40; 0; 2 ^ 50; 7]; Ok (file_bytes gamma_map g 0)) = Ok 106.
Proof.
  split; [repeat (apply Forall_cons; [lia|]); apply Forall_nil|]. split; [reflexivity|]. split; [reflexivity|]. split; [reflexivity|].
  split; vm_compute; reflexivity.
Qed.

(** C109: the file of a bp_vector has at most 1 + 1/4 + 1/8 + 1/64 bits for each bit *)
Theorem C109_bp_vector : forall uninit l h h0 flags, zlen l < 2 ^ 31 -> prefix_ok l -> 0 < zlen l -> 0 <= uninit < 2 ^ 64 -> 0 <= flags < 2 ^ 64 ->
  exists bp, bp_build uninit (bv_range l) h h0 = Ok bp /\ 8 * file_bytes bp_map bp flags <= zlen l + zlen l / 4 + zlen l / 8 + zlen l / 64 + 1500.
Proof. exact bp_file. Qed.
Print Assumptions C109_bp_vector.
Example C109_bp_vector_ex : prefix_ok [true; true; false; false] /\
  (do bp <- bp_build 0 (bv_range [true; true; false; false]) false true; Ok (file_bytes bp_map bp 0)) = Ok 130.
Proof.
  split; [|vm_compute; reflexivity]. intros p Hp. change (zlen [true; true; false; false]) with 4 in Hp.
  assert (p = 0 \/ p = 1 \/ p = 2 \/ p = 3 \/ p = 4) as [-> | [-> | [-> | [-> | ->]]]] by lia; vm_compute; discriminate.
Qed.

(** C109: the file of a cartesian_tree has at most 2.8 bits for each value *)
Theorem C109_cartesian_tree : forall T (comp : T -> T -> bool) gr uninit e v flags, 2 * zlen v + 2 < 2 ^ 31 -> 0 <= uninit < 2 ^ 64 -> 0 <= flags < 2 ^ 64 ->
  exists ct, ct_build gr uninit comp e v = Ok ct /\ 8 * file_bytes ct_map ct flags <= 14 * zlen v / 5 + 1500.
Proof. exact @ct_file. Qed.
Print Assumptions C109_cartesian_tree.
Example C109_cartesian_tree_ex : 2 * zlen [4; 1; 3] + 2 < 2 ^ 31 /\
  (do ct <- ct_build (fun c _ => 2 * c) 0 Z.ltb 0 [4; 1; 3]; Ok (file_bytes ct_map ct 0)) = Ok 130.
Proof. split; [reflexivity|vm_compute; reflexivity]. Qed.

(** C109: the file of a topk_vector has at most 66.8 bits for each value *)
Theorem C109_topk_vector : forall gr uninit lt v flags, 2 * zlen v + 2 < 2 ^ 31 -> Forall (fun x => 0 <= x < 2 ^ 64) v -> 0 <= uninit < 2 ^ 64 -> 0 <= flags < 2 ^ 64 ->
  exists tk, tk_build gr uninit lt v = Ok tk /\ 8 * file_bytes tk_map tk flags <= 64 * zlen v + 14 * zlen v / 5 + 1600.
Proof. exact tk_file. Qed.
Print Assumptions C109_topk_vector.
Example C109_topk_vector_ex : Forall (fun x => 0 <= x < 2 ^ 64) [4; 1; 3] /\
  (do tk <- tk_build (fun c _ => 2 * c) 0 Z.ltb [4; 1; 3]; Ok (file_bytes tk_map tk 0)) = Ok 162.
Proof. split; [repeat (apply Forall_cons; [lia|]); apply Forall_nil|vm_compute; reflexivity]. Qed.
