(** C115: which words select of darray and darray64 depends on. [same_at P xs ys]: the arrays have the same length and the same
    elements at the places [P]. *)
From Verif Require Import Base Spec M_BitVector S_BitVector M_Darray S_Darray S_Local P_LocalSel.

(** C115: select of a built darray, given any words that agree with the right ones from that of the first bit of the subblock, 32 bits
    of the kind counted, up to that of the result *)
Theorem C115_darray : forall neg l, zlen l < 2 ^ 63 -> exists d, darray_build neg (canonical l) = Ok d /\
  forall bv k p q, is_select (negb neg) l (32 * (k / 32)) p -> is_select (negb neg) l k q ->
  same_at (fun i => Z.of_nat p / 64 <= i <= Z.of_nat q / 64) (bv_words (canonical l)) (bv_words bv) ->
  darray_select neg d bv (Z.of_nat k) = Ok (Z.of_nat q).
Proof. exact local_darray. Qed.
Print Assumptions C115_darray.
Example C115_darray_ex : let l := repeat true 150 ++ repeat false 40 in zlen l < 2 ^ 63 /\ exists d, darray_build false (canonical l) = Ok d /\
  is_select true l (32 * (70 / 32)) 64 /\ is_select true l 70 70 /\ bv_words (canonical l) = [2 ^ 64 - 1; 2 ^ 64 - 1; 2 ^ 22 - 1] /\
  same_at (fun i => 64 / 64 <= i <= 70 / 64) [2 ^ 64 - 1; 2 ^ 64 - 1; 2 ^ 22 - 1] [0; 2 ^ 64 - 1; 0] /\
  darray_select false d (mk_bv 190 [0; 2 ^ 64 - 1; 0]) 70 = Ok 70 /\ darray_select false d (mk_bv 190 [0; 2 ^ 64 - 1; 0]) 20 = Ok 84.
Proof.
  cbv zeta. split; [reflexivity|]. eexists. split; [vm_compute; reflexivity|]. split; [split; reflexivity|]. split; [split; reflexivity|]. split; [vm_compute; reflexivity|].
  split; [|split; vm_compute; reflexivity]. split; [reflexivity|]. intros i _ Hi. change (64 / 64) with 1 in Hi. change (70 / 64) with 1 in Hi.
  replace i with 1 by lia. reflexivity.
Qed.

(** C115: select of a built darray64 whose words are replaced by any that agree with the right ones from that of the first one of the
    subblock, 64 ones, up to that of the result *)
Theorem C115_darray64 : forall gr skips, Forall (fun s => 0 <= s <= 64) skips -> exists b d,
  append1_all gr d64_new skips = Ok b /\ d64_build b = Ok d /\
  forall bv k p q, is_select true (d64_seq skips) (64 * (k / 64)) p -> is_select true (d64_seq skips) k q ->
  same_at (fun i => Z.of_nat p / 64 <= i <= Z.of_nat q / 64) (bv_words (d64_bits d)) (bv_words bv) ->
  d64_select (mk_d64 (d64_num_ones d) bv (d64_blocks d) (d64_subs d)) (Z.of_nat k) = Ok (Z.of_nat q).
Proof. exact local_darray64. Qed.
Print Assumptions C115_darray64.
Example C115_darray64_ex : Forall (fun s => 0 <= s <= 64) [64; 3; 60; 0; 2] /\ exists b d, append1_all (fun c _ => 2 * c) d64_new [64; 3; 60; 0; 2] = Ok b /\ d64_build b = Ok d /\
  is_select true (d64_seq [64; 3; 60; 0; 2]) (64 * (1 / 64)) 64 /\ is_select true (d64_seq [64; 3; 60; 0; 2]) 1 68 /\
  let bv := mk_bv 134 (7 :: tl (bv_words (d64_bits d))) in
  same_at (fun i => 64 / 64 <= i <= 68 / 64) (bv_words (d64_bits d)) (bv_words bv) /\
  d64_select (mk_d64 (d64_num_ones d) bv (d64_blocks d) (d64_subs d)) 1 = Ok 68.
Proof.
  split; [repeat constructor; discriminate|].
  eexists. eexists. split; [vm_compute; reflexivity|]. split; [vm_compute; reflexivity|]. split; [split; reflexivity|]. split; [split; reflexivity|].
  cbv zeta. split; [|vm_compute; reflexivity]. split; [reflexivity|]. intros i _ Hi. change (64 / 64) with 1 in Hi. change (68 / 64) with 1 in Hi.
  replace i with 1 by lia. reflexivity.
Qed.
