(** C115: which words select of a built elias_fano depends on. [same_at P xs ys]: the arrays have the same length and the same
    elements at the places [P]. *)
From Verif Require Import Base Spec M_BitVector M_EliasFano S_EliasFano S_Local P_LocalEf.

(** C115: the value stays right when the high bits are replaced by any whose words agree from that of the value 32 * (i / 32) up to that
    of the value i, and the low bits by any whose words agree where the value lies; bit [v / 2 ^ l + i] of the high bits stands for
    value i *)
Theorem C115_elias_fano_built : forall gr n m vs index, ef_input n m vs -> exists ef, ef_make gr n m vs index = Ok ef /\ 0 <= ef_l ef /\
  forall high low i v v0, nth_error vs i = Some v -> nth_error vs (32 * (i / 32)) = Some v0 -> bv_size (ef_low ef) = bv_size low ->
  same_at (fun j => (v0 / 2 ^ ef_l ef + Z.of_nat (32 * (i / 32))) / 64 <= j <= (v / 2 ^ ef_l ef + Z.of_nat i) / 64) (bv_words (ef_high ef)) (bv_words high) ->
  same_at (fun j => Z.of_nat i * ef_l ef / 64 <= j <= (Z.of_nat i * ef_l ef + ef_l ef - 1) / 64) (bv_words (ef_low ef)) (bv_words low) ->
  ef_select (mk_ef (ef_size ef) high (ef_d1 ef) (ef_d0 ef) low (ef_l ef)) (Z.of_nat i) = Ok v.
Proof. exact local_ef_built. Qed.
Print Assumptions C115_elias_fano_built.
Definition C115_values : list Z := map (fun i => 5 * Z.of_nat i) (seq 0 40).
Example C115_elias_fano_built_ex : ef_input 200 40 C115_values /\ exists ef, ef_make (fun c _ => 2 * c) 200 40 C115_values false = Ok ef /\ ef_l ef = 2 /\
  nth_error C115_values 35 = Some 175 /\ nth_error C115_values (32 * (35 / 32)) = Some 160 /\
  let high := mk_bv (bv_size (ef_high ef)) (0 :: tl (bv_words (ef_high ef))) in
  let low := mk_bv (bv_size (ef_low ef)) (9 :: tl (bv_words (ef_low ef))) in
  same_at (fun j => (160 / 2 ^ 2 + 32) / 64 <= j <= (175 / 2 ^ 2 + 35) / 64) (bv_words (ef_high ef)) (bv_words high) /\
  same_at (fun j => 35 * 2 / 64 <= j <= (35 * 2 + 2 - 1) / 64) (bv_words (ef_low ef)) (bv_words low) /\
  ef_select (mk_ef (ef_size ef) high (ef_d1 ef) (ef_d0 ef) low 2) 35 = Ok 175 /\
  ef_select ef 7 = Ok 35 /\ ef_select (mk_ef (ef_size ef) high (ef_d1 ef) (ef_d0 ef) low 2) 7 <> Ok 35.
Proof.
  split; [unfold ef_input; repeat split; try (intros; discriminate); cbv; repeat constructor; discriminate|].
  eexists. split; [vm_compute; reflexivity|]. split; [reflexivity|]. split; [reflexivity|]. split; [reflexivity|]. cbv zeta.
  split; [|split; [|split; [vm_compute; reflexivity|split; [vm_compute; reflexivity|vm_compute; discriminate]]]].
  - split; [reflexivity|]. intros j _ Hj. change ((160 / 2 ^ 2 + 32) / 64) with 1 in Hj. change ((175 / 2 ^ 2 + 35) / 64) with 1 in Hj.
    replace j with 1 by lia. reflexivity.
  - split; [reflexivity|]. intros j _ Hj. change (35 * 2 / 64) with 1 in Hj. change ((35 * 2 + 2 - 1) / 64) with 1 in Hj.
    replace j with 1 by lia. reflexivity.
Qed.
