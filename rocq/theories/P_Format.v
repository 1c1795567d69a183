From Verif Require Import Base Spec Lib M_BitVector M_RsBitVector M_Darray M_EliasFano M_Gamma M_Util M_Bp M_Cartesian M_Topk M_Mapper.
From Verif Require Import S_BitVector S_Mapper S_Format P_BvLib P_BitVector P_Typed P_Mapper.

Lemma le_to_bytes k : forall x, to_bytes k x = le k x.
Proof.
  unfold le. induction k as [|k IH]; intros x; [reflexivity|]. cbn [to_bytes seq map]. rewrite IH, <- seq_shift, map_map.
  change (Z.of_nat 0) with 0. rewrite Z.pow_0_r, Z.div_1_r. f_equal. apply map_ext. intros i.
  rewrite Nat2Z.inj_succ, Z.pow_succ_r, Z.div_div by lia. reflexivity.
Qed.
Lemma les_to_bytes k xs : flat_map (to_bytes k) xs = concat (map (le k) xs).
Proof. rewrite flat_map_concat_map. f_equal. apply map_ext. apply le_to_bytes. Qed.

Lemma formatted_image {A} (M : mappable A) fields :
  (forall x, image (layout_of M) (data_of M x) = concat (map field_bytes (fields x))) -> formatted M fields.
Proof.
  intros H x flags Ht Hb. pose proof (proj1 image_len _ _ Ht) as L. pose proof (zlen_nonneg (image (layout_of M) (data_of M x))).
  unfold freeze, freeze_pod. cbn [fst snd app]. change (u64 (0 + 8)) with 8. rewrite (proj1 freeze_ok) by (auto; cbn [snd]; lia).
  cbn [fst snd]. unfold file. rewrite <- H, <- le_to_bytes. change (Z.to_nat 8) with 8%nat. f_equal. rewrite zlen_app, zlen_to_bytes. lia.
Qed.

Ltac imgs := cbn [image images layout_of data_of bv_map rs_map bp_map ct_map da_map d64_map ef_map efl_map efc_map gamma_map nv_map tk_map vec_map
    bv_members rs_members bp_members app_members bv_datas rs_datas bp_datas app_datas
    map concat field_bytes app];
  change (Z.to_nat 8) with 8%nat; change (Z.to_nat 4) with 4%nat; change (Z.to_nat 2) with 2%nat; change (Z.to_nat 1) with 1%nat;
  rewrite ?le_to_bytes, ?les_to_bytes, ?map_app, ?concat_app, ?app_nil_r, <- ?app_assoc.

Lemma all_formatted :
  (forall k signed, 0 < k -> formatted (vec_map k signed) (fun xs => [Ints (Z.to_nat k) xs])) /\
  formatted bv_map bv_fields /\ formatted rs_map rs_fields /\ formatted bp_map bp_fields /\ formatted ct_map bp_fields /\
  formatted da_map da_fields /\ formatted d64_map d64_fields /\ formatted ef_map ef_fields /\ formatted efl_map ef_fields /\
  formatted efc_map efc_fields /\ formatted gamma_map gamma_fields /\ formatted nv_map nv_fields /\ formatted tk_map tk_fields.
Proof.
  split; [intros k signed Hk|repeat match goal with |- _ /\ _ => split end]; apply formatted_image; intros x;
  unfold tk_fields, efc_fields, gamma_fields, ef_fields, d64_fields, bp_fields, bv_fields, rs_fields, da_fields, nv_fields; imgs; reflexivity.
Qed.

(** ** the bits of a bit sequence *)
Lemma le_nth k x i : (i < k)%nat -> nth i (le k x) 0 = x / 256 ^ Z.of_nat i mod 256.
Proof.
  intros H. unfold le. erewrite nth_indep; [rewrite (map_nth (fun i => x / 256 ^ Z.of_nat i mod 256) (seq 0 k) 0%nat i), seq_nth by lia; reflexivity|].
  rewrite map_length, seq_length. exact H.
Qed.
Lemma le_length k x : length (le k x) = k.
Proof. unfold le. rewrite map_length, seq_length. reflexivity. Qed.
Lemma nth_les k xs : (0 < k)%nat -> forall i j, (i < length xs)%nat -> (j < k)%nat ->
  nth (k * i + j) (concat (map (le k) xs)) 0 = nth j (le k (nth i xs 0)) 0.
Proof.
  intros Hk. induction xs as [|x xs IH]; intros i j Hi Hj; [cbn in Hi; lia|]. cbn [map concat].
  destruct i as [|i].
  - rewrite Nat.mul_0_r, Nat.add_0_l, app_nth1 by (rewrite le_length; lia). reflexivity.
  - rewrite app_nth2 by (rewrite le_length; lia). rewrite le_length. cbn [nth] in *.
    rewrite <- (IH i j) by (cbn in Hi; lia). f_equal. lia.
Qed.
Lemma les_length k xs : length (concat (map (le k) xs)) = (k * length xs)%nat.
Proof. induction xs as [|x xs IH]; cbn [map concat length]; [lia|]. rewrite app_length, le_length, IH. lia. Qed.
Lemma byte_index i : (8 * (i / 64) + (i mod 64) / 8 = 24 + i / 8 - 8 - 8 - 8)%nat.
Proof.
  replace (24 + i / 8 - 8 - 8 - 8)%nat with (i / 8)%nat by lia. change 64%nat with (8 * 8)%nat.
  rewrite Nat.mod_mul_r by lia. rewrite <- Nat.div_div by lia.
  rewrite (Nat.mul_comm 8 ((i / 8) mod 8)), Nat.div_add by lia. rewrite (Nat.div_small (i mod 8) 8) by (apply Nat.mod_upper_bound; lia).
  pose proof (Nat.div_mod (i / 8) 8). lia.
Qed.
Lemma word_index (l : list bool) i : (i < length l)%nat -> (i / 64 < length (pack l))%nat.
Proof.
  intros H. pose proof (zlen_pack l) as L. unfold zlen in L. apply Nat2Z.inj_lt. rewrite L, Nat2Z.inj_div. change (Z.of_nat 64) with 64.
  dlia.
Qed.
Lemma bit_in_file l flags : zlen l < 2 ^ 64 ->
  exists bytes, freeze (layout_of bv_map) (data_of bv_map (canonical l)) flags = (bytes, zlen bytes) /\
  zlen bytes = 24 + 8 * ((zlen l + 63) / 64) /\
  forall i, (i < length l)%nat -> Z.testbit (nth (24 + i / 8) bytes 0) (Z.of_nat i mod 8) = nth i l false.
Proof.
  intros H. destruct (canonical_typed l H) as (Ht & Hb). eexists. split; [exact (proj1 (proj2 all_formatted) (canonical l) flags Ht Hb)|].
  unfold file, bv_fields, canonical. cbn [bv_size bv_words map concat field_bytes]. rewrite app_nil_r. split.
  - pose proof (zlen_pack l) as L. unfold zlen in L |- *. rewrite !app_length, !le_length, les_length. lia.
  - intros i Hi. destruct (words_ok_pack l) as (U & E & B).
    rewrite !app_nth2; rewrite ?le_length; try lia.
    replace (24 + i / 8 - 8 - 8 - 8)%nat with (8 * (i / 64) + (i mod 64) / 8)%nat.
    2:{ apply byte_index. }
    assert (Hm : (i mod 64 < 64)%nat) by (apply Nat.mod_upper_bound; lia).
    rewrite nth_les; [|lia| |apply Nat.div_lt_upper_bound; lia].
    2:{ apply word_index. exact Hi. }
    rewrite le_nth by (apply Nat.div_lt_upper_bound; lia).
    assert (E1 : Z.of_nat i mod 8 = Z.of_nat (i mod 8)) by (rewrite Nat2Z.inj_mod; reflexivity).
    assert (Hm8 : (i mod 8 < 8)%nat) by (apply Nat.mod_upper_bound; lia).
    change 256 with (2 ^ 8). rewrite <- Z.pow_mul_r by lia. rewrite Z.mod_pow2_bits_low by lia. rewrite Z.div_pow2_bits by lia.
    assert (E2 : Z.of_nat i mod 8 + 8 * Z.of_nat (i mod 64 / 8) = Z.of_nat i mod 64).
    { rewrite Nat2Z.inj_div, Nat2Z.inj_mod. change (Z.of_nat 64) with 64. change (Z.of_nat 8) with 8. dlia. }
    rewrite E2. pose proof (words_ok_bit (pack l) l (Z.of_nat i) (words_ok_pack l) ltac:(lia)) as X.
    unfold W in X. replace (Z.of_nat i / 64 <? 0) with false in X by dlia. 
    replace (Z.to_nat (Z.of_nat i / 64)) with (i / 64)%nat in X by (rewrite Z2Nat.inj_div, Nat2Z.id by lia; reflexivity). rewrite X.
    unfold zbit. replace (Z.of_nat i <? 0) with false by lia. rewrite Nat2Z.id. reflexivity.
Qed.
