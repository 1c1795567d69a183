From Verif Require Import Base Spec Lib M_BitVector M_RsBitVector M_Darray M_EliasFano M_Gamma M_Util M_Bp M_Cartesian M_Topk M_Mapper.
From Verif Require Import S_BitVector S_Mapper S_Align P_Mapper.

Lemma aligned_iff_of {A} (M : mappable A) ok :
  (forall x pos, pos mod 8 = 0 -> aligned (layout_of M) (data_of M x) pos = ok x) -> aligned_iff M ok.
Proof.
  intros HA x flags addr post H Hb Hf Ha. destruct (freeze_map_gen true addr _ _ flags [] post H Hb Hf) as (_ & _ & E). cbv zeta in E.
  destruct (freeze _ _ flags) as [bytes written]. cbn [fst snd app negb orb] in *. rewrite zlen_nil, Z.add_0_r in E.
  rewrite HA in E. 2:{ apply (mod8 addr 1). auto. } rewrite Ha in E. cbn in E. eauto.
Qed.

Lemma half pos n : pos mod 8 = 0 -> ((pos + (8 + 2 * n)) mod 8 =? 0) = fills n.
Proof.
  intros H. unfold fills. apply Z.mod_divide in H; [|lia]. destruct H as (k & ->).
  destruct (Z.eqb_spec (n mod 4) 0) as [E|E].
  - apply Z.eqb_eq. apply Z.mod_divide in E; [|lia]. destruct E as (j & ->). apply Z.mod_divide; [lia|]. exists (k + 1 + j). lia.
  - apply Z.eqb_neq. intros C. apply E. apply Z.mod_divide in C; [|lia]. destruct C as (j & C). apply Z.mod_divide; [lia|]. exists (j - 1 - k). lia.
Qed.
Lemma half_mod n : fills n = true -> (8 + 2 * n) mod 8 = 0.
Proof. intros H. apply Z.eqb_eq. rewrite <- (half 0 n eq_refl) in H. exact H. Qed.
Lemma vec8 (xs : list Z) : (8 + 8 * zlen xs) mod 8 = 0.
Proof. apply mod8_add; [reflexivity|apply mod8_mul]. Qed.
Lemma even_pos pos : pos mod 8 = 0 -> pos mod 2 = 0.
Proof. intros H. apply Z.mod_divide in H; [|lia]. destruct H as (k & ->). apply Z.mod_divide; [lia|]. exists (k * 4). lia. Qed.
Lemma quad_pos pos : pos mod 8 = 0 -> pos mod 4 = 0.
Proof. intros H. apply Z.mod_divide in H; [|lia]. destruct H as (k & ->). apply Z.mod_divide; [lia|]. exists (k * 2). lia. Qed.

Lemma pod8 pos x sg : pos mod 8 = 0 -> aligned (LPod 8 sg) (DPod x) pos = true.
Proof. intros H. cbn [aligned]. rewrite H. reflexivity. Qed.
Lemma vec8_al pos xs sg : pos mod 8 = 0 -> aligned (LVec 8 sg) (DVec xs) pos = true.
Proof. intros H. cbn [aligned]. rewrite H, (mod8_add pos 8 H eq_refl). rewrite orb_true_r. reflexivity. Qed.
Lemma vec2_al pos xs sg : pos mod 8 = 0 -> aligned (LVec 2 sg) (DVec xs) pos = true.
Proof. intros H. cbn [aligned]. rewrite H, (even_pos (pos + 8)), orb_true_r; [reflexivity|]. apply mod8_add; auto. Qed.
Lemma vec4_al pos xs sg : pos mod 8 = 0 -> aligned (LVec 4 sg) (DVec xs) pos = true.
Proof. intros H. cbn [aligned]. rewrite H, (quad_pos (pos + 8)), orb_true_r; [reflexivity|]. apply mod8_add; auto. Qed.
Lemma bv_al bv pos : pos mod 8 = 0 -> aligned (layout_of bv_map) (data_of bv_map bv) pos = true.
Proof. apply (proj1 vec_bv_rs_aligned). Qed.
Lemma bv_fs bv : frozen_size (layout_of bv_map) (data_of bv_map bv) mod 8 = 0.
Proof. rewrite bv_frozen. apply mod8_add; [reflexivity|apply mod8_mul]. Qed.
(** a word vector at an address that is not aligned *)
Lemma vec8_un pos xs sg : (pos mod 8 =? 0) = false -> aligned (LVec 8 sg) (DVec xs) pos = false.
Proof. intros H. cbn [aligned]. rewrite H. reflexivity. Qed.
Lemma pod8_un pos x sg : (pos mod 8 =? 0) = false -> aligned (LPod 8 sg) (DPod x) pos = false.
Proof. intros H. exact H. Qed.

Lemma da_al d pos : pos mod 8 = 0 -> aligned (layout_of da_map) (data_of da_map d) pos = fills (zlen (da_subs d)).
Proof.
  intros H. cbn [da_map layout_of data_of]. cbn [aligned aligned_members frozen_size].
  change (aligned_members MNil DNil) with (fun _ : Z => true). cbv beta.
  assert (H1 : (pos + 8) mod 8 = 0) by (apply mod8_add; auto).
  assert (H2 : (pos + 8 + (8 + 8 * zlen (da_blocks d))) mod 8 = 0) by (apply mod8_add; [auto|apply vec8]).
  rewrite H, H1, H2. rewrite (mod8_add _ 8 H1 eq_refl). rewrite (even_pos _ (mod8_add _ 8 H2 eq_refl)).
  rewrite (half _ _ H2). cbn [Z.eqb andb]. rewrite !orb_true_r. cbn [andb].
  destruct (fills (zlen (da_subs d))) eqn:F; [|reflexivity].
  rewrite (mod8_add _ 8 (mod8_add _ _ H2 (half_mod _ F)) eq_refl). cbn [Z.eqb]. rewrite orb_true_r. reflexivity.
Qed.
Lemma da_fs d : fills (zlen (da_subs d)) = true -> frozen_size (layout_of da_map) (data_of da_map d) mod 8 = 0.
Proof.
  intros F. rewrite da_frozen. replace (32 + 8 * zlen (da_blocks d) + 2 * zlen (da_subs d) + 8 * zlen (da_ovf d))
    with ((8 + 2 * zlen (da_subs d)) + 8 * (3 + zlen (da_blocks d) + zlen (da_ovf d))) by lia.
  apply mod8_add; [apply half_mod, F|apply mod8_mul].
Qed.
Lemma d64_fs d pos : pos mod 8 = 0 ->
  ((pos + frozen_size (layout_of d64_map) (data_of d64_map d)) mod 8 =? 0) = fills (zlen (d64_subs d)).
Proof.
  intros H. cbn [d64_map layout_of data_of frozen_size frozen_sizes]. pose proof (bv_frozen (d64_bits d)) as B.
  cbn [bv_map layout_of data_of frozen_size] in B. cbn [bv_map layout_of data_of frozen_size]. rewrite B.
  replace (pos + _) with (pos + 8 * (4 + zlen (bv_words (d64_bits d)) + zlen (d64_blocks d)) + (8 + 2 * zlen (d64_subs d))) by lia.
  apply half. apply mod8_add; [auto|apply mod8_mul].
Qed.
Lemma d64_al d pos : pos mod 8 = 0 -> aligned (layout_of d64_map) (data_of d64_map d) pos = true.
Proof.
  intros H. unfold d64_map. cbn [layout_of data_of aligned aligned_members].
  rewrite bv_al by (apply mod8_add; auto). assert (H1 : (pos + 8) mod 8 = 0) by (apply mod8_add; auto).
  assert (H2 : (pos + 8 + frozen_size (layout_of bv_map) (data_of bv_map (d64_bits d))) mod 8 = 0) by (apply mod8_add; [auto|apply bv_fs]).
  change (frozen_size uint64 (DPod (d64_num_ones d))) with 8.
  rewrite H, H2. cbn [frozen_size]. rewrite (mod8_add _ 8 H2 eq_refl).
  rewrite (mod8_add _ _ H2 (vec8 _)). rewrite (even_pos _ (mod8_add _ 8 (mod8_add _ _ H2 (vec8 (d64_blocks d))) eq_refl)).
  cbn [Z.eqb andb]. rewrite !orb_true_r. reflexivity.
Qed.
Lemma bv_un bv pos : (pos mod 8 =? 0) = false -> aligned (layout_of bv_map) (data_of bv_map bv) pos = false.
Proof. intros H. unfold bv_map. cbn [layout_of data_of bv_members bv_datas aligned aligned_members]. rewrite H. reflexivity. Qed.
Lemma gamma_al g pos : pos mod 8 = 0 -> aligned (layout_of gamma_map) (data_of gamma_map g) pos = fills (zlen (d64_subs (g_high g))).
Proof.
  intros H. unfold gamma_map. cbn [layout_of data_of]. cbn [aligned aligned_members]. rewrite d64_al by auto.
  pose proof (d64_fs (g_high g) pos H) as F. cbn [andb]. rewrite andb_true_r. destruct (fills _).
  - apply bv_al. lia.
  - apply bv_un, F.
Qed.
Lemma da_un d pos : (pos mod 8 =? 0) = false -> aligned (layout_of da_map) (data_of da_map d) pos = false.
Proof. intros H. unfold da_map. cbn [layout_of data_of aligned aligned_members]. rewrite H. reflexivity. Qed.
Lemma ef_al ef pos : pos mod 8 = 0 ->
  aligned (layout_of ef_map) (data_of ef_map ef) pos = fills (zlen (da_subs (ef_d1 ef))) && fills (zlen (da_subs (ef_d0 ef))).
Proof.
  intros H. unfold ef_map. cbn [layout_of data_of]. cbn [aligned aligned_members]. rewrite H.
  change (frozen_size uint64 (DPod (ef_size ef))) with 8. assert (H1 : (pos + 8) mod 8 = 0) by (apply mod8_add; auto).
  rewrite bv_al by auto. assert (H2 := mod8_add _ _ H1 (bv_fs (ef_high ef))). rewrite da_al by auto. cbn [Z.eqb andb].
  destruct (fills (zlen (da_subs (ef_d1 ef)))) eqn:F1; [|reflexivity]. cbn [andb].
  assert (H3 := mod8_add _ _ H2 (da_fs _ F1)). rewrite da_al by auto.
  destruct (fills (zlen (da_subs (ef_d0 ef)))) eqn:F0; [|reflexivity]. cbn [andb].
  assert (H4 := mod8_add _ _ H3 (da_fs _ F0)). rewrite bv_al by auto. rewrite Z.mod_1_r. reflexivity.
Qed.

Fixpoint fits (ms : members) (ds : datas) : bool :=
  match ms, ds with
  | MNil, DNil => true
  | MCons _ _ ms, DCons _ ds => fits ms ds
  | _, _ => false
  end.
Lemma app_al ms2 ds2 b : (forall p, p mod 8 = 0 -> aligned_members ms2 ds2 p = b) ->
  forall ms ds pos, words_members ms = true -> pos mod 8 = 0 -> fits ms ds = true ->
  aligned_members (app_members ms ms2) (app_datas ds ds2) pos = b.
Proof.
  intros H2. induction ms as [|nm l ms IH]; intros ds pos Hw Hp Ht; destruct ds as [|d ds]; cbn [fits] in Ht; try discriminate.
  - apply H2, Hp.
  - cbn [words_members] in Hw. apply andb_true_iff in Hw. destruct Hw as (W1 & W2). cbn [app_members app_datas aligned_members].
    destruct (proj1 words_aligned l W1 d pos Hp) as (A1 & S1). rewrite A1. cbn [andb]. apply IH; [auto|apply mod8_add; auto|exact Ht].
Qed.
Lemma bp_al bp pos : pos mod 8 = 0 ->
  aligned_members bp_members (bp_datas bp) pos = fills (zlen (bp_block_excess_min bp)).
Proof.
  intros H. unfold bp_members, bp_datas. apply app_al; [|reflexivity|exact H|reflexivity]. clear. intros p H.
  cbn [aligned_members]. rewrite pod8 by auto. cbn [frozen_size].
  assert (H1 : (p + 8) mod 8 = 0) by (apply mod8_add; auto). rewrite vec2_al by auto. cbn [andb]. rewrite andb_true_r.
  pose proof (half _ (zlen (bp_block_excess_min bp)) H1) as F.
  destruct (fills _).
  - apply vec4_al. lia.
  - cbn [aligned]. rewrite F. reflexivity.
Qed.

Lemma alignments :
  aligned_iff da_map (fun d => fills (zlen (da_subs d))) /\
  aligned_iff d64_map (fun _ => true) /\
  aligned_iff ef_map (fun ef => fills (zlen (da_subs (ef_d1 ef))) && fills (zlen (da_subs (ef_d0 ef)))) /\
  aligned_iff efl_map (fun ef => fills (zlen (da_subs (ef_d1 ef))) && fills (zlen (da_subs (ef_d0 ef)))) /\
  aligned_iff efc_map (fun _ => false) /\
  aligned_iff gamma_map (fun g => fills (zlen (d64_subs (g_high g)))) /\
  aligned_iff bp_map (fun bp => fills (zlen (bp_block_excess_min bp))) /\
  aligned_iff ct_map (fun bp => fills (zlen (bp_block_excess_min bp))) /\
  aligned_iff tk_map (fun tk => fills (zlen (bp_block_excess_min (tk_tree tk)))).
Proof.
  repeat match goal with |- _ /\ _ => split end; apply aligned_iff_of.
  - exact da_al.
  - exact d64_al.
  - exact ef_al.
  - intros x pos H. unfold efl_map. cbn [layout_of data_of]. change (aligned (layout_of ef_map) (data_of ef_map x) pos && true = fills (zlen (da_subs (ef_d1 x))) && fills (zlen (da_subs (ef_d0 x)))).
    rewrite andb_true_r. apply ef_al, H.
  - intros x pos H. unfold efc_map. cbn [layout_of data_of]. cbn [aligned aligned_members]. destruct (ef_frozen (efc_ef x)) as (k & Hk). rewrite Hk.
    rewrite bv_un, !andb_false_r; [reflexivity|]. apply Z.eqb_neq. intros C. apply Z.mod_divide in C; [|lia]. destruct C as (c & C).
    apply Z.mod_divide in H; [|lia]. destruct H as (a & H). lia.
  - exact gamma_al.
  - intros x pos H. unfold bp_map. cbn [layout_of data_of]. cbn [aligned]. apply bp_al, H.
  - intros x pos H. unfold ct_map. cbn [layout_of data_of]. change (aligned_members bp_members (bp_datas x) pos && true = fills (zlen (bp_block_excess_min x))).
    rewrite andb_true_r. apply bp_al, H.
  - intros x pos H. unfold tk_map, ct_map. cbn [layout_of data_of]. change (aligned vec_uint64 (DVec (tk_v x)) pos &&
      ((aligned_members bp_members (bp_datas (tk_tree x)) (pos + frozen_size vec_uint64 (DVec (tk_v x))) && true) && true) = fills (zlen (bp_block_excess_min (tk_tree x)))).
    rewrite vec8_al, !andb_true_r by auto. cbn [andb]. apply bp_al. apply mod8_add; [auto|apply vec8].
Qed.
