(** Proofs for C105 *)
From Verif Require Import Base Spec Lib M_BitVector M_RsBitVector M_Darray M_EliasFano M_Gamma M_Util M_Bp M_Cartesian M_Topk M_Mapper
  S_Mapper S_Align P_Mapper P_Align M_Archive S_Archive.

Lemma archive strict addr : forall os pre post, freezable os ->
  snd (freeze_all os) = zlen (fst (freeze_all os)) /\
  map_all strict addr (pre ++ fst (freeze_all os) ++ post) (map (fun o => fst (fst o)) os) (zlen pre) =
  if negb strict || all_aligned os (addr + zlen pre) then Ok (map (fun o => snd (fst o)) os, snd (freeze_all os)) else Ub Misaligned.
Proof.
  induction os as [|[[l d] flags] os IH]; intros pre post F.
  { cbn. rewrite orb_true_r. auto. }
  pose proof (Forall_inv F) as (T & B & Hf). pose proof (Forall_inv_tail F) as F'. cbn [freeze_all map fst snd map_all all_aligned].
  destruct (freeze_map_gen strict addr l d flags pre (fst (freeze_all os) ++ post) T B Hf) as (E1 & E2 & E).
  destruct (freeze l d flags) as [bytes written]. cbn [fst snd] in *.
  destruct (IH (pre ++ bytes) post F') as (S & R). destruct (freeze_all os) as [rest sum]. cbn [fst snd] in *.
  split; [rewrite zlen_app; lia|]. rewrite <- app_assoc, E.
  rewrite <- app_assoc, zlen_app in R.
  replace (addr + (zlen pre + zlen bytes)) with (addr + zlen pre + 8 + frozen_size l d) in R by lia.
  replace (zlen pre + zlen bytes) with (zlen pre + written) in R by lia.
  destruct (negb strict || _) eqn:A.
  - cbn [bind]. rewrite R. destruct strict; cbn [negb orb] in *; [rewrite A; cbn [andb]; destruct (all_aligned _ _)|]; reflexivity.
  - destruct strict; cbn [negb orb] in *; [rewrite A; reflexivity|discriminate].
Qed.

Lemma rs_fs rs : frozen_size (layout_of rs_map) (data_of rs_map rs) =
  40 + 8 * (zlen (bv_words (rs_bv rs)) + zlen (rs_pairs rs) + zlen (rs_hints rs) + zlen (rs_hints0 rs)).
Proof. unfold rs_map, rs_members, rs_datas, bv_members, bv_datas. cbn [layout_of data_of app_members app_datas frozen_size frozen_sizes]. lia. Qed.
Lemma bp_fs bp : frozen_sizes bp_members (bp_datas bp) =
  64 + 8 * (zlen (bv_words (rs_bv (bp_rs bp))) + zlen (rs_pairs (bp_rs bp)) + zlen (rs_hints (bp_rs bp)) + zlen (rs_hints0 (bp_rs bp))) +
  2 * zlen (bp_block_excess_min bp) + 4 * zlen (bp_superblock_excess_min bp).
Proof. unfold bp_members, bp_datas, rs_members, rs_datas, bv_members, bv_datas. cbn [layout_of data_of app_members app_datas frozen_size frozen_sizes]. lia. Qed.
Lemma d64_size d : frozen_size (layout_of d64_map) (data_of d64_map d) = 40 + 8 * (zlen (bv_words (d64_bits d)) + zlen (d64_blocks d)) + 2 * zlen (d64_subs d).
Proof. unfold d64_map, bv_map, bv_members, bv_datas. cbn [layout_of data_of app_members app_datas frozen_size frozen_sizes]. lia. Qed.

Lemma div8 a k m : a = 8 * k + m -> (a mod 8 =? 0) = (m mod 8 =? 0).
Proof. intros ->. rewrite Z.add_comm, (Z.mul_comm 8), Z_mod_plus_full. reflexivity. Qed.
Lemma mod_half a b : a = 2 * b -> (a mod 8 =? 0) = (b mod 4 =? 0).
Proof.
  intros ->. change 8 with (2 * 4). rewrite Zmult_mod_distr_l. destruct (Z.eqb_spec (b mod 4) 0) as [->|N]; [reflexivity|].
  apply Z.eqb_neq. lia.
Qed.
Lemma odd8 k : ((2 * k + 1) mod 8 =? 0) = false.
Proof. apply Z.eqb_neq. intros C. apply Z.mod_divide in C; [|lia]. destruct C as (c & C). lia. Qed.

Lemma word_sizes :
  whole_words bv_map (fun _ => true) /\ whole_words rs_map (fun _ => true) /\
  whole_words nv_map (fun v => zlen (nv_nibbles v) mod 8 =? 0) /\
  whole_words da_map (fun d => fills (zlen (da_subs d))) /\
  whole_words d64_map (fun d => fills (zlen (d64_subs d))) /\
  whole_words gamma_map (fun g => fills (zlen (d64_subs (g_high g)))) /\
  whole_words bp_map (fun bp => fills (zlen (bp_block_excess_min bp) + 2 * zlen (bp_superblock_excess_min bp))) /\
  whole_words ct_map (fun bp => fills (zlen (bp_block_excess_min bp) + 2 * zlen (bp_superblock_excess_min bp))) /\
  whole_words tk_map (fun tk => fills (zlen (bp_block_excess_min (tk_tree tk)) + 2 * zlen (bp_superblock_excess_min (tk_tree tk)))) /\
  whole_words ef_map (fun _ => false) /\ whole_words efl_map (fun _ => false) /\ whole_words efc_map (fun _ => false).
Proof.
  unfold whole_words, fills. repeat apply conj.
  - intros x. rewrite bv_frozen. rewrite (div8 _ (2 + zlen (bv_words x)) 0) by lia. reflexivity.
  - intros x. rewrite rs_fs. rewrite (div8 _ (5 + (zlen (bv_words (rs_bv x)) + zlen (rs_pairs x) + zlen (rs_hints x) + zlen (rs_hints0 x))) 0) by lia. reflexivity.
  - intros x. unfold nv_map. cbn [layout_of data_of frozen_size frozen_sizes]. apply (div8 _ 2). lia.
  - intros x. rewrite da_frozen. rewrite (div8 _ (4 + zlen (da_blocks x) + zlen (da_ovf x)) (2 * zlen (da_subs x))) by lia. apply mod_half. auto.
  - intros x. rewrite d64_size. rewrite (div8 _ (5 + (zlen (bv_words (d64_bits x)) + zlen (d64_blocks x))) (2 * zlen (d64_subs x))) by lia. apply mod_half. auto.
  - intros x. change (frozen_size (layout_of gamma_map) (data_of gamma_map x)) with
      (frozen_size (layout_of d64_map) (data_of d64_map (g_high x)) + (frozen_size (layout_of bv_map) (data_of bv_map (g_low x)) + 0)).
    rewrite d64_size, bv_frozen.
    rewrite (div8 _ (7 + (zlen (bv_words (d64_bits (g_high x))) + zlen (d64_blocks (g_high x))) + zlen (bv_words (g_low x))) (2 * zlen (d64_subs (g_high x)))) by lia.
    apply mod_half. auto.
  - intros x. change (frozen_size (layout_of bp_map) (data_of bp_map x)) with (frozen_sizes bp_members (bp_datas x)). rewrite bp_fs.
    rewrite (div8 _ (8 + (zlen (bv_words (rs_bv (bp_rs x))) + zlen (rs_pairs (bp_rs x)) + zlen (rs_hints (bp_rs x)) + zlen (rs_hints0 (bp_rs x))))
      (2 * (zlen (bp_block_excess_min x) + 2 * zlen (bp_superblock_excess_min x)))) by lia. apply mod_half. auto.
  - intros x. change (frozen_size (layout_of ct_map) (data_of ct_map x)) with (frozen_sizes bp_members (bp_datas x) + 0). rewrite bp_fs.
    rewrite (div8 _ (8 + (zlen (bv_words (rs_bv (bp_rs x))) + zlen (rs_pairs (bp_rs x)) + zlen (rs_hints (bp_rs x)) + zlen (rs_hints0 (bp_rs x))))
      (2 * (zlen (bp_block_excess_min x) + 2 * zlen (bp_superblock_excess_min x)))) by lia. apply mod_half. auto.
  - intros tk. change (frozen_size (layout_of tk_map) (data_of tk_map tk)) with (8 + 8 * zlen (tk_v tk) + ((frozen_sizes bp_members (bp_datas (tk_tree tk)) + 0) + 0)). rewrite bp_fs.
    set (x := tk_tree tk).
    rewrite (div8 _ (9 + zlen (tk_v tk) + (zlen (bv_words (rs_bv (bp_rs x))) + zlen (rs_pairs (bp_rs x)) + zlen (rs_hints (bp_rs x)) + zlen (rs_hints0 (bp_rs x))))
      (2 * (zlen (bp_block_excess_min x) + 2 * zlen (bp_superblock_excess_min x)))) by lia. apply mod_half. auto.
  - intros x. destruct (ef_frozen x) as (k & ->). apply odd8.
  - intros x. change (frozen_size (layout_of efl_map) (data_of efl_map x)) with (frozen_size (layout_of ef_map) (data_of ef_map x) + 0).
    destruct (ef_frozen x) as (k & ->). rewrite Z.add_0_r. apply odd8.
  - intros x. destruct (ef_frozen (efc_ef x)) as (k & E). pose proof (bv_frozen (efc_bits x)) as E2.
    change (frozen_size (layout_of efc_map) (data_of efc_map x)) with
      (frozen_size (layout_of ef_map) (data_of ef_map (efc_ef x)) + (frozen_size (layout_of bv_map) (data_of bv_map (efc_bits x)) + 0)).
    rewrite E, E2. replace (2 * k + 1 + (16 + 8 * zlen (bv_words (efc_bits x)) + 0)) with (2 * (k + 8 + 4 * zlen (bv_words (efc_bits x))) + 1) by lia. apply odd8.
Qed.

Lemma behind l d flags o os addr pre post : freezable ((l, d, flags) :: o :: os) -> (frozen_size l d mod 8 =? 0) = false ->
  map_all true addr (pre ++ fst (freeze_all ((l, d, flags) :: o :: os)) ++ post) (map (fun o => fst (fst o)) ((l, d, flags) :: o :: os)) (zlen pre) =
  Ub Misaligned.
Proof.
  intros F S. rewrite (proj2 (archive true addr _ pre post F)). destruct o as [[l' d'] f']. cbn [negb orb all_aligned].
  destruct (Z.eqb_spec ((addr + zlen pre) mod 8) 0) as [A|]; [|reflexivity].
  replace ((addr + zlen pre + 8 + frozen_size l d) mod 8 =? 0) with false; [cbn [andb]; rewrite andb_false_r; reflexivity|].
  rewrite <- S. symmetry.
  apply Z.mod_divide in A; [|lia]. destruct A as (k & A). apply (div8 _ (k + 1)). lia.
Qed.

Lemma ef_behind ef flags o os addr pre post : freezable ((layout_of ef_map, data_of ef_map ef, flags) :: o :: os) ->
  let os := (layout_of ef_map, data_of ef_map ef, flags) :: o :: os in
  map_all true addr (pre ++ fst (freeze_all os) ++ post) (map (fun o => fst (fst o)) os) (zlen pre) = Ub Misaligned.
Proof. intros F. cbv zeta. apply behind; [exact F|]. destruct (ef_frozen ef) as (k & ->). apply odd8. Qed.

Lemma words_behind os addr pre post : freezable os ->
  Forall words_object os ->
  (addr + zlen pre) mod 8 = 0 ->
  map_all true addr (pre ++ fst (freeze_all os) ++ post) (map (fun o => fst (fst o)) os) (zlen pre) =
  Ok (map (fun o => snd (fst o)) os, snd (freeze_all os)).
Proof.
  intros F B A. rewrite (proj2 (archive true addr _ pre post F)). cbn [negb orb]. replace (all_aligned _ _) with true; [reflexivity|].
  symmetry. clear F. set (pos := addr + zlen pre) in *. clearbody pos. revert pos A. induction B as [|o os B _ IH]; intros pos A; [reflexivity|].
  destruct word_sizes as (W1 & W2 & _). destruct vec_bv_rs_aligned as (V1 & V2 & _).
  assert (P8 : (pos + 8) mod 8 = 0) by (apply (mod8 pos 1); auto).
  destruct B as [(bv & flags & ->)|(rs & flags & ->)]; cbn [all_aligned]; rewrite A; [rewrite V1 by auto|rewrite V2 by auto]; cbn [Z.eqb andb];
    apply IH, mod8_add; auto; apply Z.eqb_eq; [apply W1|apply W2].
Qed.
