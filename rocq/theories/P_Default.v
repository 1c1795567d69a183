(** Proofs for property C97: default-constructed objects *)
From Verif Require Import Base Spec Lib M_BitVector M_RsBitVector M_Darray M_EliasFano M_Gamma M_Bp M_Cartesian M_Topk M_Util M_Mapper
  S_BitVector S_Mapper S_Format S_Default P_BvLib P_Mapper P_Format.

Lemma image_fields {A} (M : mappable A) fields x bytes : formatted M fields -> typed (layout_of M) (data_of M x) ->
  8 + frozen_size (layout_of M) (data_of M x) < 2 ^ 64 -> concat (map field_bytes (fields x)) = bytes -> image_is M x bytes.
Proof.
  intros Hf Ht Hs Hb flags addr pre post Hfl. destruct (roundtrip M x flags addr pre post Ht Hs Hfl) as (bs & w & E & Hw & Hm).
  assert (Hz : zlen (le 8 flags ++ bytes) = 8 + zlen bytes) by (rewrite zlen_app; reflexivity).
  rewrite (Hf x flags Ht Hs) in E. unfold file in E. rewrite Hb, Hz in E. 
  assert (E1 : bs = le 8 flags ++ bytes) by congruence. assert (E2 : w = 8 + zlen bytes) by congruence. rewrite E1, E2, <- app_assoc in Hm. split; [|exact Hm].
  rewrite (Hf x flags Ht Hs). unfold file. rewrite Hb, Hz. reflexivity.
Qed.

Local Ltac typ := cbn; unfold in_type, zlen; cbn; repeat match goal with |- _ /\ _ => split | |- Forall _ [] => apply Forall_nil end; try exact I; try lia.
Local Ltac img F := eapply image_fields; [exact F|typ|first [reflexivity|cbn; lia]|reflexivity].

Lemma default_zeros : (forall k signed, 0 < k -> image_is (vec_map k signed) [] (zeros 8)) /\
  image_is bv_map bv_empty (zeros 16) /\ image_is rs_map rs_empty (zeros 40) /\ image_is da_map darray_empty (zeros 32) /\
  image_is d64_map (mk_d64 0 bv_empty [] []) (zeros 40) /\ image_is gamma_map gamma_default (zeros 56) /\ image_is nv_map nv_default (zeros 16).
Proof.
  destruct all_formatted as (Fv & Fb & Fr & Fp & Fc & Fd & F6 & Fe & Fl & Fec & Fg & Fn & Ft).
  split; [intros k sg Hk; eapply image_fields; [exact (Fv k sg Hk)|typ| |reflexivity]; cbn [layout_of data_of vec_map frozen_size]; change (zlen []) with 0; lia|].
  split; [img Fb|]. split; [img Fr|]. split; [img Fd|]. split; [img F6|]. split; [img Fg|img Fn].
Qed.

Lemma default_uninit : (forall n, 0 <= n < 2 ^ 64 ->
  image_is bp_map (bp_default n) (zeros 40 ++ le 8 n ++ zeros 16) /\ image_is ct_map (ct_default n) (zeros 40 ++ le 8 n ++ zeros 16) /\
  image_is tk_map (tk_default n) (zeros 48 ++ le 8 n ++ zeros 16)) /\
  (forall l, 0 <= l < 256 -> image_is ef_map (ef_empty l) (zeros 104 ++ [l]) /\ image_is efl_map (ef_empty l) (zeros 104 ++ [l]) /\
  image_is efc_map (mk_efc (ef_empty l) bv_empty) (zeros 104 ++ [l] ++ zeros 16)).
Proof.
  destruct all_formatted as (Fv & Fb & Fr & Fp & Fc & Fd & F6 & Fe & Fl & Fec & Fg & Fn & Ft).
  split; [intros n Hn; split; [img Fp|split; [img Fc|img Ft]]|].
  intros l Hl.
  assert (E : le 1 l = [l]). { unfold le. cbn [seq map Z.of_nat]. rewrite Z.pow_0_r, Z.div_1_r, Z.mod_small by lia. reflexivity. }
  split; [|split].
  - eapply image_fields; [exact Fe|typ|reflexivity|].
    unfold ef_fields. cbn [ef_l ef_empty]. rewrite !map_app, !concat_app. cbn [map concat field_bytes]. rewrite E. reflexivity.
  - eapply image_fields; [exact Fl|typ|reflexivity|].
    unfold ef_fields. cbn [ef_l ef_empty]. rewrite !map_app, !concat_app. cbn [map concat field_bytes]. rewrite E. reflexivity.
  - eapply image_fields; [exact Fec|typ|reflexivity|].
    unfold efc_fields, ef_fields. cbn [ef_l ef_empty efc_ef]. rewrite !map_app, !concat_app. cbn [map concat field_bytes]. rewrite E. reflexivity.
Qed.

Lemma default_same : bv_range [] = bv_empty /\ (forall init, (do b <- new_builder 0 init; bv_of_builder b) = Ok bv_empty) /\
  (forall neg, darray_build neg bv_empty = Ok darray_empty) /\ d64_build d64_new = Ok (mk_d64 0 bv_empty [] []).
Proof. split; [reflexivity|]. split; [intros []; reflexivity|]. split; [intros []; reflexivity|reflexivity]. Qed.

Lemma default_differs_bits : forall hints hints0, exists rs, rs_build bv_empty hints hints0 = Ok rs /\ num_ones rs = Ok 0 /\ num_ones rs_empty = Ub OutOfBounds /\
  forall u, exists bp, bp_build u bv_empty hints hints0 = Ok bp /\ forall n, bp <> bp_default n.
Proof.
  intros [] []; (eexists; split; [vm_compute; reflexivity|]; split; [reflexivity|]; split; [reflexivity|];
    intros u; eexists; split; [vm_compute; reflexivity|intros n; discriminate]).
Qed.

Lemma default_differs_lists : forall gr,
  (exists g, gv_build gr [] = Ok g /\ gamma_size g = 0 /\ gamma_size gamma_default <> 0) /\
  (exists g, gb_build gr [] = Ok g /\ gamma_size g = 0) /\
  (exists ef, (do b <- ef_builder_new gr 0 0; ef_build b true) = Ok ef /\ ef_rank ef 0 = Ok 0 /\ forall l, ef_rank (ef_empty l) 0 = Ub AssertFailed) /\
  (exists c, efl_build gr [] = Ok c /\ efl_sum c = 0 /\ forall l, efl_sum (ef_empty l) <> 0) /\
  (exists c, efc_build gr [] = Ok c /\ efc_size c = 0 /\ forall l, efc_size (mk_efc (ef_empty l) bv_empty) <> 0).
Proof.
  intros gr. split; [eexists; split; [vm_compute; reflexivity|split; [reflexivity|discriminate]]|].
  split; [eexists; split; [vm_compute; reflexivity|reflexivity]|].
  split; [eexists; split; [vm_compute; reflexivity|split; [reflexivity|]]|].
  { intros l. reflexivity. }
  split; (eexists; split; [vm_compute; reflexivity|split; [reflexivity|intros l; discriminate]]).
Qed.

Lemma default_differs_trees : forall T (lt : T -> T -> bool) gr u, 
  (exists ct, ct_build gr u lt 0 [] = Ok ct /\ ct_size ct = 0 /\ forall n, ct_size (ct_default n) <> 0) /\
  (exists tk, tk_build gr u lt [] = Ok tk /\ forall n, tk <> tk_default n).
Proof.
  intros T lt gr u. split; (eexists; split; [vm_compute; reflexivity|]); [split; [reflexivity|intros n; discriminate]|intros n; discriminate].
Qed.
