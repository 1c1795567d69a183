(** Property C97: default-constructed objects, as files and against objects built from nothing *)
From Verif Require Import Base Spec M_BitVector M_RsBitVector M_Darray M_EliasFano M_Gamma M_Bp M_Cartesian M_Topk M_Util M_Mapper S_BitVector S_Format S_Default P_Default.

(** C97: the file of a default object is zero behind the flags, and such a file is mapped to the default object *)
Theorem C97_zeros_partial : (forall k signed, 0 < k -> image_is (vec_map k signed) [] (zeros 8)) /\
  image_is bv_map bv_empty (zeros 16) /\ image_is rs_map rs_empty (zeros 40) /\ image_is da_map darray_empty (zeros 32) /\
  image_is d64_map (mk_d64 0 bv_empty [] []) (zeros 40) /\ image_is gamma_map gamma_default (zeros 56) /\ image_is nv_map nv_default (zeros 16).
Proof. exact default_zeros. Qed.
Print Assumptions C97_zeros_partial.
Example C97_zeros_ex : freeze (layout_of nv_map) (data_of nv_map nv_default) 7 = (7 :: zeros 23, 24) /\
  map_at false 0 ([9] ++ 7 :: zeros 23) (layout_of nv_map) 1 = Ok (data_of nv_map nv_default, 24).
Proof. vm_compute. auto. Qed.

(** C97 is false for the other classes: the file holds whatever an uninitialised member held *)
Theorem C97_uninit_refuted : (forall n, 0 <= n < 2 ^ 64 ->
  image_is bp_map (bp_default n) (zeros 40 ++ le 8 n ++ zeros 16) /\ image_is ct_map (ct_default n) (zeros 40 ++ le 8 n ++ zeros 16) /\
  image_is tk_map (tk_default n) (zeros 48 ++ le 8 n ++ zeros 16)) /\
  (forall l, 0 <= l < 256 -> image_is ef_map (ef_empty l) (zeros 104 ++ [l]) /\ image_is efl_map (ef_empty l) (zeros 104 ++ [l]) /\
  image_is efc_map (mk_efc (ef_empty l) bv_empty) (zeros 104 ++ [l] ++ zeros 16)).
Proof. exact default_uninit. Qed.
Print Assumptions C97_uninit_refuted.
Example C97_uninit_ex : 0 <= 258 < 2 ^ 64 /\ 0 <= 200 < 256 /\
  freeze (layout_of bp_map) (data_of bp_map (bp_default 258)) 1 = (1 :: zeros 47 ++ [2; 1] ++ zeros 22, 72) /\
  nth 112 (fst (freeze (layout_of ef_map) (data_of ef_map (ef_empty 200)) 1)) 0 = 200.
Proof. vm_compute. intuition congruence. Qed.

(** C97: the default objects that equal those built from nothing *)
Theorem C97_same_partial : bv_range [] = bv_empty /\ (forall init, (do b <- new_builder 0 init; bv_of_builder b) = Ok bv_empty) /\
  (forall neg, darray_build neg bv_empty = Ok darray_empty) /\ d64_build d64_new = Ok (mk_d64 0 bv_empty [] []).
Proof. exact default_same. Qed.
Print Assumptions C97_same_partial.
Example C97_same_ex : bv_range [true] <> bv_empty /\ darray_build true (bv_range [false]) <> Ok darray_empty.
Proof. split; vm_compute; discriminate. Qed.

(** C97 is false for rs_bit_vector and bp_vector *)
Theorem C97_bits_refuted : forall hints hints0, exists rs, rs_build bv_empty hints hints0 = Ok rs /\ num_ones rs = Ok 0 /\ num_ones rs_empty = Ub OutOfBounds /\
  forall u, exists bp, bp_build u bv_empty hints hints0 = Ok bp /\ forall n, bp <> bp_default n.
Proof. exact default_differs_bits. Qed.
Print Assumptions C97_bits_refuted.
Example C97_bits_ex : (do rs <- rs_build bv_empty true false; Ok (rs_pairs rs, rs_hints rs)) = Ok ([0; 0], [0]) /\ rs_pairs rs_empty = [].
Proof. vm_compute. auto. Qed.

(** C97 is false for the lists and elias_fano: other sizes, other sums, and rank(0) stops at an assertion *)
Theorem C97_lists_refuted : forall gr,
  (exists g, gv_build gr [] = Ok g /\ gamma_size g = 0 /\ gamma_size gamma_default <> 0) /\
  (exists g, gb_build gr [] = Ok g /\ gamma_size g = 0) /\
  (exists ef, (do b <- ef_builder_new gr 0 0; ef_build b true) = Ok ef /\ ef_rank ef 0 = Ok 0 /\ forall l, ef_rank (ef_empty l) 0 = Ub AssertFailed) /\
  (exists c, efl_build gr [] = Ok c /\ efl_sum c = 0 /\ forall l, efl_sum (ef_empty l) <> 0) /\
  (exists c, efc_build gr [] = Ok c /\ efc_size c = 0 /\ forall l, efc_size (mk_efc (ef_empty l) bv_empty) <> 0).
Proof. exact default_differs_lists. Qed.
Print Assumptions C97_lists_refuted.
Example C97_lists_ex : (do g <- gv_build (fun c _ => 2 * c) []; Ok (d64_num_ones (g_high g), gamma_size g)) = Ok (1, 0) /\ gamma_size gamma_default = 2 ^ 64 - 1.
Proof. vm_compute. auto. Qed.

(** C97 is false for cartesian_tree and topk_vector *)
Theorem C97_trees_refuted : forall T (lt : T -> T -> bool) gr u,
  (exists ct, ct_build gr u lt 0 [] = Ok ct /\ ct_size ct = 0 /\ forall n, ct_size (ct_default n) <> 0) /\
  (exists tk, tk_build gr u lt [] = Ok tk /\ forall n, tk <> tk_default n).
Proof. exact default_differs_trees. Qed.
Print Assumptions C97_trees_refuted.
Example C97_trees_ex : (do ct <- ct_build (fun c _ => 2 * c) 5 Z.ltb 0 []; Ok (ct_size ct, bp_size ct)) = Ok (0, 2) /\ bp_size (ct_default 5) = 0.
Proof. vm_compute. auto. Qed.
