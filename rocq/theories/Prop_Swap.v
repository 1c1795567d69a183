(** C55: swap and dispose. *)
From Verif Require Import Base M_BitVector M_RsBitVector M_Darray M_EliasFano M_Gamma M_Util M_Bp M_Topk M_Swap S_Swap P_Swap.

(** cartesian_tree is represented by its bp_vector and elias_fano_list by its elias_fano *)
Theorem C55_swap : exchanges bv_swap /\ exchanges rs_swap /\ exchanges bp_swap /\ exchanges da_swap /\ exchanges d64_swap /\
  exchanges ef_swap /\ exchanges efc_swap /\ exchanges gamma_swap /\ exchanges nv_swap /\
  (forall T, exchanges (@tk_swap T)) /\ (forall T V, exchanges (@te_swap T V)).
Proof. exact all_swaps. Qed.
Print Assumptions C55_swap.
Example C55_swap_ex : bp_swap (mk_bp (mk_rs (mk_bv 3 [5]) [0; 4] [1] [2]) 1 [-1] [0; -2]) (bp_default 7) =
  (bp_default 7, mk_bp (mk_rs (mk_bv 3 [5]) [0; 4] [1] [2]) 1 [-1] [0; -2]).
Proof. reflexivity. Qed.

Theorem C55_dispose : (forall v, dispose bv_swap bv_empty v = bv_empty) /\ (forall v, dispose rs_swap rs_empty v = rs_empty) /\
  (forall n v, dispose bp_swap (bp_default n) v = bp_default n) /\ (forall l v, dispose ef_swap (ef_empty l) v = ef_empty l) /\
  (forall l v, dispose efc_swap (mk_efc (ef_empty l) bv_empty) v = mk_efc (ef_empty l) bv_empty) /\
  (forall v, dispose gamma_swap gamma_default v = gamma_default) /\ (forall v, dispose nv_swap nv_default v = nv_default) /\
  (forall T n v, dispose (@tk_swap T) (tk_default n) v = tk_default n).
Proof. exact dispose_ok. Qed.
Print Assumptions C55_dispose.
Example C55_dispose_ex : dispose nv_swap nv_default (mk_nv 3 [33; 4]) = nv_default.
Proof. reflexivity. Qed.
