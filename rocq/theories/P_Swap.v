(** Proofs for M_Swap. *)
From Verif Require Import Base M_BitVector M_RsBitVector M_Darray M_EliasFano M_Gamma M_Util M_Bp M_Topk M_Swap S_Swap.

Lemma bv_swap_ok : exchanges bv_swap.
Proof. intros [] []. reflexivity. Qed.
Lemma rs_swap_ok : exchanges rs_swap.
Proof. intros [[] ? ? ?] [[] ? ? ?]. reflexivity. Qed.
Lemma bp_swap_ok : exchanges bp_swap.
Proof. intros a b. unfold bp_swap, exchange. rewrite rs_swap_ok. destruct a, b. reflexivity. Qed.
Lemma da_swap_ok : exchanges da_swap.
Proof. intros [] []. reflexivity. Qed.
Lemma d64_swap_ok : exchanges d64_swap.
Proof. intros [? [] ? ?] [? [] ? ?]. reflexivity. Qed.
Lemma ef_swap_ok : exchanges ef_swap.
Proof. intros a b. unfold ef_swap, exchange. rewrite !bv_swap_ok, !da_swap_ok. destruct a, b. reflexivity. Qed.
Lemma efc_swap_ok : exchanges efc_swap.
Proof. intros a b. unfold efc_swap, exchange. rewrite ef_swap_ok, bv_swap_ok. destruct a, b. reflexivity. Qed.
Lemma gamma_swap_ok : exchanges gamma_swap.
Proof. intros a b. unfold gamma_swap, exchange. rewrite d64_swap_ok, bv_swap_ok. destruct a, b. reflexivity. Qed.
Lemma nv_swap_ok : exchanges nv_swap.
Proof. intros [] []. reflexivity. Qed.
Lemma tk_swap_ok T : exchanges (@tk_swap T).
Proof. intros a b. unfold tk_swap, exchange. rewrite bp_swap_ok. destruct a, b. reflexivity. Qed.
Lemma te_swap_ok T V : exchanges (@te_swap T V).
Proof. intros [? []] [? []]. reflexivity. Qed.

Lemma all_swaps : exchanges bv_swap /\ exchanges rs_swap /\ exchanges bp_swap /\ exchanges da_swap /\ exchanges d64_swap /\
  exchanges ef_swap /\ exchanges efc_swap /\ exchanges gamma_swap /\ exchanges nv_swap /\
  (forall T, exchanges (@tk_swap T)) /\ (forall T V, exchanges (@te_swap T V)).
Proof.
  repeat apply conj; [apply bv_swap_ok|apply rs_swap_ok|apply bp_swap_ok|apply da_swap_ok|apply d64_swap_ok|apply ef_swap_ok|
    apply efc_swap_ok|apply gamma_swap_ok|apply nv_swap_ok|apply tk_swap_ok|apply te_swap_ok].
Qed.

Lemma dispose_ok : (forall v, dispose bv_swap bv_empty v = bv_empty) /\ (forall v, dispose rs_swap rs_empty v = rs_empty) /\
  (forall n v, dispose bp_swap (bp_default n) v = bp_default n) /\ (forall l v, dispose ef_swap (ef_empty l) v = ef_empty l) /\
  (forall l v, dispose efc_swap (mk_efc (ef_empty l) bv_empty) v = mk_efc (ef_empty l) bv_empty) /\
  (forall v, dispose gamma_swap gamma_default v = gamma_default) /\ (forall v, dispose nv_swap nv_default v = nv_default) /\
  (forall T n v, dispose (@tk_swap T) (tk_default n) v = tk_default n).
Proof.
  unfold dispose. repeat apply conj; intros;
    rewrite ?bv_swap_ok, ?rs_swap_ok, ?bp_swap_ok, ?ef_swap_ok, ?efc_swap_ok, ?gamma_swap_ok, ?nv_swap_ok, ?tk_swap_ok; reflexivity.
Qed.
