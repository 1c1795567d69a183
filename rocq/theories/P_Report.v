(** The size trees of the structures. *)
From Coq Require Import Strings.String.
From Verif Require Import Base Spec Lib M_BitVector M_RsBitVector M_Darray M_EliasFano M_Gamma M_Util M_Bp M_Topk M_Mapper S_Mapper P_Mapper S_Report.
From Coq Require Import Lia.

Lemma reported_nodes {A} (M : mappable A) report : (forall x nm, nodes (layout_of M) (data_of M x) nm = [report nm x]) ->
  (forall x nm, frozen_size (layout_of M) (data_of M x) = size_at (report nm x)) -> reported M report.
Proof.
  intros HN HF x nm Ht Hb. destruct (size_of_ok M x 0 nm Ht Hb ltac:(lia)) as (_ & _ & S & T). rewrite HN in T. rewrite <- (HF x nm). auto.
Qed.

Lemma all_reported :
  (forall k signed, reported (vec_map k signed) (fun nm => vector nm k)) /\
  reported bv_map bv_report /\ reported rs_map rs_report /\ reported bp_map bp_report /\ reported ct_map ct_report /\
  reported da_map da_report /\ reported d64_map d64_report /\ reported ef_map ef_report /\ reported efl_map efl_report /\
  reported efc_map efc_report /\ reported gamma_map gamma_report /\ reported nv_map nv_report /\ reported tk_map tk_report.
Proof.
  split; [intros k signed|repeat match goal with |- _ /\ _ => split end]; apply reported_nodes; intros x nm;
  unfold tk_report, nv_report, gamma_report, efc_report, efl_report, ef_report, d64_report, da_report, ct_report, bp_report, rs_report, bv_report, bp_kids, rs_kids, bv_kids, class, vector;
  cbn -[Z.add Z.mul];
  repeat match goal with |- @eq Z _ _ => lia | |- _ :: _ = _ :: _ => f_equal | |- Node _ _ _ = Node _ _ _ => f_equal | |- ?a = ?a => reflexivity end.
Qed.
