(** Proofs for C95 and C96 about M_NdRest *)
From Verif Require Import Base Lib M_Util M_LineIter M_AutoFile M_Mapper M_MVec M_Topk S_Nd M_Nd M_NdBp P_Nd P_NdBp M_NdRest.

Lemma nd_bl_increment_le : forall (buf : list Z) (it : bl_iter), le (bl_increment buf it) (nd_bl_increment buf it).
Proof. intros. unfold bl_increment, nd_bl_increment. le_go. Qed.
#[export] Hint Resolve nd_bl_increment_le : le.
Lemma nd_bl_new_le : forall (buf : list Z), le (bl_new buf) (nd_bl_new buf).
Proof. intros. unfold bl_new, nd_bl_new. le_go. Qed.
#[export] Hint Resolve nd_bl_new_le : le.
Lemma nd_bl_deref_le : forall (it : bl_iter), le (bl_deref it) (nd_bl_deref it).
Proof. intros. unfold bl_deref, nd_bl_deref. destruct (bl_pos it); le_go. Qed.
Lemma nd_bl_visit_le : forall (fuel : nat) (buf : list Z) (it : bl_iter), le (bl_visit fuel buf it) (nd_bl_visit fuel buf it).
Proof. induction fuel; intros; cbn [bl_visit nd_bl_visit]; le_go. Qed.
#[export] Hint Resolve nd_bl_visit_le : le.
Lemma nd_bl_lines_le : forall (buf : list Z), le (bl_lines buf) (nd_bl_lines buf).
Proof. intros. unfold bl_lines, nd_bl_lines. le_go. Qed.
Lemma nd_bl_step_le : forall (buf : list Z) (it : bl_iter), le (bl_step buf it) (nd_bl_step buf it).
Proof. intros. unfold bl_step, nd_bl_step. le_go. Qed.
#[export] Hint Resolve nd_bl_step_le : le.
Lemma nd_bl_walk_le : forall (fuel : nat) (buf : list Z) (it : bl_iter), le (bl_walk fuel buf it) (nd_bl_walk fuel buf it).
Proof. induction fuel; intros; cbn [bl_walk nd_bl_walk]; le_go. Qed.
#[export] Hint Resolve nd_bl_walk_le : le.
Lemma nd_bl_lines_strict_le : forall (buf : list Z), le (bl_lines_strict buf) (nd_bl_lines_strict buf).
Proof. intros. unfold bl_lines_strict, nd_bl_lines_strict. le_go. Qed.
Lemma nd_bl_nth_le : forall (buf : list Z) (n : nat), le (bl_nth buf n) (nd_bl_nth buf n).
Proof. induction n; cbn [bl_nth nd_bl_nth]; le_go. Qed.
Lemma nd_ml_increment_le : forall (m : mmap_lines) (size : Z) (it : bl_iter), le (ml_increment m size it) (nd_ml_increment m size it).
Proof. intros. unfold ml_increment, nd_ml_increment. le_go. Qed.
Lemma nd_li_increment_le : forall (it : line_iter), le (li_increment it) (nd_li_increment it).
Proof. intros. unfold li_increment, nd_li_increment. le_go. Qed.
#[export] Hint Resolve nd_li_increment_le : le.
Lemma nd_li_visit_le : forall (fuel : nat) (it : line_iter), le (li_visit fuel it) (nd_li_visit fuel it).
Proof. induction fuel; intros; cbn [li_visit nd_li_visit]; le_go. Qed.
#[export] Hint Resolve nd_li_visit_le : le.
Lemma nd_lines_visited_le : forall (file : list Z) (trim : bool), le (lines_visited file trim) (nd_lines_visited file trim).
Proof. intros. unfold lines_visited, nd_lines_visited. le_go. Qed.
Lemma nd_fi_increment_le : forall (file : list Z) (it : file_iter), le (fi_increment file it) (nd_fi_increment file it).
Proof. intros. unfold fi_increment, nd_fi_increment. le_go. Qed.
#[export] Hint Resolve nd_fi_increment_le : le.
Lemma nd_advance_both_le : forall (file : list Z) (a : file_iter), le (advance_both file a) (nd_advance_both file a).
Proof. intros. unfold advance_both, nd_advance_both. le_go. Qed.
Lemma nd_fi_visit_le : forall (fuel : nat) (file : list Z) (it : file_iter), le (fi_visit fuel file it) (nd_fi_visit fuel file it).
Proof. induction fuel; intros; cbn [fi_visit nd_fi_visit]; le_go. Qed.
#[export] Hint Resolve nd_fi_visit_le : le.
Lemma nd_fi_lines_le : forall (file : list Z) (trim : bool), le (fi_lines file trim) (nd_fi_lines file trim).
Proof. intros. unfold fi_lines, nd_fi_lines. le_go. Qed.
Lemma nd_size_tree_of_le : forall (l : layout) (d : data) (friendly_name : name), le (size_tree_of l d friendly_name) (nd_size_tree_of l d friendly_name).
Proof. intros. unfold size_tree_of, nd_size_tree_of. destruct (snd (sizeof_visit l d friendly_name 0)); [apply le_ub|apply le_refl]. Qed.
Lemma nd_vec_get_le : forall (h : heap) (v : vec) (i : Z), le (vec_get h v i) (nd_vec_get h v i).
Proof. intros. unfold vec_get, nd_vec_get. le_go. Qed.
Lemma nd_te_run_le : forall (T : Type) (cs : bool) (h : heap_ops (queue_element T)) (tk : topk_vector T) (n : nat) (s : tk_enum T), le (te_run cs h tk n s) (nd_te_run cs h tk n s).
Proof. intros T cs h tk n. induction n; intros; cbn [te_run nd_te_run]; le_go. Qed.

Lemma nd_lines :
  (forall (buf : list Z) (it : bl_iter), le (bl_increment buf it) (nd_bl_increment buf it)) /\
  (forall (buf : list Z), le (bl_new buf) (nd_bl_new buf)) /\
  (forall (it : bl_iter), le (bl_deref it) (nd_bl_deref it)) /\
  (forall (fuel : nat) (buf : list Z) (it : bl_iter), le (bl_visit fuel buf it) (nd_bl_visit fuel buf it)) /\
  (forall (buf : list Z), le (bl_lines buf) (nd_bl_lines buf)) /\
  (forall (buf : list Z) (it : bl_iter), le (bl_step buf it) (nd_bl_step buf it)) /\
  (forall (fuel : nat) (buf : list Z) (it : bl_iter), le (bl_walk fuel buf it) (nd_bl_walk fuel buf it)) /\
  (forall (buf : list Z), le (bl_lines_strict buf) (nd_bl_lines_strict buf)) /\
  (forall (buf : list Z) (n : nat), le (bl_nth buf n) (nd_bl_nth buf n)) /\
  (forall (m : mmap_lines) (size : Z) (it : bl_iter), le (ml_increment m size it) (nd_ml_increment m size it)) /\
  (forall (it : line_iter), le (li_increment it) (nd_li_increment it)) /\
  (forall (fuel : nat) (it : line_iter), le (li_visit fuel it) (nd_li_visit fuel it)) /\
  (forall (file : list Z) (trim : bool), le (lines_visited file trim) (nd_lines_visited file trim)) /\
  (forall (file : list Z) (it : file_iter), le (fi_increment file it) (nd_fi_increment file it)) /\
  (forall (file : list Z) (a : file_iter), le (advance_both file a) (nd_advance_both file a)) /\
  (forall (fuel : nat) (file : list Z) (it : file_iter), le (fi_visit fuel file it) (nd_fi_visit fuel file it)) /\
  (forall (file : list Z) (trim : bool), le (fi_lines file trim) (nd_fi_lines file trim)).
Proof.
  split; [exact nd_bl_increment_le|].
  split; [exact nd_bl_new_le|].
  split; [exact nd_bl_deref_le|].
  split; [exact nd_bl_visit_le|].
  split; [exact nd_bl_lines_le|].
  split; [exact nd_bl_step_le|].
  split; [exact nd_bl_walk_le|].
  split; [exact nd_bl_lines_strict_le|].
  split; [exact nd_bl_nth_le|].
  split; [exact nd_ml_increment_le|].
  split; [exact nd_li_increment_le|].
  split; [exact nd_li_visit_le|].
  split; [exact nd_lines_visited_le|].
  split; [exact nd_fi_increment_le|].
  split; [exact nd_advance_both_le|].
  split; [exact nd_fi_visit_le|].
  exact nd_fi_lines_le.
Qed.

Lemma nd_rest :
  (forall (l : layout) (d : data) (friendly_name : name), le (size_tree_of l d friendly_name) (nd_size_tree_of l d friendly_name)) /\
  (forall (h : heap) (v : vec) (i : Z), le (vec_get h v i) (nd_vec_get h v i)) /\
  (forall (T : Type) (cs : bool) (h : heap_ops (queue_element T)) (tk : topk_vector T) (n : nat) (s : tk_enum T), le (te_run cs h tk n s) (nd_te_run cs h tk n s)).
Proof. split; [exact nd_size_tree_of_le|]. split; [exact nd_vec_get_le|]. exact nd_te_run_le. Qed.

Lemma nd_deref_end buf it it' : bl_increment buf it = Ok it' -> bl_pos it' = None ->
  bl_deref it' = Ub AssertFailed /\ bl_deref it = Ok (bl_value it) /\ nd_bl_deref it' = Ok (bl_value it).
Proof.
  unfold bl_increment, bl_deref, nd_bl_deref. intros E N. rewrite N. destruct (bl_pos it) as [pos|]; [|discriminate].
  destruct (zlen buf <=? pos).
  - assert (it' = mk_bl None (bl_value it)) as -> by congruence. auto.
  - cbv zeta in E. apply bind_inv in E. destruct E as (cr & _ & E).
    assert (bl_pos it' <> None) by (intros H; rewrite <- N in *; injection E as <-; discriminate). contradiction.
Qed.
