(** C72: the line iterators as forward iterators. *)
From Verif Require Import Base M_Util S_Util M_LineIter P_LineIter.

(** The [i]-th buffer_line_iterator refers to the [i]-th line, and iterators are equal only at the same line; missing: the
    pointers (C72_pointer_refuted) and line_iterator (the others below) *)
Theorem C72_buffer_partial : forall buf i, ((length (split_lines buf) < i)%nat -> bl_nth buf i = Ub AssertFailed) /\
  ((i <= length (split_lines buf))%nat -> exists a, bl_nth buf i = Ok a /\
   (forall line, nth_error (split_lines buf) i = Some line -> without_cr line (bl_value a)) /\
   forall j b, bl_nth buf j = Ok b -> bl_equal a b = true <-> i = j).
Proof. exact buffer_forward. Qed.
Print Assumptions C72_buffer_partial.
Example C72_buffer_ex : (1 <= length (split_lines [97; 10; 98; 13]%Z))%nat /\
  bl_nth [97; 10; 98; 13] 1 = Ok (mk_bl (Some 5) [98]) /\ bl_nth [97; 10; 98; 13] 2 = Ok (mk_bl None [98]) /\
  bl_nth [97; 10; 98; 13] 3 = Ub AssertFailed.
Proof. vm_compute. repeat split; repeat constructor. Qed.

(** A last line without newline moves the pointer past the end of the buffer, which is undefined. Other buffers are read as in C38. *)
Theorem C72_pointer_refuted : forall buf, (terminated buf -> bl_lines_strict buf = bl_lines buf) /\
  (~ terminated buf -> bl_lines_strict buf = Ub OutOfBounds).
Proof. exact bl_strict_ok. Qed.
Print Assumptions C72_pointer_refuted.
Example C72_pointer_ex : terminated [97; 10] /\ bl_lines_strict [97; 10] = Ok [[97]] /\
  ~ terminated [97; 10; 98] /\ bl_lines_strict [97; 10; 98] = Ub OutOfBounds.
Proof.
  split; [right; exists [97]; reflexivity|]. split; [reflexivity|]. split; [|reflexivity].
  intros [H|(q & H)]; [discriminate|]. change [97; 10; 98] with ([97; 10] ++ [98]) in H. apply app_inj_tail in H. destruct H. discriminate.
Qed.

(** Two copies of a line_iterator share the file: each takes the other's lines. They are equal although their lines differ. *)
Theorem C72_copies_refuted : forall input trim, no_nul input -> In 10 input -> In 10 (after_line input) -> exists a b,
  advance_both input (fi_new trim) = Ok (a, b) /\ fi_equal a b = true /\
  (if trim then trimmed (next_line input) (fi_line a) else fi_line a = next_line input) /\
  (if trim then trimmed (next_line (after_line input)) (fi_line b) else fi_line b = next_line (after_line input)).
Proof. exact shared_file. Qed.
Print Assumptions C72_copies_refuted.
Example C72_copies_ex : no_nul [97; 10; 98; 10] /\ In 10 [97; 10; 98; 10] /\ In 10 (after_line [97; 10; 98; 10]) /\
  advance_both [97; 10; 98; 10] (fi_new true) = Ok (mk_fi [97] true (Some true), mk_fi [98] true (Some true)).
Proof.
  split; [intros H; repeat (destruct H as [H|H]; [discriminate|]); exact H|]. split; [right; left; reflexivity|].
  split; [right; left; reflexivity|]. reflexivity.
Qed.

(** lines() copies an iterator whose m_trim_newline has no value. *)
Theorem C72_uninitialised_refuted : forall trim, file_lines trim = Ub Dangling.
Proof. exact file_lines_ub. Qed.
Print Assumptions C72_uninitialised_refuted.

(** A single line_iterator, compared with the end iterator and never copied, reads the lines as in C40; missing: copies *)
Theorem C72_single_partial : forall file trim, fi_lines file trim = lines_visited file trim.
Proof. exact fi_lines_eq. Qed.
Print Assumptions C72_single_partial.
Example C72_single_ex : fi_lines [97; 10; 98; 10] true = Ok [[]; [97]; [98]].
Proof. vm_compute. reflexivity. Qed.
