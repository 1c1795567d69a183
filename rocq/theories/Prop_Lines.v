From Verif Require Import Base M_Util S_Util S_Lines P_Lines.

(** C39: a last line without newline, of any length: its last chunk of at most 65535 characters
    comes twice *)
Theorem C39_last_line_refuted : forall input trim, no_nul input -> ~ In 10 input -> input <> [] -> exists line,
  fast_getline input trim = Ok (Some line, []) /\ tail_result trim input line.
Proof. exact fast_getline_tail_exact. Qed.
Print Assumptions C39_last_line_refuted.
Example C39_last_line_ex : no_nul [97; 98; 13] /\ ~ In 10 [97; 98; 13] /\ last_chunk [97; 98; 13] = [97; 98; 13] /\
  fast_getline [97; 98; 13] true = Ok (Some [97; 98; 13; 97; 98], []).
Proof.
  repeat split; try reflexivity; intros H; repeat (destruct H as [H|H]; [discriminate|]); exact H.
Qed.

(** C40: the lines of a file whose last line has no newline *)
Theorem C40_last_line_refuted : forall body tail trim,
  no_nul (body ++ tail) -> terminated body -> tail <> [] -> ~ In 10 tail -> exists rs t,
  lines_visited (body ++ tail) trim = Ok ([] :: rs ++ [t]) /\
  Forall2 (line_result trim) (split_lines body) rs /\ tail_result trim tail t.
Proof. exact lines_visited_tail. Qed.
Print Assumptions C40_last_line_refuted.
Example C40_last_line_ex : no_nul [97; 10; 98; 99] /\ terminated [97; 10] /\ ~ In 10 [98; 99] /\
  lines_visited ([97; 10] ++ [98; 99]) false = Ok [[]; [97; 10]; [98; 99; 98; 99]].
Proof.
  repeat split; try reflexivity; try (intros H; repeat (destruct H as [H|H]; [discriminate|]); exact H).
  right. exists [97]. reflexivity.
Qed.

(** C66: with a NUL character the result is undefined or the line is joined with the next one *)
Theorem C66_nul_first_refuted : forall input trim, fast_getline (0 :: input) trim = Ub OutOfBounds.
Proof. exact getline_nul_first. Qed.
Print Assumptions C66_nul_first_refuted.
Theorem C66_nul_inside_refuted : forall a b rest,
  a <> [] -> no_nul a -> ~ In 10 a -> ~ In 10 b -> zlen a + 1 + zlen b < 65535 -> no_nul rest -> In 10 rest ->
  fast_getline (a ++ 0 :: b ++ 10 :: rest) false = Ok (Some (a ++ next_line rest), after_line rest).
Proof. exact getline_nul. Qed.
Print Assumptions C66_nul_inside_refuted.
Example C66_ex : fast_getline [0; 97; 10] false = Ub OutOfBounds /\
  fast_getline ([97] ++ 0 :: [98] ++ 10 :: [99; 10; 100]) false = Ok (Some [97; 99; 10], [100]) /\
  no_nul [97] /\ ~ In 10 [97] /\ ~ In 10 [98] /\ no_nul [99; 10; 100] /\ In 10 [99; 10; 100].
Proof.
  repeat split; try reflexivity; try (intros H; repeat (destruct H as [H|H]; [discriminate|]); exact H).
  right. left. reflexivity.
Qed.
