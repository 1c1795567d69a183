(** C90: mmap_lines and lines() read the same lines *)
From Verif Require Import Base M_Util S_Util S_Lines P_TwoReaders.

(** In a text file whose lines end in newlines, the lines of mmap_lines are those lines() visits with trimming after the empty
    string it starts with, exactly if no line ends in two carriage returns; missing: the empty string, other files *)
Theorem C90_readers_partial : forall file, no_nul file -> terminated file -> exists ls, bl_lines file = Ok ls /\
  (lines_visited file true = Ok ([] :: ls) <-> forall p r, In p (split_lines file) -> p <> r ++ [13; 13]).
Proof. exact two_readers. Qed.
Print Assumptions C90_readers_partial.
Example C90_readers_ex : no_nul [97; 13; 10; 98; 10] /\ terminated [97; 13; 10; 98; 10] /\
  bl_lines [97; 13; 10; 98; 10] = Ok [[97]; [98]] /\ lines_visited [97; 13; 10; 98; 10] true = Ok [[]; [97]; [98]] /\
  bl_lines [97; 13; 13; 10] = Ok [[97; 13]] /\ lines_visited [97; 13; 13; 10] true = Ok [[]; [97]].
Proof.
  split; [intros H; repeat (destruct H as [H|H]; [discriminate|]); exact H|]. split; [right; exists [97; 13; 10; 98]; reflexivity|].
  vm_compute. auto.
Qed.

(** Without trimming, the lines visited make up the file *)
Theorem C90_whole_partial : forall file, no_nul file -> terminated file ->
  exists rs, lines_visited file false = Ok ([] :: rs) /\ concat rs = file.
Proof. exact whole_file. Qed.
Print Assumptions C90_whole_partial.
Example C90_whole_ex : lines_visited [97; 13; 10; 10; 98; 10] false = Ok [[]; [97; 13; 10]; [10]; [98; 10]].
Proof. vm_compute. reflexivity. Qed.

(** A last line without newline is longer in lines() than in the file, and not longer in mmap_lines, unless it is made of carriage
    returns *)
Theorem C90_tail_refuted : forall body tail c,
  no_nul (body ++ tail) -> terminated body -> ~ In 10 tail -> zlen tail <= 65535 -> In c tail -> c <> 13 ->
  exists ls q rs t, bl_lines (body ++ tail) = Ok (ls ++ [q]) /\ lines_visited (body ++ tail) true = Ok ([] :: rs ++ [t]) /\
    without_cr tail q /\ (length q <= length tail < length t)%nat.
Proof. exact two_readers_tail. Qed.
Print Assumptions C90_tail_refuted.
Example C90_tail_ex : no_nul ([97; 10] ++ [98]) /\ terminated [97; 10] /\ ~ In 10 [98] /\ In 98 [98] /\
  bl_lines ([97; 10] ++ [98]) = Ok [[97]; [98]] /\ lines_visited ([97; 10] ++ [98]) true = Ok [[]; [97]; [98; 98]].
Proof.
  split; [intros H; repeat (destruct H as [H|H]; [discriminate|]); exact H|]. split; [right; exists [97]; reflexivity|].
  split; [intros [H|[]]; discriminate|]. split; [left; reflexivity|]. vm_compute. auto.
Qed.
