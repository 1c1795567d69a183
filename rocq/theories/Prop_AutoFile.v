(** Property C87: auto_file closes every file it opens exactly once, and what is left of mmap_lines after its destruction *)
From Coq Require Import String.
From Verif Require Import Base M_Util M_LineIter M_AutoFile S_Util S_AutoFile P_AutoFile.

(** C87: whichever fopen calls fail and wherever exceptions are thrown *)
Theorem C87_closed_once : forall can p, scoped 0 p ->
  exists kept w, exec can [] None fs0 p = Ok (fst (ending can 0 p), kept, w) /\
  fs_open w = [] /\ nested [] (fs_trace w) /\
  forall f, (times (EOpen f) (fs_trace w) <= 1)%nat /\ times (EClose f) (fs_trace w) = times (EOpen f) (fs_trace w).
Proof. exact raii. Qed.
Print Assumptions C87_closed_once.
Definition C87_prog : prog := Block "a" (Use 0 (Block "b" (Use 1 (Keep 0 Ret)) (Block "c" (Use 0 Ret) Ret))) Ret.
(** the third fopen call fails *)
Example C87_closed_once_ex : scoped 0 C87_prog /\
  exec (fun _ i => negb (Nat.eqb i 2)) [] None fs0 C87_prog =
  Ok (Some "Unable to open file 'c'."%string, Some 1%nat, mk_fs 3 [] [EOpen 0; EUse 0; EOpen 1; EUse 0; EClose 1; EClose 0]).
Proof. split; [cbn; repeat split; lia|reflexivity]. Qed.

(** C87: a FILE that outlives its auto_file is closed when it is used *)
Theorem C87_kept : forall can name, can name 0%nat = true ->
  exec can [] None fs0 (Block name (Keep 0 Ret) (UseKept Ret)) = Ub Dangling.
Proof. exact kept_too_long. Qed.
Print Assumptions C87_kept.
Example C87_kept_ex : (fun _ _ => true) "a"%string 0%nat = true /\
  exec (fun _ _ => true) [] None fs0 (Block "a" (Keep 0 (UseKept Ret)) Ret) = Ok (None, Some 0%nat, mk_fs 1 [] [EOpen 0; EUse 0; EClose 0]).
Proof. split; reflexivity. Qed.

(** C87: and a pointer that no auto_file has set cannot be used at all *)
Theorem C87_unset : forall can env w p, exec can env None w (UseKept p) = Ub OutOfBounds.
Proof. exact unset_use. Qed.
Print Assumptions C87_unset.
Example C87_unset_ex : exec (fun _ _ => true) [] None fs0 (Block "a" (UseKept Ret) Ret) = Ub OutOfBounds /\
  exec (fun _ _ => true) [] None fs0 (Block "a" (Keep 0 (UseKept Ret)) Ret) <> Ub OutOfBounds.
Proof. split; vm_compute; congruence. Qed.

(** C87: after mmap_lines is destroyed its iterators still give the line they are at, and can be moved only from the last line *)
Theorem C87_unmapped : forall buf i it, bl_nth buf i = Ok it ->
  (forall line, nth_error (split_lines buf) i = Some line -> exists v, bl_deref it = Ok v /\ without_cr line v) /\
  ((S i < length (split_lines buf))%nat -> ml_increment None (zlen buf) it = Ub Dangling) /\
  (S i = length (split_lines buf) -> exists last, ml_increment None (zlen buf) it = Ok last /\ bl_at_end last = true) /\
  (i = length (split_lines buf) -> ml_increment None (zlen buf) it = Ub AssertFailed).
Proof. exact unmapped. Qed.
Print Assumptions C87_unmapped.
Example C87_unmapped_ex : bl_nth [97; 13; 10; 98] 0 = Ok (mk_bl (Some 3) [97]) /\ (1 < length (split_lines [97; 13; 10; 98]%Z))%nat /\
  bl_deref (mk_bl (Some 3) [97]) = Ok [97] /\ ml_increment None 4 (mk_bl (Some 3) [97]) = Ub Dangling /\
  bl_nth [97; 13; 10; 98] 1 = Ok (mk_bl (Some 5) [98]) /\ ml_increment None 4 (mk_bl (Some 5) [98]) = Ok (mk_bl None [98]).
Proof. vm_compute. repeat split; repeat constructor. Qed.
