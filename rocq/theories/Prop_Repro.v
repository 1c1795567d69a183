(** C77: what is built depends only on the contents. *)
From Verif Require Import Base Spec M_BitVector M_RsBitVector M_Darray M_EliasFano M_Gamma M_Bp M_Cartesian M_Topk S_BitVector S_Darray S_EliasFano S_Repro P_Repro.

(** builder histories without reserve: the same vector, or the same undefined behaviour, however std::vector grows *)
Theorem C77_builder : forall gr gr' os i, forallb no_reserve os = true ->
  (do st <- run gr builders0 os; bv_of_builder (st i)) = (do st <- run gr' builders0 os; bv_of_builder (st i)).
Proof. exact repro_builder. Qed.
Print Assumptions C77_builder.
Example C77_builder_ex : forallb no_reserve [PushBack 0 true; OneExtend 0 70; ZeroExtend 0 3; Append 1 0] = true /\
  exists bv, (do st <- run (fun _ n => n) builders0 [PushBack 0 true; OneExtend 0 70; ZeroExtend 0 3; Append 1 0]; bv_of_builder (st 1%nat)) = Ok bv /\ bv_size bv = 74.
Proof. split; [reflexivity|]. eexists. split; [vm_compute; reflexivity|]. vm_compute. reflexivity. Qed.

(** two legal histories with the same contents give the same words *)
Theorem C77_histories : forall gr gr' os os' i j, legal_run seqs0 os -> legal_run seqs0 os' -> spec_run seqs0 os i = spec_run seqs0 os' j ->
  (do st <- run gr builders0 os; bv_of_builder (st i)) = (do st <- run gr' builders0 os'; bv_of_builder (st j)) /\
  (do st <- run gr builders0 os; bv_of_builder (st i)) = Ok (canonical (spec_run seqs0 os i)) /\ bv_range (spec_run seqs0 os i) = canonical (spec_run seqs0 os i).
Proof. exact repro_histories. Qed.
Print Assumptions C77_histories.
Example C77_histories_ex : let os := [New 0 3 true; SetBit 0 1 false] in let os' := [PushBack 4 true; AppendBits 4 2 2] in
  legal_run seqs0 os /\ legal_run seqs0 os' /\ spec_run seqs0 os 0%nat = [true; false; true] /\ spec_run seqs0 os' 4%nat = [true; false; true].
Proof. cbv zeta. split; [|split; [|vm_compute; auto]]; vm_compute; intuition congruence. Qed.

(** elias_fano, elias_fano_list and elias_fano_compressed_list *)
Theorem C77_elias_fano : forall gr gr',
  (forall n m vs idx, ef_make gr n m vs idx = ef_make gr' n m vs idx) /\ (forall b idx, ef_of_bits gr b idx = ef_of_bits gr' b idx) /\
  (forall ints, efl_build gr ints = efl_build gr' ints) /\ (forall ints, efc_build gr ints = efc_build gr' ints).
Proof. exact repro_lists. Qed.
Print Assumptions C77_elias_fano.
Example C77_elias_fano_ex : exists e c, ef_make (fun _ n => n) 100 3 [5; 70; 99] true = Ok e /\ efc_build (fun c n => 2 * c + n) [5; 0; 900] = Ok c.
Proof. do 2 eexists. split; vm_compute; reflexivity. Qed.

(** darray64, gamma_vector and gamma_bit_vector *)
Theorem C77_gamma : forall gr gr',
  (forall skips, (do b <- append1_all gr d64_new skips; d64_build b) = (do b <- append1_all gr' d64_new skips; d64_build b)) /\
  (forall ints, gv_build gr ints = gv_build gr' ints) /\ (forall ints, gb_build gr ints = gb_build gr' ints).
Proof. exact repro_gammas. Qed.
Print Assumptions C77_gamma.
Example C77_gamma_ex : exists g b, gv_build (fun _ n => n) [5; 0; 900] = Ok g /\ gb_build (fun c n => 2 * c + n) [5; 0; 900] = Ok b.
Proof. do 2 eexists. split; vm_compute; reflexivity. Qed.

(** cartesian_tree and topk_vector: also independent of the expected size and of the uninitialised member of an empty tree *)
Theorem C77_trees : forall T (comp : T -> T -> bool) gr gr' uninit uninit' v,
  (forall e e', ct_build gr uninit comp e v = ct_build gr' uninit' comp e' v) /\ tk_build gr uninit comp v = tk_build gr' uninit' comp v.
Proof. exact @repro_trees. Qed.
Print Assumptions C77_trees.
Example C77_trees_ex : exists t u, ct_build (fun _ n => n) 7 Z.ltb 0 [4; 9; 2; 9] = Ok t /\ tk_build (fun c n => 2 * c + n) 0 Z.ltb [4; 9; 2; 9] = Ok u.
Proof. do 2 eexists. split; vm_compute; reflexivity. Qed.
