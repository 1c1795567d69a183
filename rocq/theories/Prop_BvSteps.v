(** Property C94: the words read by the searches and enumerators of bit_vector *)
From Verif Require Import Base Spec M_BitVector S_BitVector M_BvSteps S_BvSteps P_BvSteps.

(** C94: the counted searches give the results of the plain ones, and the rounds are the words between [pos] and the result *)
Theorem C94_searches : forall bv pos,
  ((do (q, _) <- predecessor_c true bv pos; Ok q) = predecessor0 bv pos /\ (do (q, _) <- predecessor_c false bv pos; Ok q) = predecessor1 bv pos /\
   (do (q, _) <- successor_c true bv pos; Ok q) = successor0 bv pos /\ (do (q, _) <- successor_c false bv pos; Ok q) = successor1 bv pos) /\
  forall neg q c, (predecessor_c neg bv pos = Ok (q, c) -> c = pos / 64 - q / 64) /\ (successor_c neg bv pos = Ok (q, c) -> c = q / 64 - pos / 64).
Proof. exact scans. Qed.
Print Assumptions C94_searches.
Definition C94_bits : list bool := true :: repeat false 200 ++ [true].
Example C94_searches_ex : predecessor_c false (canonical C94_bits) 190 = Ok (0, 2) /\ successor_c false (canonical C94_bits) 5 = Ok (201, 3) /\
  predecessor_c true (canonical C94_bits) 190 = Ok (190, 0) /\ successor_c true (canonical C94_bits) 0 = Ok (1, 0).
Proof. repeat split; vm_compute; reflexivity. Qed.

(** C94: a history of calls on a unary_enumerator takes as many rounds as there are words between its positions *)
Theorem C94_enumerator : forall l pos os rs, 0 <= pos < 64 * zlen (pack l) -> uspec_run l (pos, false) os rs ->
  urun_c_from (canonical l) pos os = Ok (rs, travel pos os rs).
Proof. exact unary_rounds. Qed.
Print Assumptions C94_enumerator.
Example C94_enumerator_ex : 0 <= 0 < 64 * zlen (pack C94_bits) /\ uspec_run C94_bits (0, false) [UNext; USkipNoMove 0; UNext] [0; 201; 201] /\
  travel 0 [UNext; USkipNoMove 0; UNext] [0; 201; 201] = 6 /\
  urun_c_from (canonical C94_bits) 0 [UNext; USkipNoMove 0; UNext] = Ok ([0; 201; 201], 6).
Proof.
  split; [vm_compute; split; congruence|]. split; [|split; vm_compute; reflexivity].
  eapply usr_cons; [apply (us_next _ _ 0%nat); vm_compute; auto|].
  eapply usr_cons; [apply (us_skip_no_move _ _ 0 201%nat); [lia|vm_compute; auto]|].
  eapply usr_cons; [apply (us_next _ _ 201%nat); vm_compute; auto|]. apply usr_nil.
Qed.

(** C94: without skip_no_move the rounds of all calls together are less than the words of the vector, however many calls there are *)
Theorem C94_one_pass : forall l pos os rs, 0 <= pos < 64 * zlen (pack l) -> uspec_run l (pos, false) os rs -> Forall moving os ->
  travel pos os rs = last rs pos / 64 - pos / 64 /\ travel pos os rs <= zlen (pack l) - 1.
Proof. exact unary_total. Qed.
Print Assumptions C94_one_pass.
Example C94_one_pass_ex : uspec_run C94_bits (0, false) [UNext; USkip 0] [0; 201] /\ Forall moving [UNext; USkip 0] /\
  travel 0 [UNext; USkip 0] [0; 201] = 3 /\ zlen (pack C94_bits) = 4.
Proof.
  split; [|split; [repeat constructor|split; vm_compute; reflexivity]].
  eapply usr_cons; [apply (us_next _ _ 0%nat); vm_compute; auto|].
  eapply usr_cons; [apply (us_skip _ _ 0 201%nat); [lia|vm_compute; auto]|]. apply usr_nil.
Qed.
