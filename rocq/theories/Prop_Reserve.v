(** C41: when reserve makes the next write undefined. *)
From Verif Require Import Base Spec M_BitVector S_BitVector P_Builder S_Reserve P_Reserve P_Reserve2.

(** After any legal history that leaves the last word partly filled there is a threshold, at least
    the size: reserve up to it changes nothing, and after reserve beyond it push_back and
    append_bits write through a dangling pointer. *)
Theorem C41_exact_refuted : forall gr os i, legal_run seqs0 os -> zlen (spec_run seqs0 os i) mod 64 <> 0 -> exists cap,
  zlen (spec_run seqs0 os i) <= cap /\
  (forall n, n <= cap -> forall os', legal_run (spec_run seqs0 os) os' -> exists st, run gr builders0 (os ++ Reserve i n :: os') = Ok st /\
     forall j, bv_of_builder (st j) = Ok (canonical (spec_run (spec_run seqs0 os) os' j))) /\
  (forall n, cap < n ->
     (forall x, run gr builders0 (os ++ [Reserve i n; PushBack i x]) = Ub Dangling) /\
     (forall bits len, 0 < len <= 64 -> 0 <= bits < 2 ^ len -> run gr builders0 (os ++ [Reserve i n; AppendBits i bits len]) = Ub Dangling)).
Proof. exact reserve_threshold. Qed.
Print Assumptions C41_exact_refuted.
Example C41_exact_ex : legal_run seqs0 [New 0 70 true; PushBack 0 false] /\
  zlen (spec_run seqs0 [New 0 70 true; PushBack 0 false] 0%nat) mod 64 = 7 /\
  run (fun c _ => 2 * c) builders0 ([New 0 70 true; PushBack 0 false] ++ [Reserve 0 129; PushBack 0 true]) = Ub Dangling /\
  (exists st, run (fun c _ => 2 * c) builders0 ([New 0 70 true; PushBack 0 false] ++ [Reserve 0 128; PushBack 0 true]) = Ok st).
Proof.
  split; [cbn [legal_run legal]; vm_compute; intuition congruence|]. split; [reflexivity|]. split; [reflexivity|].
  eexists. vm_compute. reflexivity.
Qed.

(** The calls that are defined for every allocation policy of std::vector are those of [safe_run]:
    no push_back, append_bits or one_extend writes into a partly filled word after a reserve that
    may have moved the words, unless another call has set m_cur_word since. Then every vector is the
    one of the bits. *)
Theorem C41_portable : forall os, pre_run seqs0 os ->
  (safe_run sbuilders0 os <-> forall gr, exists st, run gr builders0 os = Ok st) /\
  (safe_run sbuilders0 os -> forall gr, exists st, run gr builders0 os = Ok st /\ forall i, bv_of_builder (st i) = Ok (canonical (spec_run seqs0 os i))).
Proof. exact (fun os P => conj (reserve_portable os P) (fun S gr => reserve_histories gr os S)). Qed.
Print Assumptions C41_portable.
Example C41_portable_ex : pre_run seqs0 safe_calls /\ safe_run sbuilders0 safe_calls /\ pre_run seqs0 unsafe_calls /\ ~ safe_run sbuilders0 unsafe_calls.
Proof.
  split; [vm_compute; intuition congruence|]. split; [vm_compute; intuition congruence|]. split; [vm_compute; intuition congruence|].
  cbn [safe_run unsafe_calls]. intros (_ & _ & _ & _ & _ & _ & _ & _ & _ & _ & _ & _ & _ & H & _). vm_compute in H. discriminate H.
Qed.

(** Every other history ends in a write through a dangling pointer when std::vector allocates just
    what it needs. *)
Theorem C41_histories_refuted : forall gr os, tight gr -> pre_run seqs0 os -> ~ safe_run sbuilders0 os -> run gr builders0 os = Ub Dangling.
Proof. exact reserve_histories_bad. Qed.
Print Assumptions C41_histories_refuted.
Example C41_histories_ex : tight (fun _ n => n) /\ run (fun _ n => n) builders0 unsafe_calls = Ub Dangling.
Proof. split; [intros c n; lia|reflexivity]. Qed.
