(** C113 Growing a builder moves few words *)
From Verif Require Import Base Spec M_BitVector S_BitVector S_Moves M_Moves P_Moves P_Moves2.

(** whatever the policy of the vector, also one that looks at its size, every legal history works *)
Theorem C113_content pol os : legal_run seqs0 os ->
  exists ms, m_run pol mbuilders0 os = Ok ms /\
    forall i, bv_of_builder (fst (ms i)) = Ok (canonical (spec_run seqs0 os i)) /\
      zlen (b_bits (fst (ms i))) = (zlen (spec_run seqs0 os i) + 63) / 64.
Proof. exact (moves_content pol os). Qed.
Print Assumptions C113_content.
Example C113_content_ex :
  let os := [AppendBits 0 5 64; OneExtend 0 130; Append 1 0; PushBack 1 true; Swap 0 1] in
  legal_run seqs0 os /\
  (do ms <- m_run (fun _ => libstdcxx) mbuilders0 os; bv_of_builder (fst (ms 0%nat))) =
    Ok (mk_bv 195 [5; 2 ^ 64 - 1; 2 ^ 64 - 1; 7]).
Proof. cbv zeta. split; [vm_compute; intuition discriminate|vm_compute; reflexivity]. Qed.

(** with a policy that looks at the capacity only it is the builder of C01 and C41, on every history, undefined outcomes included *)
Theorem C113_same gr os :
  match m_run (fun _ _ => gr) mbuilders0 os, run gr builders0 os with
  | Ok ms, Ok st => forall i, fst (ms i) = st i
  | Ub r, Ub r' => r = r'
  | _, _ => False
  end.
Proof. exact (same_use gr os). Qed.
Print Assumptions C113_same.
Example C113_same_ex :
  (do st <- run (fun c _ => 2 * c) builders0 [PushBack 0 true; Reserve 0 64; PushBack 0 true]; Ok (b_size (st 0%nat))) = Ok 2 /\
  (do ms <- m_run (fun _ _ c _ => 2 * c) mbuilders0 [PushBack 0 true; Reserve 0 65; PushBack 0 true]; Ok tt) = Ub Dangling.
Proof. split; vm_compute; reflexivity. Qed.

(** when every reallocation but those of reserve makes room for twice the elements, as in libstdc++, a builder has moved no more words
    than it has and has room for, and as many again for each call of reserve; and the number of its reallocations, apart from those of
    reserve, is at most one more than the logarithms of both *)
Theorem C113_size pol os ms : (forall o, not_reserve o -> doubles_size (pol o)) -> legal_run seqs0 os -> m_run pol mbuilders0 os = Ok ms ->
  forall i, 0 <= snd (ms i) <= (1 + reserves os) * (b_cap (fst (ms i)) + (zlen (spec_run seqs0 os i) + 63) / 64) /\
    (b_gen (fst (ms i)) <= reserves os \/
     2 ^ (b_gen (fst (ms i)) - reserves os) <= 2 * (b_cap (fst (ms i)) * ((zlen (spec_run seqs0 os i) + 63) / 64))).
Proof. exact (moves_size pol os ms). Qed.
Print Assumptions C113_size.
(** reserve takes what it is asked for *)
Example C113_size_ex :
  let pol := fun o => match o with Reserve _ _ => tight | _ => libstdcxx end in
  let os := [AppendBits 0 5 64; AppendBits 0 6 64; Reserve 0 256; AppendBits 0 7 64; ZeroExtend 0 129; AppendBits 0 9 64; ZeroExtend 0 400] in
  (forall o, not_reserve o -> doubles_size (pol o)) /\ legal_run seqs0 os /\
  (do ms <- m_run pol mbuilders0 os; Ok (snd (ms 0%nat), b_cap (fst (ms 0%nat)), b_gen (fst (ms 0%nat)))) = Ok (19, 14, 6).
Proof.
  cbv zeta. split; [intros [] N s c m H L; cbn in *; unfold libstdcxx; try lia; tauto|]. split; [vm_compute; intuition discriminate|vm_compute; reflexivity].
Qed.

(** when they double the capacity, as in libc++, no more than it has room for *)
Theorem C113_capacity pol os ms : (forall o, not_reserve o -> doubles_cap (pol o)) -> legal_run seqs0 os -> m_run pol mbuilders0 os = Ok ms ->
  forall i, 0 <= snd (ms i) <= (1 + reserves os) * b_cap (fst (ms i)) /\
    (b_gen (fst (ms i)) <= reserves os \/ 2 ^ (b_gen (fst (ms i)) - reserves os) <= 2 * b_cap (fst (ms i))).
Proof. exact (moves_cap pol os ms). Qed.
Print Assumptions C113_capacity.
Example C113_capacity_ex :
  let pol := fun o => match o with Reserve _ _ => tight | _ => libcxx end in
  let os := [AppendBits 0 5 64; AppendBits 0 6 64; Reserve 0 200; AppendBits 0 7 64; AppendBits 0 8 64; AppendBits 0 9 64] in
  (forall o, not_reserve o -> doubles_cap (pol o)) /\ legal_run seqs0 os /\
  (do ms <- m_run pol mbuilders0 os; Ok (snd (ms 0%nat), b_cap (fst (ms 0%nat)), b_gen (fst (ms 0%nat)))) = Ok (7, 8, 4).
Proof.
  cbv zeta. split; [intros [] N s c m H L; cbn in *; unfold libcxx; try lia; tauto|]. split; [vm_compute; intuition discriminate|vm_compute; reflexivity].
Qed.

(** when they add the k-th part to the capacity, no more than k times that *)
Theorem C113_parts k pol os ms : 1 <= k -> (forall o, not_reserve o -> grows_by k (pol o)) -> legal_run seqs0 os -> m_run pol mbuilders0 os = Ok ms ->
  forall i, 0 <= snd (ms i) <= k * (1 + reserves os) * b_cap (fst (ms i)).
Proof. exact (moves_by k pol os ms). Qed.
Print Assumptions C113_parts.
Example C113_parts_ex :
  let os := repeat (AppendBits 0 5 64) 8 in
  (forall o, not_reserve o -> grows_by 3 msvc) /\ legal_run seqs0 os /\
  (do ms <- m_run (fun _ => msvc) mbuilders0 os; Ok (snd (ms 0%nat), b_cap (fst (ms 0%nat)))) = Ok (16, 9).
Proof.
  cbv zeta. split; [intros _ _ s c n H L; unfold msvc; pose proof (Z.div_mod c 2); pose proof (Z.mod_pos_bound c 2); lia|].
  split; [vm_compute; intuition discriminate|vm_compute; reflexivity].
Qed.

(** without reserve a vector that takes at most double has room for at most twice the words of the content *)
Theorem C113_room pol os ms : (forall o, not_reserve o -> at_most_double (pol o)) -> legal_run seqs0 os -> reserves os = 0 ->
  m_run pol mbuilders0 os = Ok ms -> forall i, b_cap (fst (ms i)) <= 2 * ((zlen (spec_run seqs0 os i) + 63) / 64).
Proof. exact (moves_room pol os ms). Qed.
Print Assumptions C113_room.
Example C113_room_ex :
  let os := [AppendBits 0 5 64; ZeroExtend 0 65; AppendBits 0 7 64] in
  (forall o, not_reserve o -> at_most_double libcxx) /\ legal_run seqs0 os /\ reserves os = 0 /\
  (do ms <- m_run (fun _ => libcxx) mbuilders0 os; Ok (b_cap (fst (ms 0%nat)), zlen (b_bits (fst (ms 0%nat))))) = Ok (6, 4).
Proof.
  cbv zeta. split; [intros _ _ s c n H L; unfold libcxx; lia|]. split; [vm_compute; intuition discriminate|].
  split; [reflexivity|vm_compute; reflexivity].
Qed.

(** so without reserve the words moved are within twice those of the content with libc++, three times with libstdc++
    and six times with the library of Microsoft *)
Theorem C113_libraries os : legal_run seqs0 os -> reserves os = 0 ->
  (exists ms, m_run (fun _ => libcxx) mbuilders0 os = Ok ms /\ forall i, 0 <= snd (ms i) <= 2 * ((zlen (spec_run seqs0 os i) + 63) / 64)) /\
  (exists ms, m_run (fun _ => libstdcxx) mbuilders0 os = Ok ms /\ forall i, 0 <= snd (ms i) <= 3 * ((zlen (spec_run seqs0 os i) + 63) / 64)) /\
  (exists ms, m_run (fun _ => msvc) mbuilders0 os = Ok ms /\ forall i, 0 <= snd (ms i) <= 6 * ((zlen (spec_run seqs0 os i) + 63) / 64)).
Proof. exact (moves_libs os). Qed.
Print Assumptions C113_libraries.
Example C113_libraries_ex :
  let os := [ZeroExtend 0 256; PushBack 0 true; ZeroExtend 0 256] in
  legal_run seqs0 os /\ reserves os = 0 /\
  (do ms <- m_run (fun _ => libcxx) mbuilders0 os; Ok (snd (ms 0%nat))) = Ok 9 /\
  (do ms <- m_run (fun _ => libstdcxx) mbuilders0 os; Ok (snd (ms 0%nat))) = Ok 9 /\
  (do ms <- m_run (fun _ => msvc) mbuilders0 os; Ok (snd (ms 0%nat))) = Ok 9.
Proof.
  cbv zeta. split; [vm_compute; intuition discriminate|]. split; [reflexivity|]. split; [vm_compute; reflexivity|]. split; vm_compute; reflexivity.
Qed.

(** the policy matters: one that takes only what is asked for moves n(n-1)/2 words for n words appended *)
Theorem C113_tight_refuted n : 64 * Z.of_nat n < 2 ^ 64 - 64 ->
  legal_run seqs0 (repeat (AppendBits 0 1 64) n) /\
  exists ms, m_run (fun _ => tight) mbuilders0 (repeat (AppendBits 0 1 64) n) = Ok ms /\
    2 * snd (ms 0%nat) = Z.of_nat n * (Z.of_nat n - 1).
Proof. exact (tight_moves n). Qed.
Print Assumptions C113_tight_refuted.
Example C113_tight_ex : 64 * Z.of_nat 10 < 2 ^ 64 - 64 /\
  (do ms <- m_run (fun _ => tight) mbuilders0 (repeat (AppendBits 0 1 64) 10); Ok (snd (ms 0%nat))) = Ok 45.
Proof. split; [lia|vm_compute; reflexivity]. Qed.
