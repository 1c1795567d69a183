(** Property C104: enumerating an elias_fano costs one pass over its words *)
From Coq Require Import Sorting.Sorted.
From Verif Require Import Base Spec M_BitVector M_Darray M_EliasFano S_EliasFano S_EfSteps M_SeSteps S_SeSteps P_SeSteps.

(** C104: the counted functions are the modelled ones: without the counts they give the same results and fail alike *)
Theorem C104_same : forall ef e k,
  (do (v, e', _, _) <- se_next_c ef e; Ok (v, e')) = se_next ef e /\
  (do (vs, _, _) <- se_run_c ef e k; Ok vs) = se_run ef e k.
Proof. exact (fun ef e k => conj (se_next_same ef e) (se_run_same ef k e)). Qed.
Print Assumptions C104_same.

(** C104: [S k] calls of next from number [i] on yield these values with as many rounds over the high bits as
    there are word boundaries between the first and the last one, and one read of the low bits for each word
    full of low parts *)
Theorem C104_enumeration : forall gr n m vs idx, ef_input n m vs -> exists ef, ef_make gr n m vs idx = Ok ef /\
  forall i k, (i + S k <= length vs)%nat -> exists e, se_new ef (Z.of_nat i) = Ok e /\
  se_run_c ef e (S k) = Ok (window vs i (S k), high_place n m vs (i + k) / 64 - high_place n m vs i / 64, low_reads n m (S k)).
Proof. exact enum_cost. Qed.
Print Assumptions C104_enumeration.
Definition C104_vals : list Z := [3; 5; 9; 40; 41; 42; 45; 700; 701; 1500; 1999].
Example C104_enumeration_ex : ef_input 2000 11 C104_vals /\ bucket 2000 11 = 128 /\
  map (high_place 2000 11 C104_vals) [0; 7; 10]%nat = [0; 12; 25] /\ low_reads 2000 11 10 = 2 /\
  (do ef <- ef_make (fun c _ => 2 * c) 2000 11 C104_vals false; do e <- se_new ef 1; se_run_c ef e 10) =
  Ok ([5; 9; 40; 41; 42; 45; 700; 701; 1500; 1999], 0, 2).
Proof. split; [repeat split; try lia; try discriminate; repeat constructor; lia|]. repeat split; vm_compute; reflexivity. Qed.
(** narrow buckets: every value is its own bucket, no low bits, and the high bits go on for three words *)
Example C104_enumeration_ex2 : ef_input 150 80 [0; 1; 70; 149] /\ bucket 150 80 = 1 /\ low_reads 150 80 4 = 0 /\
  (do ef <- ef_make (fun c _ => 2 * c) 150 80 [0; 1; 70; 149] false; do e <- se_new ef 0; se_run_c ef e 4) = Ok ([0; 1; 70; 149], 2, 0).
Proof. split; [repeat split; try lia; try discriminate; repeat constructor; lia|]. repeat split; vm_compute; reflexivity. Qed.

(** C104: whatever the values are and however large the universe: no more than three bits of high part are passed
    for each value there is room for, and no more than one read is made for each value *)
Theorem C104_bound : forall n m vs i k, ef_input n m vs -> (i + S k <= length vs)%nat ->
  0 <= high_place n m vs (i + k) / 64 - high_place n m vs i / 64 <= 3 * m / 64 /\
  0 <= low_reads n m (S k) <= Z.of_nat (S k).
Proof. exact enum_total. Qed.
Print Assumptions C104_bound.
Example C104_bound_ex : ef_input 150 80 [0; 1; 70; 149] /\ (0 + 4 <= length [0; 1; 70; 149])%nat /\
  high_place 150 80 [0; 1; 70; 149] 3 / 64 - high_place 150 80 [0; 1; 70; 149] 0 / 64 = 2 /\ 3 * 80 / 64 = 3.
Proof. split; [repeat split; try lia; try discriminate; repeat constructor; lia|]. split; [cbn; lia|]. split; reflexivity. Qed.
