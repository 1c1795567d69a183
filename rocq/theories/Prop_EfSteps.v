(** Property C93: the loops of elias_fano::rank and operator[] *)
From Coq Require Import Sorting.Sorted.
From Verif Require Import Base M_BitVector M_Darray M_EliasFano S_EliasFano M_EfSteps S_EfSteps P_EfSteps.

(** C93: with a limit of [k] rounds the functions reach the results of C18 exactly if [k] is at least
    the number of values of the bucket of [pos] that have to be passed *)
Theorem C93_rounds : forall gr n m vs, ef_input n m vs -> exists ef, ef_make gr n m vs true = Ok ef /\
  forall pos k, 0 <= pos < n ->
    ef_rank_in k ef pos = (if rank_rounds n m vs pos <=? Z.of_nat k then Ok (zlen (filter (fun v => v <? pos) vs)) else Ub OutOfFuel) /\
    ef_get_in k ef pos = (if get_rounds n m vs pos <=? Z.of_nat k then Ok (existsb (fun v => v =? pos) vs) else Ub OutOfFuel).
Proof. exact ef_rounds. Qed.
Print Assumptions C93_rounds.
Definition C93_vals : list Z := [3; 5; 9; 40; 41; 42; 45; 47; 90].
Example C93_rounds_ex : ef_input 100 9 C93_vals /\ bucket 100 9 = 8 /\ rank_rounds 100 9 C93_vals 41 = 4 /\ get_rounds 100 9 C93_vals 43 = 3 /\
  (do ef <- ef_make (fun c _ => 2 * c) 100 9 C93_vals true; do r <- ef_rank_in 4 ef 41; do g <- ef_get_in 3 ef 43; Ok (r, g)) = Ok (4, false) /\
  (do ef <- ef_make (fun c _ => 2 * c) 100 9 C93_vals true; ef_rank_in 3 ef 41) = Ub OutOfFuel.
Proof. split; [repeat split; try lia; try discriminate; repeat constructor; lia|]. repeat split; vm_compute; reflexivity. Qed.

(** C93: no more than the width of a bucket for distinct values, and buckets are no wider than the average gap *)
Theorem C93_distinct : forall n m vs pos, 0 <= n -> 0 <= m -> 0 <= pos -> StronglySorted Z.lt vs ->
  rank_rounds n m vs pos <= bucket n m - pos mod bucket n m /\ get_rounds n m vs pos <= bucket n m - pos mod bucket n m /\
  1 <= bucket n m <= Z.max 1 (n / Z.max 1 m).
Proof. exact distinct_bound. Qed.
Print Assumptions C93_distinct.
(** the bound is reached *)
Example C93_distinct_ex : StronglySorted Z.lt [7; 8; 9; 10; 11; 30] /\ bucket 30 6 = 4 /\ rank_rounds 30 6 [7; 8; 9; 10; 11; 30] 8 = 4.
Proof. split; [repeat constructor; lia|]. split; reflexivity. Qed.

(** C93: with repetitions a single call may pass all values *)
Theorem C93_repeated : forall n m v j, rank_rounds n m (repeat v j) v = Z.of_nat j.
Proof. exact repeated_rounds. Qed.
Print Assumptions C93_repeated.
Example C93_repeated_ex :
  (do ef <- ef_make (fun c _ => 2 * c) 1000 20 (repeat 77 20) true; ef_rank_in 20 ef 77) = Ok 0 /\
  (do ef <- ef_make (fun c _ => 2 * c) 1000 20 (repeat 77 20) true; ef_rank_in 19 ef 77) = Ub OutOfFuel.
Proof. split; vm_compute; reflexivity. Qed.
