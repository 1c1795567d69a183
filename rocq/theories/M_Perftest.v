(** Model of the benchmark programs in perftest/. The times they print are not modelled; [rnd i] is the
    i-th value of rand(). The main functions run these functions for the sizes 2^10, 2^12, ..., 2^28 and
    print the averages. *)
From Verif Require Import Base M_BitVector M_RsBitVector M_Bp M_Cartesian M_EliasFano M_Gen.

(** ** perftest_common.hpp *)

(** perftest_common.hpp:29-33: the loop runs until report (16-19) has set m_done; [done] is m_done and
    [fuel] bounds the rounds *)
Fixpoint timeit {A} (fuel : nat) (done : bool) (body : A -> res A) (a : A) : res A :=
  if done then Ok a
  else
    match fuel with
    | O => Ub OutOfFuel
    | S fuel => do a <- body a; timeit fuel true body a
    end.

(** ** perftest_elias_fano.cpp *)

(** perftest_elias_fano.cpp:68-70: cur_word, cur_m and cur_depth *)
Definition state_t : Type := Z * Z * Z.

(** perftest_elias_fano.cpp:34-52. The stack has its back first. [pick k m] is the k-th value drawn,
    between 0 and [m] (35-36); [k] values were drawn before. [fuel] bounds the rounds. *)
Fixpoint descend (pick : nat -> Z -> Z) (bits : Z) (fuel : nat) (k : nat) (stack : list state_t) (cur_word cur_m cur_depth : Z)
  : res (state_t * list state_t * nat) :=
  if cur_depth <? bits then
    match fuel with
    | O => Ub OutOfFuel
    | S fuel =>
        let left_m := pick k cur_m in
        let right_m := sub64 cur_m left_m in
        do stack <-
          (if 0 <? right_m then
             do x <- shl 1 (bits - cur_depth - 1);
             Ok ((Z.lor cur_word x, right_m, cur_depth + 1) :: stack)
           else Ok stack);
        let stack := if 0 <? left_m then (cur_word, left_m, cur_depth + 1) :: stack else stack in
        match stack with
        | [] => Ub OutOfBounds
        | (w, m, d) :: stack => descend pick bits fuel (S k) stack w m (u8 d)
        end
    end
  else Ok ((cur_word, cur_m, cur_depth), stack, k).

(** perftest_elias_fano.cpp:25-60; the word, the stack and the number of values drawn *)
Definition mg_next (pick : nat -> Z -> Z) (bits : Z) (k : nat) (stack : list state_t) : res (Z * list state_t * nat) :=
  match stack with
  | [] => Ub AssertFailed
  | (w, m, d) :: stack =>
      do (s, stack, k) <- descend pick bits (Z.to_nat bits) k stack w m (u8 d);
      let '(w, m, d) := s in
      Ok (w, if 1 <? m then (w, sub64 m 1, d) :: stack else stack, k)
  end.

(** perftest_elias_fano.cpp:18-23 *)
Definition mg_new (m : Z) : list state_t := [(0, m, 0)].
(** perftest_elias_fano.cpp:62-65 *)
Definition mg_done (stack : list state_t) : bool := match stack with [] => true | _ => false end.

(** perftest_elias_fano.cpp:80-82, [n] iterations left *)
Fixpoint ef_fill (gr : growth) (pick : nat -> Z -> Z) (bits : Z) (n : nat) (k : nat) (stack : list state_t) (b : ef_builder)
  : res (ef_builder * list state_t) :=
  match n with
  | O => Ok (b, stack)
  | S n =>
      do (w, stack, k) <- mg_next pick bits k stack;
      do b <- ef_push gr b w;
      ef_fill gr pick bits n k stack b
  end.

(** perftest_elias_fano.cpp:93-95, [n] iterations left *)
Fixpoint ef_xor (ef : elias_fano) (n : nat) (it : select_enum) (foo : Z) : res Z :=
  match n with
  | O => Ok foo
  | S n => do (x, it) <- se_next ef it; ef_xor ef n it (Z.lxor foo x)
  end.

(** perftest_elias_fano.cpp:76-98; the result is foo. The size tree printed at 86 is not modelled here
    (see M_Dump). *)
Definition ef_enumeration_benchmark (gr : growth) (pick : nat -> Z -> Z) (m bits : Z) : res Z :=
  do u <- shl 1 bits;
  do bvb <- ef_builder_new gr u m;
  do (bvb, stack) <- ef_fill gr pick bits (Z.to_nat m) 0 (mg_new m) bvb;
  assert! (mg_done stack);
  do ef <- ef_build bvb true;
  timeit 1 false (fun foo => do it <- se_new ef 0; ef_xor ef (Z.to_nat m) it foo) 0.

(** ** perftest_bp_vector.cpp *)

(** perftest_bp_vector.cpp:43-46 *)
Definition random_bits (rand_max : Z) (rnd : nat -> Z) (sample_size : Z) : list bool :=
  map (fun i => rand_max / 2 <? rnd i) (seq 0 (Z.to_nat sample_size)).

(** perftest_bp_vector.cpp:57-65: steps_done, cur_node and find_close_performed. [fuel] bounds the rounds. *)
Fixpoint visit_node (sp : shift_policy) (bp : bp_vector) (bits : list bool) (fuel : nat) (steps cur closes : Z)
  : res (Z * Z * Z) :=
  do x <- bv_get (rs_bv (bp_rs bp)) cur;
  if (x : bool) && (steps <? zlen bits) then
    match fuel with
    | O => Ub OutOfFuel
    | S fuel =>
        do r <- rd bits steps;
        if (r : bool) then
          do next <- find_close sp bp cur;
          visit_node sp bp bits fuel (steps + 1) (u64 (next + 1)) (closes + 1)
        else visit_node sp bp bits fuel (steps + 1) (u64 (cur + 1)) closes
    end
  else Ok (steps, cur, closes).

(** perftest_bp_vector.cpp:54-67: steps_done, find_close_performed and foo. [fuel] bounds the rounds. *)
Fixpoint visits (sp : shift_policy) (bp : bp_vector) (bits : list bool) (fuel : nat) (steps closes foo : Z) : res (Z * Z * Z) :=
  if steps <? zlen bits then
    match fuel with
    | O => Ub OutOfFuel
    | S fuel =>
        do (steps, cur, closes) <- visit_node sp bp bits (length bits) steps 1 closes;
        visits sp bp bits fuel steps closes cur
    end
  else Ok (steps, closes, foo).

(** perftest_bp_vector.cpp:40-72; find_close_performed and foo *)
Definition time_visit (sp : shift_policy) (fuel : nat) (rand_max : Z) (rnd : nat -> Z) (bp : bp_vector) (sample_size : Z) : res (Z * Z) :=
  let bits := random_bits rand_max rnd sample_size in
  timeit 1 false (fun _ => do (_, closes, foo) <- visits sp bp bits fuel 0 0 0; Ok (closes, foo)) (0, 0).

(** perftest_bp_vector.cpp:74-80 with 22-25, and perftest_bp_vector_rmq.cpp:39-44. [uninit] is the field the
    constructor of bp_vector leaves unset for an empty sequence. The swap is left out, see M_Swap. *)
Definition build_random_binary_tree (gr : growth) (uninit : Z) (rnd : nat -> Z) (size : Z) : res bp_vector :=
  do builder <- random_binary_tree (push_back gr) rnd (mk_builder [] 0 0 0 None) size;
  do bv <- bv_of_builder builder;
  bp_build uninit bv true false.

(** ** perftest_bp_vector_rmq.cpp and perftest_cartesian_tree.cpp *)

(** perftest_bp_vector_rmq.cpp:17-21 and perftest_cartesian_tree.cpp:17-21, [n] iterations left; [i] calls of
    rand() were made before *)
Fixpoint pairs_sample (rnd : nat -> Z) (size : Z) (n i : nat) : res (list (Z * Z)) :=
  match n with
  | O => Ok []
  | S n =>
      do a <- umod (u64 (rnd i)) size;
      do r <- umod (u64 (rnd (S i))) (sub64 size a);
      do ps <- pairs_sample rnd size n (S (S i));
      Ok ((a, u64 (a + r)) :: ps)
  end.

(** perftest_bp_vector_rmq.cpp:28-32 and perftest_cartesian_tree.cpp:28-32: the values foo takes *)
Fixpoint rmq_loop (rmq : Z -> Z -> res Z) (pairs : list (Z * Z)) : res (list Z) :=
  match pairs with
  | [] => Ok []
  | (a, b) :: pairs => do p <- rmq a b; do ps <- rmq_loop rmq pairs; Ok (p :: ps)
  end.

(** perftest_bp_vector_rmq.cpp:13-37 and perftest_cartesian_tree.cpp:13-37 *)
Definition time_avg_rmq (rmq : Z -> Z -> res Z) (rnd : nat -> Z) (size sample_size : Z) : res (list (Z * Z) * list Z) :=
  do pairs <- pairs_sample rnd size (Z.to_nat sample_size) 0;
  do foos <- timeit 1 false (fun _ => rmq_loop rmq pairs) [];
  Ok (pairs, foos).

(** perftest_bp_vector_rmq.cpp:58-60; [cs] says whether plain char is signed, [rnd'] are the values of rand() after the
    tree was made *)
Definition bp_rmq_run (cs : bool) (gr : growth) (uninit : Z) (rnd rnd' : nat -> Z) (size sample_size : Z) : res (list (Z * Z) * list Z) :=
  do bp <- build_random_binary_tree gr uninit rnd size;
  time_avg_rmq (fun a b => do (p, _) <- excess_rmq cs bp a b; Ok p) rnd' (bp_size bp) sample_size.

(** perftest_cartesian_tree.cpp:51-54 *)
Definition random_values (rnd : nat -> Z) (n : Z) : list Z := map (fun i => u64 (rnd i) mod 1024) (seq 0 (Z.to_nat n)).
(** perftest_cartesian_tree.cpp:51-57 *)
Definition ct_rmq_run (cs : bool) (gr : growth) (uninit : Z) (rnd rnd' : nat -> Z) (n sample_size : Z) : res (list (Z * Z) * list Z) :=
  do tree <- ct_build gr uninit Z.ltb 0 (random_values rnd n);
  time_avg_rmq (ct_rmq cs tree) rnd' (ct_size tree) sample_size.
