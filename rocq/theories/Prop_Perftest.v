(** C73 and C74: the benchmark programs. *)
From Coq Require Import Sorted.
From Verif Require Import Base Spec M_Broadword M_BitVector M_RsBitVector M_Bp M_Cartesian M_EliasFano M_Gen M_Perftest.
From Verif Require Import S_BitVector S_Bp S_Cartesian S_Perftest P_Perftest P_Perftest2.

(** [n] calls of next give [n] values of [bits] bits in ascending order, and the generator is done after
    exactly [m] of them. *)
Theorem C73_generator : forall pick bits m n, draws pick -> 0 <= bits <= 64 -> 1 <= m < 2 ^ 64 -> Z.of_nat n <= m ->
  exists ws stack, mg_calls pick bits n 0 (mg_new m) = Ok (ws, stack) /\ length ws = n /\ StronglySorted Z.le ws /\
    Forall (fun w => 0 <= w < 2 ^ bits) ws /\ (mg_done stack = true <-> Z.of_nat n = m).
Proof. exact generator_ok. Qed.
Print Assumptions C73_generator.
Example C73_generator_ex : draws (fun k m => if Nat.even k then m / 2 else m) /\
  mg_calls (fun k m => if Nat.even k then m / 2 else m) 4 5 0 (mg_new 5) = Ok ([0; 3; 8; 10; 11], []).
Proof.
  split; [|vm_compute; reflexivity]. intros k m H. destruct (Nat.even k); [|lia]. split; [apply Z.div_pos; lia|apply Z.div_le_upper_bound; lia].
Qed.

(** The benchmark of elias_fano returns the exclusive or of the values it stored. *)
Theorem C73_benchmark : forall gr pick m bits, draws pick -> 0 <= bits < 64 -> 1 <= m < 2 ^ 61 ->
  exists ws, mg_calls pick bits (Z.to_nat m) 0 (mg_new m) = Ok (ws, []) /\ zlen ws = m /\ StronglySorted Z.le ws /\
    Forall (fun w => 0 <= w < 2 ^ bits) ws /\ ef_enumeration_benchmark gr pick m bits = Ok (xor_all ws).
Proof. exact ef_benchmark_ok. Qed.
Print Assumptions C73_benchmark.
Example C73_benchmark_ex : draws (fun k m => m / 3) /\ mg_calls (fun k m => m / 3) 6 5 0 (mg_new 5) = Ok ([31; 47; 55; 63; 63], []) /\
  ef_enumeration_benchmark (fun _ n => n) (fun k m => m / 3) 5 6 = Ok (xor_all [31; 47; 55; 63; 63]).
Proof.
  split; [|vm_compute; split; reflexivity]. intros k m H. split; [apply Z.div_pos; lia|apply Z.div_le_upper_bound; lia].
Qed.

(** With m = 0 no value is stored, and the assertion that the generator is done fails. *)
Theorem C73_empty_refuted : forall gr pick bits, 0 <= bits < 62 -> ef_enumeration_benchmark gr pick 0 bits = Ub AssertFailed.
Proof. exact ef_benchmark_empty. Qed.
Print Assumptions C73_empty_refuted.
Example C73_empty_ex : ef_enumeration_benchmark (fun _ n => n) (fun _ m => m) 0 10 = Ub AssertFailed.
Proof. vm_compute. reflexivity. Qed.

(** With 64 bits the universe cannot be formed; with more the generator shifts too far as soon as it draws 0. *)
Theorem C73_bits_refuted : (forall gr pick m bits, 64 <= bits -> ef_enumeration_benchmark gr pick m bits = Ub BadShift) /\
  (forall pick bits m, pick O m = 0 -> 64 < bits -> 1 <= m < 2 ^ 64 -> mg_next pick bits 0 (mg_new m) = Ub BadShift).
Proof. exact (conj ef_benchmark_bits generator_bits). Qed.
Print Assumptions C73_bits_refuted.
Example C73_bits_ex : mg_next (fun _ m => 0) 65 0 (mg_new 3) = Ub BadShift /\ mg_calls (fun _ m => 0) 64 2 0 (mg_new 2) = Ok ([2 ^ 64 - 1; 2 ^ 64 - 1], []).
Proof. vm_compute. split; reflexivity. Qed.

(** The benchmark loops run their body once. *)
Theorem C74_once : forall A (body : A -> res A) n a, timeit (S n) false body a = body a.
Proof. exact @timeit_once. Qed.
Print Assumptions C74_once.
Example C74_once_ex : timeit 3 false (fun x => Ok (x + 1)) 4 = Ok 5.
Proof. reflexivity. Qed.

(** On a random tree of at least 4 parentheses the visit ends, whatever the random bits: it calls find_close
    once per set bit and stays inside the tree. *)
Theorem C74_visit : forall f gr uninit rm rnd rnd' size sample fuel, 4 <= size < 2 ^ 31 -> size mod 2 = 0 -> 0 <= sample <= Z.of_nat fuel ->
  exists bp foo, build_random_binary_tree gr uninit rnd size = Ok bp /\ bp_size bp = size /\
  time_visit (loose_shift f) fuel rm rnd' bp sample = Ok (Z.of_nat (count true (random_bits rm rnd' sample)), foo) /\
  (0 < sample -> 1 <= foo < size).
Proof. exact visit_benchmark. Qed.
Print Assumptions C74_visit.
Definition steps7 (i : nat) : Z := Z.of_nat i * 7 mod 11.
Example C74_visit_ex : 4 <= 12 < 2 ^ 31 /\ random_bits 10 steps7 6 = [false; true; false; true; true; false] /\
  (do bp <- build_random_binary_tree (fun _ n => n) 0 steps7 12; time_visit (loose_shift (fun _ _ => 0)) 6 10 steps7 bp 6) = Ok (3, 2).
Proof. vm_compute. repeat split; congruence. Qed.

(** On the smallest tree the visit never ends: it has no node below the root. *)
Theorem C74_visit_refuted : forall sp gr uninit rm rnd rnd' sample fuel, 0 < sample -> exists bp,
  build_random_binary_tree gr uninit rnd 2 = Ok bp /\ time_visit sp fuel rm rnd' bp sample = Ub OutOfFuel.
Proof. exact visit_pair_forever. Qed.
Print Assumptions C74_visit_refuted.
Example C74_visit_refuted_ex : (do bp <- build_random_binary_tree (fun _ n => n) 0 steps7 2; time_visit strict_shift 9 10 steps7 bp 1) = Ub OutOfFuel.
Proof. vm_compute. reflexivity. Qed.

(** With the shifts of the C++ standard the visit can be undefined: find_close shifts by 64 at the last bit of a word. *)
Theorem C74_shift_refuted : exists gr uninit rnd rnd' rm bp, build_random_binary_tree gr uninit rnd 130 = Ok bp /\
  time_visit strict_shift 63 rm rnd' bp 63 = Ub BadShift.
Proof. exact visit_shift. Qed.
Print Assumptions C74_shift_refuted.
Example C74_shift_ex : exists bp, build_random_binary_tree (fun _ n => n) 0 left_path 130 = Ok bp /\ time_visit (loose_shift (fun _ _ => 0)) 63 10 last_step bp 63 = Ok (1, 67).
Proof. eexists. split; [vm_compute; reflexivity|]. vm_compute. reflexivity. Qed.

(** The benchmark of excess_rmq asks for ranges of the tree and gets leftmost minima. *)
Theorem C74_bp_rmq : forall gr uninit rnd rnd' size sample, 2 <= size < 2 ^ 31 -> size mod 2 = 0 -> 0 <= sample ->
  exists builder l ps foos, random_binary_tree (push_back gr) rnd (mk_builder [] 0 0 0 None) size = Ok builder /\
  bv_of_builder builder = Ok (bv_range l) /\ bal l /\ zlen l = size /\
  bp_rmq_run true gr uninit rnd rnd' size sample = Ok (ps, foos) /\ zlen ps = sample /\
  Forall (fun ab => 0 <= fst ab <= snd ab /\ snd ab < size) ps /\
  Forall2 (fun ab p => leftmost_min_depth l (fst ab) (snd ab) p) ps foos.
Proof. exact bp_rmq_benchmark. Qed.
Print Assumptions C74_bp_rmq.
Example C74_bp_rmq_ex : bp_rmq_run true (fun _ n => n) 0 steps7 steps7 12 4 = Ok ([(0, 7); (3, 4); (6, 8); (9, 11)], [0; 3; 8; 11]).
Proof. vm_compute. reflexivity. Qed.

(** So does the one of cartesian_tree. *)
Theorem C74_ct_rmq : forall gr uninit rnd rnd' n sample, 1 <= n -> 2 * n + 2 < 2 ^ 31 -> 0 <= sample ->
  exists ps foos, ct_rmq_run true gr uninit rnd rnd' n sample = Ok (ps, foos) /\ zlen ps = sample /\
  Forall (fun ab => 0 <= fst ab <= snd ab /\ snd ab < n) ps /\
  Forall2 (fun ab p => 0 <= p /\ leftmost_min Z.ltb (random_values rnd n) (Z.to_nat (fst ab)) (Z.to_nat (snd ab)) (Z.to_nat p)) ps foos.
Proof. exact ct_rmq_benchmark. Qed.
Print Assumptions C74_ct_rmq.
Example C74_ct_rmq_ex : random_values steps7 9 = [0; 7; 3; 10; 6; 2; 9; 5; 1] /\
  ct_rmq_run true (fun _ n => n) 0 steps7 steps7 9 4 = Ok ([(0, 7); (3, 7); (6, 8); (0, 5)], [0; 5; 8; 0]).
Proof. vm_compute. split; reflexivity. Qed.

(** Without values the ranges are drawn modulo 0. *)
Theorem C74_empty_refuted : forall gr uninit rnd rnd' sample, 0 < sample -> ct_rmq_run true gr uninit rnd rnd' 0 sample = Ub DivByZero.
Proof. exact ct_rmq_empty. Qed.
Print Assumptions C74_empty_refuted.
Example C74_empty_ex : ct_rmq_run true (fun _ n => n) 0 steps7 steps7 0 1 = Ub DivByZero.
Proof. vm_compute. reflexivity. Qed.
