(** C83: what is reserved up front is enough. *)
From Verif Require Import Base Spec M_BitVector M_EliasFano M_Cartesian S_BitVector S_EliasFano S_Presize P_Presize.

(** After reserve(n) the words of a builder do not move while its bits are at most [n], whatever calls
    follow. [b_gen] changes at every reallocation. *)
Theorem C83_builder : forall gr os i n os', legal_run seqs0 (os ++ Reserve i n :: os') -> Forall (stays i n) os' ->
  zlen (spec_run seqs0 (os ++ Reserve i n :: os') i) <= n ->
  exists st st', run gr builders0 (os ++ [Reserve i n]) = Ok st /\ run gr st os' = Ok st' /\
    b_gen (st' i) = b_gen (st i) /\ b_cap (st' i) = b_cap (st i).
Proof. exact history_reserve. Qed.
Print Assumptions C83_builder.
Definition C83_after : list op := [PushBack 0 true; OneExtend 0 100; New 1 30 true; Append 0 1; Reverse 0; AppendBits 0 5 3].
Example C83_builder_ex : legal_run seqs0 (Reserve 0 140 :: C83_after) /\ Forall (stays 0 140) C83_after /\
  zlen (spec_run seqs0 (Reserve 0 140 :: C83_after) 0%nat) = 134.
Proof.
  split; [|split].
  - unfold C83_after. cbn [legal_run legal]. repeat split; try lia; try (left; reflexivity); try discriminate; vm_compute; reflexivity.
  - unfold C83_after. repeat constructor; discriminate.
  - vm_compute. reflexivity.
Qed.

(** elias_fano_builder(n, m) reallocates neither bit vector in up to m calls of push_back. Where
    std::vector allocates no more than asked for and all m calls are made, nothing is wasted. *)
Theorem C83_elias_fano : forall gr n m vs, ef_input n m vs ->
  exists b0 b, ef_builder_new gr n m = Ok b0 /\ ef_push_all gr b0 vs = Ok b /\
    b_gen (eb_low b) = b_gen (eb_low b0) /\ b_cap (eb_low b) = b_cap (eb_low b0) /\
    b_gen (eb_high b) = b_gen (eb_high b0) /\ b_cap (eb_high b) = b_cap (eb_high b0) /\
    ((forall k x, gr k x <= x) -> zlen vs = m -> b_cap (eb_low b0) = zlen (b_bits (eb_low b))).
Proof. exact elias_fano_reserve. Qed.
Print Assumptions C83_elias_fano.
Example C83_elias_fano_ex : ef_input 1000000 9 [3; 70; 70; 512; 9999; 10000; 123456; 500000; 1000000] /\
  (do b0 <- ef_builder_new (fun _ _ => 0) 1000000 9; Ok (b_gen (eb_low b0), b_cap (eb_low b0), eb_l b0)) = Ok (1, 3, 16).
Proof.
  split; [|vm_compute; reflexivity].
  unfold ef_input. repeat split; try lia; try (vm_compute; discriminate); repeat constructor; lia.
Qed.

(** cartesian_tree::builder(expected_size) does not reallocate its parentheses for up to
    expected_size elements, the final calls included. *)
Theorem C83_cartesian : forall (T : Type) (comp : T -> T -> bool) gr e v, 0 < e -> 2 * e + 2 < 2 ^ 64 -> zlen v <= e ->
  exists c0 c b, cb_new gr e = Ok c0 /\ cb_pushes gr comp c0 v = Ok c /\ cb_finalize gr c = Ok b /\
    b_gen (cb_bp c) = b_gen (cb_bp c0) /\ b_gen b = b_gen (cb_bp c0) /\ b_cap b = b_cap (cb_bp c0) /\
    ((forall k n, gr k n <= n) -> zlen v = e -> b_cap (cb_bp c0) = zlen (b_bits b)).
Proof. exact @cartesian_reserve. Qed.
Print Assumptions C83_cartesian.
Example C83_cartesian_ex :
  let v := repeat 1 20 ++ repeat 0 12 in
  (do c0 <- cb_new (fun _ _ => 0) 31; do c <- cb_pushes (fun _ _ => 0) Z.ltb c0 (firstn 31 v); do b <- cb_finalize (fun _ _ => 0) c;
   Ok (b_gen (cb_bp c0), b_cap (cb_bp c0), b_gen b, b_size b)) = Ok (1, 1, 1, 64) /\
  (do c0 <- cb_new (fun _ _ => 0) 31; do c <- cb_pushes (fun _ _ => 0) Z.ltb c0 v; do b <- cb_finalize (fun _ _ => 0) c;
   Ok (b_gen b, b_size b)) = Ok (2, 66).
Proof. split; vm_compute; reflexivity. Qed.
