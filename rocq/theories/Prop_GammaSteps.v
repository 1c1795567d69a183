(** Property C108: enumerating gamma codes costs one pass over their words *)
From Verif Require Import Base Spec M_BitVector M_Darray M_Gamma S_Gamma M_GammaSteps S_GammaSteps P_GammaSteps.

(** C108: the counted functions are the modelled ones: without the counts they give the same results and fail alike *)
Theorem C108_same : forall g e k,
  ((do (v, e', _, _) <- gv_next_c g e; Ok (v, e')) = gv_enum_next g e /\ (do (vs, _, _) <- gv_run_c g e k; Ok vs) = gv_run g e k) /\
  ((do (v, e', _, _) <- gb_next_c g e; Ok (v, e')) = gb_enum_next g e /\ (do (vs, _, _) <- gb_run_c g e k; Ok vs) = gb_run g e (repeat GNext k)).
Proof. exact (fun g e k => conj (conj (gv_next_same g e) (gv_run_same g k e)) (conj (gb_next_same g e) (gb_run_same g k e))). Qed.
Print Assumptions C108_same.

(** C108: [S k] calls of next from number [i] on take as many rounds over the high bits as there are word boundaries between
    behind the one of the first value and the one of the value after the last, and read the low bits in words of which on
    average at least half is used *)
Theorem C108_gamma_vector : forall gr ints, Forall (fun x => 0 <= x < 2 ^ 64 - 1) ints -> zlen ints < 2 ^ 57 -> exists g, gv_build gr ints = Ok g /\
  forall i k, (i + S k <= length ints)%nat -> exists e r, gv_enum_new g (Z.of_nat i) = Ok e /\
  gv_run_c g e (S k) = Ok (window ints i (S k), gv_place ints (i + S k) / 64 - (gv_place ints i + 1) / 64, r) /\
  reads_fit (payload 1 (window ints i (S k))) (S k) r.
Proof. exact gv_cost. Qed.
Print Assumptions C108_gamma_vector.
Definition C108_ints : list Z := [2 ^ 33; 2 ^ 34; 0; 5; 2 ^ 40; 2 ^ 50; 1; 2].
Example C108_gamma_vector_ex : Forall (fun x => 0 <= x < 2 ^ 64 - 1) C108_ints /\ zlen C108_ints < 2 ^ 57 /\
  gv_place C108_ints 6 = 165 /\ payload 1 (window C108_ints 1 5) = 126 /\
  (do g <- gv_build (fun c _ => 2 * c) C108_ints; do e <- gv_enum_new g 1; gv_run_c g e 5) = Ok ([2 ^ 34; 0; 5; 2 ^ 40; 2 ^ 50], 2, 3).
Proof.
  split; [|split; [vm_compute; reflexivity|split; [reflexivity|split; [reflexivity|vm_compute; reflexivity]]]].
  unfold C108_ints. repeat (apply Forall_cons; [lia|]). apply Forall_nil.
Qed.

(** C108: the same for gamma_bit_vector, whose high bits are one shorter for each value *)
Theorem C108_gamma_bit_vector : forall gr ints, Forall (fun x => 0 <= x < 2 ^ 64 - 2) ints -> zlen ints < 2 ^ 57 -> exists g, gb_build gr ints = Ok g /\
  forall i k, (i + S k <= length ints)%nat -> exists e r, gb_enum_new g (Z.of_nat i) = Ok e /\
  gb_run_c g e (S k) = Ok (window ints i (S k), gb_place ints (i + S k) / 64 - (gb_place ints i + 1) / 64, r) /\
  reads_fit (payload 2 (window ints i (S k))) (S k) r.
Proof. exact gb_cost. Qed.
Print Assumptions C108_gamma_bit_vector.
Example C108_gamma_bit_vector_ex : Forall (fun x => 0 <= x < 2 ^ 64 - 2) C108_ints /\
  gb_place C108_ints 6 = 160 /\ payload 2 (window C108_ints 1 5) = 127 /\
  (do g <- gb_build (fun c _ => 2 * c) C108_ints; do e <- gb_enum_new g 1; gb_run_c g e 5) = Ok ([2 ^ 34; 0; 5; 2 ^ 40; 2 ^ 50], 2, 3).
Proof.
  split; [|split; [reflexivity|split; [reflexivity|vm_compute; reflexivity]]].
  unfold C108_ints. repeat (apply Forall_cons; [lia|]). apply Forall_nil.
Qed.

(** C108: so the rounds are bounded by the length of the codes, however they are distributed *)
Theorem C108_bound : forall ints i k, Forall (fun x => 0 <= x) ints -> (i + S k <= length ints)%nat ->
  (let rounds := gv_place ints (i + S k) / 64 - (gv_place ints i + 1) / 64 in 0 <= rounds /\ 64 * rounds <= payload 1 (window ints i (S k)) + Z.of_nat (S k) + 62) /\
  (let rounds := gb_place ints (i + S k) / 64 - (gb_place ints i + 1) / 64 in 0 <= rounds /\ 64 * rounds <= payload 2 (window ints i (S k)) + 62).
Proof. exact rounds_bound. Qed.
Print Assumptions C108_bound.
Example C108_bound_ex : Forall (fun x => 0 <= x) C108_ints /\ (1 + 5 <= length C108_ints)%nat /\
  gv_place C108_ints 6 / 64 - (gv_place C108_ints 1 + 1) / 64 = 2 /\ payload 1 (window C108_ints 1 5) + 5 + 62 = 193.
Proof.
  split; [unfold C108_ints; repeat (apply Forall_cons; [lia|]); apply Forall_nil|]. split; [cbn; lia|]. split; reflexivity.
Qed.
