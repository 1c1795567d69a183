(** C23, C24, C50: gamma_vector and gamma_bit_vector. *)
From Verif Require Import Base Spec M_BitVector M_Gamma S_Gamma P_Gamma.

Definition g_grow : growth := fun c _ => 2 * c.
Definition g_ints : list Z := [7; 0; 2 ^ 64 - 3; 0; 1; 12345].

(** C23 *)
Theorem C23_gamma_vector : forall gr ints, Forall (fun x => 0 <= x < 2 ^ 64 - 1) ints ->
  zlen ints < 2 ^ 57 -> exists g,
  gv_build gr ints = Ok g /\ gamma_size g = zlen ints /\
  (forall i x, nth_error ints i = Some x -> gv_get g (Z.of_nat i) = Ok x) /\
  (forall i, (i < length ints)%nat -> exists e, gv_enum_new g (Z.of_nat i) = Ok e /\
     forall k, (i + k <= length ints)%nat -> gv_run g e k = Ok (window ints i k)).
Proof. exact gv_all. Qed.
Print Assumptions C23_gamma_vector.
Example C23_ex : Forall (fun x => 0 <= x < 2 ^ 64 - 1) g_ints /\ zlen g_ints < 2 ^ 57 /\
  (do g <- gv_build g_grow g_ints; do x <- gv_get g 2; do e <- gv_enum_new g 1; do vs <- gv_run g e 5; Ok (x, vs)) =
  Ok (2 ^ 64 - 3, [0; 2 ^ 64 - 3; 0; 1; 12345]).
Proof. split; [repeat constructor; discriminate|]. vm_compute. auto. Qed.

(** C24 *)
Theorem C24_gamma_bit_vector : forall gr ints, Forall (fun x => 0 <= x < 2 ^ 64 - 2) ints ->
  zlen ints < 2 ^ 57 -> exists g,
  gb_build gr ints = Ok g /\ gamma_size g = zlen ints /\
  (forall i x, nth_error ints i = Some x -> gb_get g (Z.of_nat i) = Ok x) /\
  (forall i, (i < length ints)%nat -> exists e, gb_enum_new g (Z.of_nat i) = Ok e /\
     forall os rs, gop_spec (skipn i ints) os = Some rs -> gb_run g e os = Ok rs).
Proof. exact gb_all. Qed.
Print Assumptions C24_gamma_bit_vector.
Example C24_ex : Forall (fun x => 0 <= x < 2 ^ 64 - 2) g_ints /\ zlen g_ints < 2 ^ 57 /\
  gop_spec (skipn 1 g_ints) [GNext; GNext; GSkip 2; GNext] = Some [0; 2 ^ 64 - 3; 12345] /\
  (do g <- gb_build g_grow g_ints; do x <- gb_get g 2; do e <- gb_enum_new g 1;
   do vs <- gb_run g e [GNext; GNext; GSkip 2; GNext]; Ok (x, vs)) =
  Ok (2 ^ 64 - 3, [0; 2 ^ 64 - 3; 12345]).
Proof. split; [repeat constructor; discriminate|]. vm_compute. auto. Qed.

(** C50: the assertion of next() lets a call past the end through, which then reads outside
    the bit vector *)
Theorem C50_next_at_end_refuted :
  ~ (forall gr ints g e, Forall (fun x => 0 <= x < 2 ^ 64 - 1) ints -> gv_build gr ints = Ok g ->
     gv_enum_new g (zlen ints) = Ok e -> gv_enum_next g e = Ub AssertFailed).
Proof. exact next_at_end_false. Qed.
Print Assumptions C50_next_at_end_refuted.
Example C50_ex :
  (do g <- gv_build g_grow []; do e <- gv_enum_new g 0; gv_enum_next g e) = Ub OutOfBounds /\
  (do g <- gv_build g_grow [4; 9]; do e <- gv_enum_new g 0; do (_, e) <- gv_enum_next g e;
   do (_, e) <- gv_enum_next g e; gv_enum_next g e) = Ub OutOfBounds /\
  (do g <- gb_build g_grow [4; 9]; do e <- gb_enum_new g 0; do e <- gb_enum_skip g e 2; gb_enum_next g e) =
  Ub OutOfBounds.
Proof. vm_compute. auto. Qed.
