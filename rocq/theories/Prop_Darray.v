(** C15, C16: darray and darray64. *)
From Verif Require Import Base Spec M_BitVector S_BitVector M_Darray S_Darray P_Darray.

(** C15: [neg = false] is darray1, [neg = true] is darray0. Positions must be representable
    in int64_t. *)
Theorem C15_darray : forall neg l, zlen l < 2 ^ 63 -> exists d,
  darray_build neg (canonical l) = Ok d /\
  da_positions d = Z.of_nat (count (negb neg) l) /\
  forall i, 0 <= i < Z.of_nat (count (negb neg) l) ->
    exists q, darray_select neg d (canonical l) i = Ok (Z.of_nat q) /\
              is_select (negb neg) l (Z.to_nat i) q.
Proof. exact darray_all. Qed.
Print Assumptions C15_darray.
Definition C15_seq : list bool := repeat false 30 ++ repeat true 90 ++ repeat false 30 ++ repeat true 50.
Example C15_ex : zlen C15_seq < 2 ^ 63 /\ 0 <= 110 < Z.of_nat (count true C15_seq) /\
  (do d <- darray_build false (canonical C15_seq); darray_select false d (canonical C15_seq) 110) = Ok 170 /\
  (do d <- darray_build true (canonical C15_seq); darray_select true d (canonical C15_seq) 45) = Ok 135.
Proof. vm_compute. intuition congruence. Qed.

(** C15 for the two classes by name *)
Theorem C15_classes : forall l, zlen l < 2 ^ 63 -> exists d1 d0,
  darray_build false (canonical l) = Ok d1 /\ darray_build true (canonical l) = Ok d0 /\
  (forall i, 0 <= i < Z.of_nat (count true l) -> exists q, darray1_select d1 (canonical l) i = Ok (Z.of_nat q) /\ is_select true l (Z.to_nat i) q) /\
  (forall i, 0 <= i < Z.of_nat (count false l) -> exists q, darray0_select d0 (canonical l) i = Ok (Z.of_nat q) /\ is_select false l (Z.to_nat i) q).
Proof. exact darray_classes. Qed.
Print Assumptions C15_classes.
Example C15_classes_ex : zlen C15_seq < 2 ^ 63 /\
  (do d <- darray_build false (canonical C15_seq); darray1_select d (canonical C15_seq) 110) = Ok 170 /\
  (do d <- darray_build true (canonical C15_seq); darray0_select d (canonical C15_seq) 45) = Ok 135.
Proof. vm_compute. intuition congruence. Qed.

(** C16 *)
Theorem C16_darray64 : forall gr skips, Forall (fun s => 0 <= s <= 64) skips -> exists b d,
  append1_all gr d64_new skips = Ok b /\ d64_build b = Ok d /\
  d64_bits d = canonical (d64_seq skips) /\ d64_num_ones d = zlen skips /\
  forall i, 0 <= i < zlen skips ->
    exists q, d64_select d i = Ok (Z.of_nat q) /\ is_select true (d64_seq skips) (Z.to_nat i) q.
Proof. exact d64_all. Qed.
Print Assumptions C16_darray64.
Definition C16_skips : list Z := [64; 64; 5; 0; 3; 0].
Example C16_ex : Forall (fun s => 0 <= s <= 64) C16_skips /\ 0 <= 4 < zlen C16_skips /\
  (do b <- append1_all (fun c _ => 2 * c) d64_new C16_skips; do d <- d64_build b; d64_select d 4) = Ok 140.
Proof.
  split; [|vm_compute; intuition congruence].
  repeat constructor; discriminate.
Qed.
