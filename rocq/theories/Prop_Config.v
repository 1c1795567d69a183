(** Property C112: the configuration of the build changes no result *)
From Verif Require Import Base Spec M_Broadword M_BitVector M_Darray M_Gamma M_Nd M_Config S_BitVector P_Config.

(** C112: with any values of the two macros, with and without assertions, every function of broadword.hpp gives what its portable
    branch gives, on every word, the ones outside its contract included: the zero word, and a [k] that is too large *)
Theorem C112_same : forall dbg c x, is_u64 x ->
  c_popcount c x = popcount x /\ c_reverse_bytes c x = reverse_bytes x /\ c_reverse_bits c x = reverse_bits x /\
  (forall k, c_select_in_word dbg c x k = if dbg then select_in_word x k else nd_select_in_word x k) /\
  c_bit_position dbg c x = (if dbg then bit_position x else nd_bit_position x) /\
  c_msb_opt dbg c x = (if dbg then msb_opt x else nd_msb_opt x) /\ c_msb dbg c x = (if dbg then msb x else nd_msb x) /\
  c_lsb_opt dbg c x = (if dbg then lsb_opt x else nd_lsb_opt x) /\ c_lsb dbg c x = (if dbg then lsb x else nd_lsb x).
Proof. exact config_words. Qed.
Print Assumptions C112_same.
Example C112_same_ex : is_u64 0xF00F /\ cf_compiles (mk_config true true) = true /\ cf_compiles (mk_config false true) = false /\
  c_select_in_word true (mk_config true true) 0xF00F 5 = Ok 13 /\ c_select_in_word true (mk_config false false) 0xF00F 5 = Ok 13 /\
  c_select_in_word false (mk_config true true) 0xF00F 8 = Ub BadShift /\ c_select_in_word false (mk_config false false) 0xF00F 8 = Ub BadShift /\
  c_msb false (mk_config true false) 0 = Ok 255 /\ c_msb false (mk_config false false) 0 = Ok 255.
Proof. repeat split; reflexivity || (unfold is_u64; lia). Qed.

(** C112: all settings compile but popcnt without the intrinsics *)
Theorem C112_compiles : forall i p, cf_compiles (mk_config i p) = true <-> (p = true -> i = true).
Proof. exact compiles_iff. Qed.
Print Assumptions C112_compiles.
Example C112_compiles_ex : cf_compiles (mk_config true false) = true /\ cf_compiles (mk_config false true) = false.
Proof. split; reflexivity. Qed.

(** C112: and what they give is right *)
Theorem C112_right : forall dbg c x, is_u64 x ->
  c_popcount c x = Z.of_nat (count true (word_bits x)) /\ word_bits (c_reverse_bits c x) = rev (word_bits x) /\
  (forall i, (i < 8)%nat -> byte (c_reverse_bytes c x) i = byte x (7 - i)) /\
  (forall k, 0 <= k < Z.of_nat (count true (word_bits x)) -> exists p, c_select_in_word dbg c x k = Ok (Z.of_nat p) /\ is_select true (word_bits x) (Z.to_nat k) p) /\
  (forall p, (0 <= p /\ Z.testbit x p = true /\ forall i, p < i -> Z.testbit x i = false) -> c_msb_opt dbg c x = Ok (Some p) /\ c_msb dbg c x = Ok p) /\
  (forall p, (0 <= p /\ Z.testbit x p = true /\ forall i, 0 <= i < p -> Z.testbit x i = false) -> c_lsb_opt dbg c x = Ok (Some p) /\ c_lsb dbg c x = Ok p).
Proof. exact config_spec. Qed.
Print Assumptions C112_right.
Example C112_right_ex : is_u64 0xF00F /\ c_popcount (mk_config true true) 0xF00F = 8 /\ c_reverse_bytes (mk_config true true) 0xF00F = 0x0FF0000000000000 /\
  c_msb true (mk_config true true) 0xF00F = Ok 15 /\ c_lsb false (mk_config true true) 0xF00 = Ok 8.
Proof. repeat split; reflexivity || (unfold is_u64; lia). Qed.

(** C112: the prefetch of an enumerator's constructor points into the words or right behind them for every position of the vector
    and its end, and for exactly those whose word is not beyond that *)
Theorem C112_enumerator : forall l pos, 0 <= pos ->
  (c_enum_new (canonical l) pos = Ok (enum_new pos) <-> pos / 64 <= (zlen l + 63) / 64) /\
  (pos <= zlen l -> c_enum_new (canonical l) pos = Ok (enum_new pos)).
Proof. exact prefetch_canonical. Qed.
Print Assumptions C112_enumerator.
Example C112_enumerator_ex :
  c_enum_new (canonical [true; false; true]) 3 = Ok (enum_new 3) /\ c_enum_new (canonical [true; false; true]) 127 = Ok (enum_new 127) /\
  c_enum_new (canonical [true; false; true]) 128 = Ub OutOfBounds /\ c_enum_new (canonical []) 0 = Ok (enum_new 0).
Proof. repeat split; reflexivity. Qed.

(** C112: the enumerators of gamma_vector prefetch within the low bits, at every index *)
Theorem C112_gamma_vector : forall gr ints, Forall (fun x => 0 <= x < 2 ^ 64 - 1) ints -> zlen ints < 2 ^ 57 -> exists g, gv_build gr ints = Ok g /\
  forall idx, 0 <= idx -> c_gv_enum_new g idx = gv_enum_new g idx.
Proof. exact gv_prefetch. Qed.
Print Assumptions C112_gamma_vector.
Example C112_gamma_vector_ex : Forall (fun x => 0 <= x < 2 ^ 64 - 1) [2 ^ 63; 2 ^ 33; 0; 0] /\
  (do g <- gv_build (fun c _ => 2 * c) [2 ^ 63; 2 ^ 33; 0; 0]; do e <- c_gv_enum_new g 3; Ok (ge_pos e, bv_size (g_low g), zlen (bv_words (g_low g)))) = Ok (99, 96, 2).
Proof. split; [repeat (apply Forall_cons; [lia|]); apply Forall_nil|vm_compute; reflexivity]. Qed.

(** C112: and those of gamma_bit_vector *)
Theorem C112_gamma_bit_vector : forall gr ints, Forall (fun x => 0 <= x < 2 ^ 64 - 2) ints -> zlen ints < 2 ^ 57 -> exists g, gb_build gr ints = Ok g /\
  forall idx, 0 <= idx -> c_gb_enum_new g idx = gb_enum_new g idx.
Proof. exact gb_prefetch. Qed.
Print Assumptions C112_gamma_bit_vector.
Example C112_gamma_bit_vector_ex : Forall (fun x => 0 <= x < 2 ^ 64 - 2) [2 ^ 63; 0; 1] /\
  (do g <- gb_build (fun c _ => 2 * c) [2 ^ 63; 0; 1]; do e <- c_gb_enum_new g 2; Ok (ge_pos e, bv_size (g_low g), zlen (bv_words (g_low g)))) = Ok (64, 65, 2).
Proof. split; [repeat (apply Forall_cons; [lia|]); apply Forall_nil|vm_compute; reflexivity]. Qed.
