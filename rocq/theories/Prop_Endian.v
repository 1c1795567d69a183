(** C84: byte order. *)
From Verif Require Import Base Spec M_BitVector M_Mapper M_Endian S_BitVector S_Mapper P_Mapper P_Endian.

(** On a machine of either order a structure frozen there maps back to itself. What is missing for the
    full claim is an exchange of files between the orders, refuted below. *)
Theorem C84_roundtrip_partial : forall big A (M : mappable A) x flags pre post,
  typed (layout_of M) (data_of M x) -> 8 + frozen_size (layout_of M) (data_of M x) < 2 ^ 64 -> 0 <= flags < 2 ^ 64 ->
  exists bytes, e_freeze big (layout_of M) (data_of M x) flags = (bytes, zlen bytes) /\
    zlen bytes = 8 + frozen_size (layout_of M) (data_of M x) /\
    e_map_at big (pre ++ bytes ++ post) (layout_of M) (zlen pre) = Ok (data_of M x, zlen bytes).
Proof. exact (fun big A M x => e_roundtrip big (layout_of M) (data_of M x)). Qed.
Print Assumptions C84_roundtrip_partial.
Definition C84_seq : list bool := [true; false; true] ++ repeat false 60 ++ [true; true; false; true].
Example C84_roundtrip_ex : typed (layout_of bv_map) (data_of bv_map (canonical C84_seq)) /\
  8 + frozen_size (layout_of bv_map) (data_of bv_map (canonical C84_seq)) = 40 /\
  e_freeze true (layout_of bv_map) (data_of bv_map (canonical C84_seq)) 7 =
  ([0; 0; 0; 0; 0; 0; 0; 7; 0; 0; 0; 0; 0; 0; 0; 67; 0; 0; 0; 0; 0; 0; 0; 2; 128; 0; 0; 0; 0; 0; 0; 5; 0; 0; 0; 0; 0; 0; 0; 5], 40).
Proof. split; [apply bv_typed; vm_compute; reflexivity|]. split; vm_compute; reflexivity. Qed.

(** with the little-endian order the three operations are those of the other claims *)
Theorem C84_little : (forall l d flags, e_freeze false l d flags = freeze l d flags) /\
  (forall addr mem l base, e_map_at false mem l base = map_at false addr mem l base) /\
  (forall bv pos, e_get_word56 false bv pos = get_word56 bv pos).
Proof. exact (conj e_freeze_little (conj e_map_little e_word56_little)). Qed.
Print Assumptions C84_little.
Example C84_little_ex : e_get_word56 false (canonical (C84_seq ++ repeat true 61)) 61 = Ok (2 ^ 59 - 1 - 2 ^ 4 - 3) /\
  e_get_word56 true (canonical (C84_seq ++ repeat true 61)) 61 <> Ok (2 ^ 59 - 1 - 2 ^ 4 - 3).
Proof. split; vm_compute; congruence. Qed.

(** A bit_vector frozen on one order and mapped on the other reads outside the memory, unless that has
    32 GB. *)
Theorem C84_other_refuted : forall big l flags pre post bytes, 0 < zlen l < 2 ^ 32 -> zlen (pre ++ bytes ++ post) < 2 ^ 35 ->
  bytes = fst (e_freeze big (layout_of bv_map) (data_of bv_map (canonical l)) flags) ->
  e_map_at (negb big) (pre ++ bytes ++ post) (layout_of bv_map) (zlen pre) = Ub OutOfBounds.
Proof. exact e_other. Qed.
Print Assumptions C84_other_refuted.
Example C84_other_ex : 0 < zlen C84_seq < 2 ^ 32 /\
  zlen ([] ++ fst (e_freeze true (layout_of bv_map) (data_of bv_map (canonical C84_seq)) 7) ++ [1; 2]) < 2 ^ 35.
Proof. vm_compute. intuition congruence. Qed.

(** The same holds for every class whose first member is a 64-bit number, as the size of bit_vector,
    rs_bit_vector, bp_vector, darray, darray64, elias_fano and nibble_vector: nothing mapped has the
    number that was frozen. *)
Theorem C84_first_refuted : forall big nm ms n ds flags pre post d r, 0 < n < 2 ^ 32 ->
  typed_members ms ds -> 16 + frozen_sizes ms ds < 2 ^ 64 ->
  e_map_at (negb big) (pre ++ fst (e_freeze big (LObj (MCons nm uint64 ms)) (DObj (DCons (DPod n) ds)) flags) ++ post) (LObj (MCons nm uint64 ms)) (zlen pre) = Ok (d, r) ->
  exists n' ds', d = DObj (DCons (DPod n') ds') /\ 2 ^ 32 <= n'.
Proof. exact e_other_first. Qed.
Print Assumptions C84_first_refuted.
Example C84_first_ex : 
  e_map_at false (fst (e_freeze true (layout_of nv_map) (data_of nv_map (M_Util.mk_nv 3 [])) 0)) (layout_of nv_map) 0 =
  Ok (data_of nv_map (M_Util.mk_nv (3 * 2 ^ 56) []), 24).
Proof. vm_compute. reflexivity. Qed.

(** get_word56 is right on a big-endian machine when the byte it starts at begins a word. *)
Theorem C84_get_word56_partial : forall big l pos, 0 <= pos -> pos / 8 + 8 <= 8 * zlen (pack l) -> big = false \/ (pos / 8) mod 8 = 0 ->
  exists r, e_get_word56 big (canonical l) pos = Ok r /\ r mod 2 ^ 56 = value (window l (Z.to_nat pos) 56).
Proof. exact word56_partial. Qed.
Print Assumptions C84_get_word56_partial.
Example C84_get_word56_partial_ex : 66 / 8 + 8 <= 8 * zlen (pack (C84_seq ++ repeat true 61)) /\ (66 / 8) mod 8 = 0 /\
  e_get_word56 true (canonical (C84_seq ++ repeat true 61)) 66 = Ok (2 ^ 62 - 1).
Proof. vm_compute. intuition congruence. Qed.

(** Otherwise its lowest bit is one of the next word. *)
Theorem C84_get_word56_refuted : forall l pos, 0 <= pos -> pos / 8 + 8 <= 8 * zlen (pack l) -> (pos / 8) mod 8 <> 0 ->
  exists r, e_get_word56 true (canonical l) pos = Ok r /\
    Z.testbit r 0 = nth (Z.to_nat (64 * (pos / 64 + 2) - 8 * ((pos / 8) mod 8) + pos mod 8)) l false.
Proof. exact word56_refuted. Qed.
Print Assumptions C84_get_word56_refuted.
Example C84_get_word56_ex : exists l, 10 / 8 + 8 <= 8 * zlen (pack l) /\ nth 10 l false = true /\ (10 / 8) mod 8 <> 0 /\
  e_get_word56 true (canonical l) 10 = Ok (2 ^ 16) /\ get_word56 (canonical l) 10 = Ok 1.
Proof. exists (repeat false 10 ++ [true] ++ repeat false 80). vm_compute. intuition congruence. Qed.
