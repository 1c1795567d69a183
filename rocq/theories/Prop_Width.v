(** Property C92: files and the width of size_t *)
From Verif Require Import Base Spec M_BitVector M_Mapper S_BitVector S_Mapper M_Width S_Width P_Width.

(** C92: where size_t has 8 bytes the layouts are those of C36 *)
Theorem C92_model_partial : bv_layout 8 = layout_of bv_map /\ rs_layout 8 = layout_of rs_map /\ bp_layout 8 = layout_of bp_map /\ ct_layout 8 = layout_of ct_map /\
  da_layout 8 = layout_of da_map /\ d64_layout 8 = layout_of d64_map /\ ef_layout 8 = layout_of ef_map /\ efl_layout 8 = layout_of efl_map /\
  efc_layout 8 = layout_of efc_map /\ gamma_layout 8 = layout_of gamma_map /\ nv_layout 8 = layout_of nv_map /\ tk_layout 8 = layout_of tk_map.
Proof. exact width8. Qed.
Print Assumptions C92_model_partial.
Example C92_model_ex : bv_layout 4 <> layout_of bv_map.
Proof. discriminate. Qed.

(** C92: a file is read back by a build of the same width *)
Theorem C92_same_width_partial : forall l d flags addr pre post,
  typed l d -> 8 + frozen_size l d < 2 ^ 64 -> 0 <= flags < 2 ^ 64 ->
  exists bytes, freeze l d flags = (bytes, 8 + frozen_size l d) /\ zlen bytes = 8 + frozen_size l d /\
  map_at false addr (pre ++ bytes ++ post) l (zlen pre) = Ok (d, 8 + frozen_size l d).
Proof. exact width_roundtrip. Qed.
Print Assumptions C92_same_width_partial.
Example C92_same_width_ex : typed (bv_layout 4) (data_of bv_map (canonical [true; false; true])) /\
  freeze (bv_layout 4) (data_of bv_map (canonical [true; false; true])) 0 =
    ([0; 0; 0; 0; 0; 0; 0; 0; 3; 0; 0; 0; 1; 0; 0; 0; 0; 0; 0; 0; 5; 0; 0; 0; 0; 0; 0; 0], 28).
Proof. split; [apply (proj1 (bv_typed_w 4 [true; false; true] (or_introl eq_refl) ltac:(reflexivity)))|vm_compute; reflexivity]. Qed.

(** C92: the files of the two widths have different lengths, for every structure *)
Theorem C92_lengths_partial : shrinks bv_layout bv_map 1 /\ shrinks rs_layout rs_map 1 /\ shrinks bp_layout bp_map 1 /\ shrinks ct_layout ct_map 1 /\
  shrinks da_layout da_map 1 /\ shrinks d64_layout d64_map 2 /\ shrinks ef_layout ef_map 4 /\ shrinks efl_layout efl_map 4 /\
  shrinks efc_layout efc_map 5 /\ shrinks gamma_layout gamma_map 3 /\ shrinks nv_layout nv_map 1 /\ shrinks tk_layout tk_map 1.
Proof. exact widths. Qed.
Print Assumptions C92_lengths_partial.
Example C92_lengths_ex : frozen_size (bv_layout 4) (data_of bv_map (canonical [true; false; true])) = 20 /\
  frozen_size (layout_of bv_map) (data_of bv_map (canonical [true; false; true])) = 24.
Proof. split; reflexivity. Qed.

(** C92 is false: no bit_vector but the empty one is carried from one width to the other *)
Theorem C92_crossing_refuted : forall l flags addr n, 0 <= flags < 2 ^ 64 -> 0 < zlen l < 2 ^ 32 ->
  forall w w', (w = 4 /\ w' = 8) \/ (w = 8 /\ w' = 4) ->
  map_at false addr (fst (freeze (bv_layout w) (data_of bv_map (canonical l)) flags)) (bv_layout w') 0 <> Ok (data_of bv_map (canonical l), n).
Proof. exact never_right. Qed.
Print Assumptions C92_crossing_refuted.
Example C92_crossing_ex : 0 < zlen [true; false; true] < 2 ^ 32 /\ pack [true; false; true] = [5].
Proof. repeat split. Qed.

(** C92: the 64-bit file read with 32 bits, and the 32-bit file read with 64 bits: the latter can
    go unnoticed, when the first 32 bits are zero *)
Theorem C92_narrow_refuted : forall l flags addr, 0 <= flags < 2 ^ 64 -> zlen l < 2 ^ 32 ->
  map_at false addr (fst (freeze (bv_layout 8) (data_of bv_map (canonical l)) flags)) (bv_layout 4) 0 =
  if zlen l =? 0 then Ok (data_of bv_map (canonical l), 20) else Ub OutOfBounds.
Proof. exact narrow. Qed.
Print Assumptions C92_narrow_refuted.
Example C92_narrow_ex : zlen (@nil bool) < 2 ^ 32 /\
  map_at false 0 (fst (freeze (bv_layout 8) (data_of bv_map (canonical [])) 7)) (bv_layout 4) 0 = Ok (data_of bv_map (canonical []), 20).
Proof. split; vm_compute; reflexivity. Qed.
Theorem C92_widen_refuted : forall l flags addr, 0 <= flags < 2 ^ 64 -> zlen l < 2 ^ 32 ->
  map_at false addr (fst (freeze (bv_layout 4) (data_of bv_map (canonical l)) flags)) (bv_layout 8) 0 =
  if (0 <? zlen l) && (hd 0 (pack l) mod 2 ^ 32 =? 0) then Ok (data_of bv_map (mk_bv (zlen l + 2 ^ 32 * zlen (pack l)) []), 24) else Ub OutOfBounds.
Proof. exact widen. Qed.
Print Assumptions C92_widen_refuted.
(** 40 zeros become a vector that claims 2^32 + 40 bits and has none *)
Example C92_widen_ex : 0 < zlen (repeat false 40) < 2 ^ 32 /\ hd 0 (pack (repeat false 40)) mod 2 ^ 32 = 0 /\
  map_at false 0 (fst (freeze (bv_layout 4) (data_of bv_map (canonical (repeat false 40))) 0)) (bv_layout 8) 0 = Ok (data_of bv_map (mk_bv (2 ^ 32 + 40) []), 24) /\
  bv_get (mk_bv (2 ^ 32 + 40) []) 0 = Ub AssertFailed.
Proof. repeat split; vm_compute; reflexivity. Qed.
