(** Property C105: several objects in one file *)
From Verif Require Import Base Spec M_BitVector M_RsBitVector M_Darray M_EliasFano M_Gamma M_Util M_Bp M_Cartesian M_Topk M_Mapper
  S_BitVector S_EliasFano S_Mapper S_Align P_Mapper M_Archive S_Archive P_Archive.

(** three objects of different types *)
Definition C105_ef : elias_fano :=
  match ef_make (fun c _ => 2 * c) 9 3 [2; 9] false with Ok ef => ef | Ub _ => ef_empty 0 end.
Definition C105_objects : list (layout * data * Z) :=
  [(layout_of bv_map, data_of bv_map (canonical [true; false; true]), 0); (layout_of ef_map, data_of ef_map C105_ef, 5);
   (layout_of nv_map, data_of nv_map (mk_nv 3 [33; 4]), 0)].

(** C105: objects of any types frozen one after the other to one stream come back one after the other, where map is
    told to go on where it stopped; on machines that allow reads at every address *)
Theorem C105_roundtrip_partial : forall os addr pre post, freezable os ->
  snd (freeze_all os) = zlen (fst (freeze_all os)) /\
  map_all false addr (pre ++ fst (freeze_all os) ++ post) (map (fun o => fst (fst o)) os) (zlen pre) =
  Ok (map (fun o => snd (fst o)) os, snd (freeze_all os)).
Proof. exact (fun os addr => archive false addr os). Qed.
Print Assumptions C105_roundtrip_partial.
Example C105_roundtrip_ex : freezable C105_objects /\ snd (freeze_all C105_objects) = 197.
Proof.
  split; [|vm_compute; reflexivity].
  repeat (apply Forall_cons; [split; [apply typedb_ok; vm_compute; reflexivity|split; [vm_compute; reflexivity|lia]]|]); apply Forall_nil.
Qed.

(** C105: where misaligned reads are not allowed they come back exactly if all of them are aligned *)
Theorem C105_aligned_partial : forall os addr pre post, freezable os ->
  map_all true addr (pre ++ fst (freeze_all os) ++ post) (map (fun o => fst (fst o)) os) (zlen pre) =
  if all_aligned os (addr + zlen pre) then Ok (map (fun o => snd (fst o)) os, snd (freeze_all os)) else Ub Misaligned.
Proof. exact (fun os addr pre post F => proj2 (archive true addr os pre post F)). Qed.
Print Assumptions C105_aligned_partial.
Example C105_aligned_ex : freezable C105_objects /\ all_aligned (firstn 1 C105_objects) 64 = true /\ all_aligned C105_objects 64 = false.
Proof.
  split; [|split; vm_compute; reflexivity].
  repeat (apply Forall_cons; [split; [apply typedb_ok; vm_compute; reflexivity|split; [vm_compute; reflexivity|lia]]|]); apply Forall_nil.
Qed.

(** C105: the objects that end at a word boundary; elias_fano and the lists made of it never do *)
Theorem C105_sizes :
  whole_words bv_map (fun _ => true) /\ whole_words rs_map (fun _ => true) /\
  whole_words nv_map (fun v => zlen (nv_nibbles v) mod 8 =? 0) /\
  whole_words da_map (fun d => fills (zlen (da_subs d))) /\
  whole_words d64_map (fun d => fills (zlen (d64_subs d))) /\
  whole_words gamma_map (fun g => fills (zlen (d64_subs (g_high g)))) /\
  whole_words bp_map (fun bp => fills (zlen (bp_block_excess_min bp) + 2 * zlen (bp_superblock_excess_min bp))) /\
  whole_words ct_map (fun bp => fills (zlen (bp_block_excess_min bp) + 2 * zlen (bp_superblock_excess_min bp))) /\
  whole_words tk_map (fun tk => fills (zlen (bp_block_excess_min (tk_tree tk)) + 2 * zlen (bp_superblock_excess_min (tk_tree tk)))) /\
  whole_words ef_map (fun _ => false) /\ whole_words efl_map (fun _ => false) /\ whole_words efc_map (fun _ => false).
Proof. exact word_sizes. Qed.
Print Assumptions C105_sizes.

(** C105 refuted: nothing can be mapped behind an object that does not end at a word boundary, at whatever address the file is *)
Theorem C105_behind_refuted : forall l d flags o os addr pre post, freezable ((l, d, flags) :: o :: os) -> (frozen_size l d mod 8 =? 0) = false ->
  map_all true addr (pre ++ fst (freeze_all ((l, d, flags) :: o :: os)) ++ post) (map (fun o => fst (fst o)) ((l, d, flags) :: o :: os)) (zlen pre) =
  Ub Misaligned.
Proof. exact behind. Qed.
Print Assumptions C105_behind_refuted.
(** a nibble_vector of two bytes maps alone, and a bit_vector does, but not the one behind the other *)
Definition C105_two : list (layout * data * Z) :=
  [(layout_of nv_map, data_of nv_map (mk_nv 3 [33; 4]), 0); (layout_of bv_map, data_of bv_map (canonical [true; false; true]), 0)].
Example C105_behind_ex : freezable C105_two /\ frozen_size (layout_of nv_map) (data_of nv_map (mk_nv 3 [33; 4])) = 18 /\
  map_all true 64 (fst (freeze_all (firstn 1 C105_two))) [layout_of nv_map] 0 = Ok ([data_of nv_map (mk_nv 3 [33; 4])], 26) /\
  map_all true 64 (fst (freeze_all (skipn 1 C105_two))) [layout_of bv_map] 0 = Ok ([data_of bv_map (canonical [true; false; true])], 32) /\
  map_all true 64 (fst (freeze_all C105_two)) [layout_of nv_map; layout_of bv_map] 0 = Ub Misaligned /\
  map_all false 64 (fst (freeze_all C105_two)) [layout_of nv_map; layout_of bv_map] 0 =
    Ok ([data_of nv_map (mk_nv 3 [33; 4]); data_of bv_map (canonical [true; false; true])], 58).
Proof.
  split; [repeat (apply Forall_cons; [split; [apply typedb_ok; vm_compute; reflexivity|split; [vm_compute; reflexivity|lia]]|]); apply Forall_nil|].
  repeat split; vm_compute; reflexivity.
Qed.

(** C105 refuted: so nothing can be mapped behind an elias_fano, whatever it holds *)
Theorem C105_elias_fano_refuted : forall ef flags o os addr pre post, freezable ((layout_of ef_map, data_of ef_map ef, flags) :: o :: os) ->
  let os := (layout_of ef_map, data_of ef_map ef, flags) :: o :: os in
  map_all true addr (pre ++ fst (freeze_all os) ++ post) (map (fun o => fst (fst o)) os) (zlen pre) = Ub Misaligned.
Proof. exact ef_behind. Qed.
Print Assumptions C105_elias_fano_refuted.
Example C105_elias_fano_ex : freezable (skipn 1 C105_objects) /\ nth_error C105_objects 1 = Some (layout_of ef_map, data_of ef_map C105_ef, 5).
Proof.
  split; [|reflexivity].
  repeat (apply Forall_cons; [split; [apply typedb_ok; vm_compute; reflexivity|split; [vm_compute; reflexivity|lia]]|]); apply Forall_nil.
Qed.

(** C105 for bit vectors with and without rank: as many as there are can follow one another *)
Theorem C105_words_partial : forall os addr pre post, freezable os -> Forall words_object os -> (addr + zlen pre) mod 8 = 0 ->
  map_all true addr (pre ++ fst (freeze_all os) ++ post) (map (fun o => fst (fst o)) os) (zlen pre) =
  Ok (map (fun o => snd (fst o)) os, snd (freeze_all os)).
Proof. exact words_behind. Qed.
Print Assumptions C105_words_partial.
Example C105_words_ex : let os := repeat (layout_of bv_map, data_of bv_map (canonical [true; false; true]), 0) 3 in
  freezable os /\ Forall words_object os /\ snd (freeze_all os) = 96.
Proof.
  split; [|split; [repeat (apply Forall_cons; [left; do 2 eexists; reflexivity|]); apply Forall_nil|vm_compute; reflexivity]].
  repeat (apply Forall_cons; [split; [apply typedb_ok; vm_compute; reflexivity|split; [vm_compute; reflexivity|lia]]|]); apply Forall_nil.
Qed.
