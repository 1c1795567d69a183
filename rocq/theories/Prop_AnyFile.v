(** Properties C88 and C89: mapping files of any content *)
From Verif Require Import Base Spec M_BitVector M_Mapper S_BitVector S_Mapper S_AnyFile P_AnyFile.

(** C88: whatever map accepts is, byte for byte, what freeze writes for the members read *)
Theorem C88_accepted : forall strict addr mem l base d n,
  sized_layout l -> Forall (fun x => 0 <= x < 256) mem -> zlen mem < 2 ^ 64 ->
  map_at strict addr mem l base = Ok (d, n) ->
  typed l d /\ n = 8 + frozen_size l d /\ 0 <= base /\ base + n <= zlen mem /\
  exists flags, 0 <= flags < 2 ^ 64 /\ freeze l d flags = (section mem base n, n).
Proof. exact any_file. Qed.
Print Assumptions C88_accepted.
Definition C88_file : list Z :=
  [9; 0; 0; 0; 0; 0; 0; 0; 200; 0; 0; 0; 0; 0; 0; 0; 1; 0; 0; 0; 0; 0; 0; 0; 5; 0; 0; 0; 0; 0; 0; 255; 77].
Example C88_accepted_ex : sized_layout (layout_of bv_map) /\ Forall (fun x => 0 <= x < 256) C88_file /\
  map_at true 0 C88_file (layout_of bv_map) 0 = Ok (data_of bv_map (mk_bv 200 [5 + 255 * 2 ^ 56]), 32).
Proof.
  split; [cbn; repeat split|]. split; [|vm_compute; reflexivity].
  apply Forall_forall. intros x Hx. cbn in Hx. repeat (destruct Hx as [<-|Hx]; [lia|]). contradiction.
Qed.

(** C88: the result depends on these bytes only *)
Theorem C88_only_these : forall strict addr mem l base d n addr' pre post,
  sized_layout l -> Forall (fun x => 0 <= x < 256) mem -> zlen mem < 2 ^ 64 ->
  map_at strict addr mem l base = Ok (d, n) ->
  map_at false addr' (pre ++ section mem base n ++ post) l (zlen pre) = Ok (d, n).
Proof. exact only_these_bytes. Qed.
Print Assumptions C88_only_these.
Example C88_only_these_ex : map_at false 5 ([1; 2; 3] ++ section C88_file 0 32 ++ [4]) (layout_of bv_map) 3 = map_at true 0 C88_file (layout_of bv_map) 0.
Proof. vm_compute. reflexivity. Qed.

(** C88: files that map to the same members have the same bytes after the flags *)
Theorem C88_same_bytes : forall strict addr mem base strict' addr' mem' base' l d n n', sized_layout l ->
  Forall (fun x => 0 <= x < 256) mem -> zlen mem < 2 ^ 64 -> Forall (fun x => 0 <= x < 256) mem' -> zlen mem' < 2 ^ 64 ->
  map_at strict addr mem l base = Ok (d, n) -> map_at strict' addr' mem' l base' = Ok (d, n') ->
  n = n' /\ section mem (base + 8) (n - 8) = section mem' (base' + 8) (n - 8).
Proof. exact same_bytes. Qed.
Print Assumptions C88_same_bytes.
Example C88_same_bytes_ex : map_at true 0 C88_file (layout_of bv_map) 0 = Ok (data_of bv_map (mk_bv 200 [5 + 255 * 2 ^ 56]), 32) /\
  map_at true 0 (3 :: skipn 1 C88_file) (layout_of bv_map) 0 = Ok (data_of bv_map (mk_bv 200 [5 + 255 * 2 ^ 56]), 32).
Proof. split; vm_compute; reflexivity. Qed.

(** C88: the members read are those of some object, for every structure *)
Theorem C88_objects : (forall size signed, onto (vec_map size signed)) /\
  onto bv_map /\ onto rs_map /\ onto bp_map /\ onto ct_map /\ onto da_map /\ onto d64_map /\ onto ef_map /\ onto efl_map /\
  onto efc_map /\ onto gamma_map /\ onto nv_map /\ onto tk_map.
Proof. exact all_onto. Qed.
Print Assumptions C88_objects.
Example C88_objects_ex : typed (layout_of bv_map) (data_of bv_map (mk_bv 200 [5])).
Proof. cbn. repeat split; try lia. repeat constructor; lia. Qed.

(** C89 is false: every frozen bit_vector of less than 2^56 bits is one byte away from a file that maps without an error, and then
    has positions below size() that cannot be read *)
Theorem C89_corrupt_refuted : forall l flags addr, zlen l < 2 ^ 56 -> 0 <= flags < 2 ^ 64 ->
  exists file bv n pos, one_byte_apart (fst (freeze (layout_of bv_map) (data_of bv_map (canonical l)) flags)) file /\
    map_at false addr file (layout_of bv_map) 0 = Ok (data_of bv_map bv, n) /\ n = zlen file /\
    0 <= pos < bv_size bv /\ bv_get bv pos = Ub AssertFailed.
Proof. exact corrupt. Qed.
Print Assumptions C89_corrupt_refuted.
Example C89_ex : zlen [true; false; true] < 2 ^ 56 /\
  bv_get (mk_bv 200 [5 + 255 * 2 ^ 56]) 2 = Ok true /\ bv_get (mk_bv 200 [5 + 255 * 2 ^ 56]) 64 = Ub AssertFailed.
Proof. split; [reflexivity|]. split; vm_compute; reflexivity. Qed.
