(** C68 for test_mapper.cpp. *)
From Verif Require Import Base M_Mapper S_Mapper M_TestMapper P_TestMapper.

(** basic_map passes for every array that has the four elements and the two values its checks name, so for {1, 2, 3, 4}.
    [strict] is the reading of misaligned objects, see C52; mappings are page aligned. *)
Theorem C68_mapper : forall strict addr nums, Forall (in_type 4 true) nums -> strict = false \/ addr mod 8 = 0 ->
  test_basic_map strict addr nums = Ok true <-> length nums = 4%nat /\ nth_error nums 0 = Some 1 /\ nth_error nums 3 = Some 4.
Proof. exact basic_map_iff. Qed.
Print Assumptions C68_mapper.
Example C68_mapper_ex : Forall (in_type 4 true) [1; 2; 3; 4] /\ 4096 mod 8 = 0 /\ test_basic_map true 4096 [1; 2; 3; 4] = Ok true /\
  test_basic_map true 4096 [1; -2; 3; 5] = Ok false.
Proof. split; [repeat constructor; discriminate|]. vm_compute. auto. Qed.

(** complex_struct_map passes for every number and every array of two elements. *)
Theorem C68_mapper_struct : forall strict addr s, 0 <= fst s < 2 ^ 64 -> Forall (in_type 4 false) (snd s) -> 4 * zlen (snd s) < 2 ^ 63 ->
  strict = false \/ addr mod 8 = 0 -> test_complex_struct strict addr s = Ok true <-> length (snd s) = 2%nat.
Proof. exact complex_struct_iff. Qed.
Print Assumptions C68_mapper_struct.
Example C68_mapper_struct_ex : Forall (in_type 4 false) [1; 2] /\ test_complex_struct true 4096 (42, [1; 2]) = Ok true /\
  test_complex_struct true 4096 (42, [1; 2; 3]) = Ok false.
Proof. split; [repeat constructor; discriminate|]. vm_compute. auto. Qed.
