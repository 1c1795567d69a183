(** Property C99: the warmup flag of map() *)
From Verif Require Import Base Spec M_BitVector M_Mapper M_Lazy S_BitVector S_Mapper S_Format P_Lazy.

(** C99: where the elements are read at once, the flag changes neither the object nor the number of bytes, and the object shows what was read *)
Theorem C99_good_partial : forall strict addr mem l base d n, map_at strict addr mem l base = Ok (d, n) -> exists ld,
  (forall warm, lmap_at warm strict addr mem l base = Ok (ld, n)) /\ lread strict addr mem l ld = Ok d.
Proof. exact good_at. Qed.
Print Assumptions C99_good_partial.
Definition C99_file : list Z := fst (freeze (layout_of bv_map) (data_of bv_map (canonical [true; false; true])) 9).
Example C99_good_ex : map_at true 64 ([1; 2; 3; 4; 5; 6; 7; 8] ++ C99_file ++ [1]) (layout_of bv_map) 8 = Ok (data_of bv_map (canonical [true; false; true]), 32) /\
  lmap_at false true 64 ([1; 2; 3; 4; 5; 6; 7; 8] ++ C99_file ++ [1]) (layout_of bv_map) 8 = Ok (LDObj (LDCons (LDPod 3) (LDCons (LDVec 32 1) LDNil)), 32).
Proof. vm_compute. auto. Qed.

(** C99: the map of the other properties is the map with the flag, followed by reading the object *)
Theorem C99_warm_partial : forall strict addr mem l base,
  map_at strict addr mem l base = (do (ld, n) <- lmap_at true strict addr mem l base; do d <- lread strict addr mem l ld; Ok (d, n)).
Proof. exact warm_at. Qed.
Print Assumptions C99_warm_partial.
Example C99_warm_ex : lmap_at true true 0 (firstn 31 C99_file) (layout_of bv_map) 0 = Ub OutOfBounds /\ zlen C99_file = 32.
Proof. vm_compute. auto. Qed.

(** C99: an object mapped without the flag shows the same or fails when it is read *)
Theorem C99_cold_partial : forall strict addr mem warm l base ld n, lmap_at warm strict addr mem l base = Ok (ld, n) ->
  map_at strict addr mem l base = (do d <- lread strict addr mem l ld; Ok (d, n)).
Proof. exact lazy_at. Qed.
Print Assumptions C99_cold_partial.
Example C99_cold_ex : lmap_at false true 0 (firstn 31 C99_file) (layout_of bv_map) 0 = Ok (LDObj (LDCons (LDPod 3) (LDCons (LDVec 24 1) LDNil)), 32) /\
  lread true 0 (firstn 31 C99_file) (layout_of bv_map) (LDObj (LDCons (LDPod 3) (LDCons (LDVec 24 1) LDNil))) = Ub OutOfBounds.
Proof. vm_compute. auto. Qed.

(** C99: operator[] of a mapped vector reads the element when it is asked for, and stops at an assertion behind the last one *)
Theorem C99_elements_partial : forall strict addr mem size signed pos n xs i, read_elems strict addr mem size signed (Z.to_nat n) pos = Ok xs -> 0 <= i ->
  lget strict addr mem size signed pos n i = if i <? n then Ok (nth (Z.to_nat i) xs 0) else Ub AssertFailed.
Proof. exact elements. Qed.
Print Assumptions C99_elements_partial.
Example C99_elements_ex : read_elems true 0 [7; 0; 5; 1; 9; 9] 2 false (Z.to_nat 2) 2 = Ok [261; 2313] /\
  lget true 0 [7; 0; 5; 1; 9; 9] 2 false 2 2 1 = Ok 2313 /\ lget true 0 [7; 0; 5; 1; 9; 9] 2 false 2 2 2 = Ub AssertFailed.
Proof. vm_compute. auto. Qed.

(** C99 is false: without the flag any 24 bytes are accepted as a bit_vector, whatever follows them; the number of bytes reported may
    wrap; with the flag a missing element is read during map, without it at its first use *)
Theorem C99_headers_refuted : forall strict addr flags size n rest, (strict = true -> addr mod 8 = 0) ->
  0 <= flags < 2 ^ 64 -> 0 <= size < 2 ^ 64 -> 0 <= n < 2 ^ 64 ->
  let mem := le 8 flags ++ le 8 size ++ le 8 n ++ rest in
  lmap_at false strict addr mem (layout_of bv_map) 0 = Ok (LDObj (LDCons (LDPod size) (LDCons (LDVec 24 n) LDNil)), 24 + (8 * n) mod 2 ^ 64) /\
  (zlen rest < 8 * n -> lmap_at true strict addr mem (layout_of bv_map) 0 = Ub OutOfBounds) /\
  (forall i, 0 <= i < n -> zlen rest < 8 * i + 8 -> lget strict addr mem 8 false 24 n i = Ub OutOfBounds).
Proof. exact headers. Qed.
Print Assumptions C99_headers_refuted.
(** 2^61 words in a file of 24 bytes, and 24 bytes reported *)
Example C99_headers_ex : 0 <= 2 ^ 61 < 2 ^ 64 /\ zlen (le 8 0 ++ le 8 64 ++ le 8 (2 ^ 61) ++ []) = 24 /\
  lmap_at false true 0 (le 8 0 ++ le 8 64 ++ le 8 (2 ^ 61) ++ []) (layout_of bv_map) 0 = Ok (LDObj (LDCons (LDPod 64) (LDCons (LDVec 24 (2 ^ 61)) LDNil)), 24) /\
  lget true 0 (le 8 0 ++ le 8 64 ++ le 8 (2 ^ 61) ++ []) 8 false 24 (2 ^ 61) 0 = Ub OutOfBounds.
Proof. vm_compute. intuition congruence. Qed.
