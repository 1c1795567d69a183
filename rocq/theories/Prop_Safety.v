(** C42, C49, C50, C62, C63: runs within the contract are defined; calls outside it stop at an assertion. *)
From Verif Require Import Base Spec M_BitVector M_RsBitVector M_Darray M_EliasFano M_Gamma M_Util M_Bp M_Cartesian M_Topk.
From Verif Require Import S_BitVector S_Darray S_EliasFano S_Gamma S_Bp S_Safety P_BpSpec P_Safety P_Reject.

Definition sf_grow : growth := fun c _ => 2 * c.
Definition sf_bits : list bool := repeat true 70 ++ [false] ++ repeat true 59.

(** C42 for bit_vector: [get_bits] of 64 bits is missing, see C42_get_bits_refuted *)
Theorem C42_bit_vector_partial : forall l,
  (forall pos, 0 <= pos < zlen l -> defined (bv_get (bv_range l) pos) /\ defined (get_word (bv_range l) pos)) /\
  (forall pos len, 0 <= pos -> 0 <= len < 64 -> pos + len <= zlen l -> defined (get_bits strict_shift (bv_range l) pos len)) /\
  (forall pos, 0 <= pos -> pos + 64 <= 64 * ((zlen l + 63) / 64) -> defined (get_word56 (bv_range l) pos)) /\
  (forall pos p, (p <= pos)%nat -> (pos < length l)%nat ->
     (nth_error l p = Some true -> defined (predecessor1 (bv_range l) (Z.of_nat pos))) /\
     (nth_error l p = Some false -> defined (predecessor0 (bv_range l) (Z.of_nat pos)))) /\
  (forall pos p, (pos <= p)%nat ->
     (nth_error l p = Some true -> defined (successor1 (bv_range l) (Z.of_nat pos))) /\
     (nth_error l p = Some false -> defined (successor0 (bv_range l) (Z.of_nat pos)))).
Proof. exact safe_bits. Qed.
Print Assumptions C42_bit_vector_partial.
Example C42_bit_vector_ex : 0 <= 129 < zlen sf_bits /\ 66 + 63 <= zlen sf_bits /\ 128 + 64 <= 64 * ((zlen sf_bits + 63) / 64) /\
  nth_error sf_bits 70 = Some false /\ predecessor0 (bv_range sf_bits) 129 = Ok 70 /\ successor0 (bv_range sf_bits) 3 = Ok 70.
Proof. vm_compute. intuition congruence. Qed.

(** C42 for bp_vector: the positions at which a word starts are missing, see C42_find_close_refuted
    and C42_find_open_refuted *)
Theorem C42_bp_vector_partial : forall uninit h h0 l, zlen l < 2 ^ 31 -> prefix_ok l ->
  exists bp, bp_build uninit (bv_range l) h h0 = Ok bp /\
  (forall p m, matches l p m -> (p + 1) mod 64 <> 0 -> find_close strict_shift bp p = Ok m) /\
  (forall m, nth_error l m = Some false -> Z.of_nat m mod 64 <> 0 ->
     exists p, find_open strict_shift bp (Z.of_nat m) = Ok p /\ matches l p (Z.of_nat m)) /\
  (forall p q, nth_error l p = Some true -> encloses l q (Z.of_nat p) -> Z.of_nat p mod 64 <> 0 ->
     exists r, enclose strict_shift bp (Z.of_nat p) = Ok r /\ innermost l r (Z.of_nat p)).
Proof. exact safe_parens. Qed.
Print Assumptions C42_bp_vector_partial.
Definition sf_parens : list bool := repeat true 70 ++ repeat false 70.
Example C42_bp_vector_ex : prefix_ok sf_parens /\ nth_error sf_parens 75 = Some false /\ (69 + 1) mod 64 <> 0 /\
  (do bp <- bp_build 0 (bv_range sf_parens) false false; do x <- find_close strict_shift bp 3;
   do y <- find_open strict_shift bp 136; do z <- enclose strict_shift bp 66; Ok (x, y, z)) = Ok (136, 3, 65).
Proof. split; [apply bal_prefix_ok, balb_sound; vm_compute; reflexivity|]. vm_compute. intuition congruence. Qed.

(** C49: exactly when size() was pushed is rank(size()) wrong *)
Theorem C49_exact_refuted : forall gr n m vs, ef_input n m vs -> exists ef, ef_make gr n m vs true = Ok ef /\
  ef_rank ef n = Ok (zlen vs) /\
  (ef_rank ef n = Ok (zlen (filter (fun v => v <? n) vs)) <-> ~ In n vs).
Proof. exact ef_rank_size. Qed.
Print Assumptions C49_exact_refuted.
Example C49_exact_ex : ef_input 9 3 [2; 9; 9] /\ In 9 [2; 9; 9] /\
  (do ef <- ef_make sf_grow 9 3 [2; 9; 9] true; ef_rank ef 9) = Ok 3.
Proof. split; [|vm_compute; auto]. repeat split; try (intros; discriminate); repeat constructor; discriminate. Qed.

(** C50: every enumerator, run to its end and asked once more, reads outside the bit vector *)
Theorem C50_gamma_vector_refuted : forall gr ints, Forall (fun x => 0 <= x < 2 ^ 64 - 1) ints -> zlen ints < 2 ^ 57 ->
  exists g, gv_build gr ints = Ok g /\
  forall i, (i <= length ints)%nat -> exists e, gv_enum_new g (Z.of_nat i) = Ok e /\
    gv_run g e (length ints - i + 1) = Ub OutOfBounds.
Proof. exact gv_end. Qed.
Print Assumptions C50_gamma_vector_refuted.
Definition sf_ints : list Z := [5; 0; 2 ^ 64 - 3; 77].
Example C50_gamma_vector_ex : Forall (fun x => 0 <= x < 2 ^ 64 - 1) sf_ints /\ zlen sf_ints < 2 ^ 57 /\
  (do g <- gv_build sf_grow sf_ints; do e <- gv_enum_new g 2; gv_run g e 3) = Ub OutOfBounds.
Proof. split; [repeat constructor; discriminate|]. vm_compute. auto. Qed.
Theorem C50_gamma_bit_vector_refuted : forall gr ints, Forall (fun x => 0 <= x < 2 ^ 64 - 2) ints -> zlen ints < 2 ^ 57 ->
  exists g, gb_build gr ints = Ok g /\
  forall i, (i <= length ints)%nat -> exists e, gb_enum_new g (Z.of_nat i) = Ok e /\
    gb_run g e (repeat GNext (length ints - i + 1)) = Ub OutOfBounds.
Proof. exact gb_end. Qed.
Print Assumptions C50_gamma_bit_vector_refuted.
Example C50_end_ex : Forall (fun x => 0 <= x < 2 ^ 64 - 2) sf_ints /\ zlen sf_ints < 2 ^ 57 /\
  (do g <- gv_build sf_grow sf_ints; do e <- gv_enum_new g 2; gv_run g e 2) = Ok [2 ^ 64 - 3; 77] /\
  (do g <- gv_build sf_grow sf_ints; do e <- gv_enum_new g 2; gv_run g e 3) = Ub OutOfBounds /\
  (do g <- gb_build sf_grow sf_ints; do e <- gb_enum_new g 2; gb_run g e [GNext; GNext; GNext]) = Ub OutOfBounds.
Proof. split; [repeat constructor; discriminate|]. vm_compute. auto. Qed.

(** C62: queries for a bit that does not exist; missing: successor0, which is refuted *)
Theorem C62_no_answer_partial : forall l pos, 0 <= pos < zlen l ->
  ((forall p, 0 <= p <= pos -> nth_error l (Z.to_nat p) <> Some true) -> predecessor1 (bv_range l) pos = Ub AssertFailed) /\
  ((forall p, 0 <= p <= pos -> nth_error l (Z.to_nat p) <> Some false) -> predecessor0 (bv_range l) pos = Ub AssertFailed) /\
  ((forall p, pos <= p < zlen l -> nth_error l (Z.to_nat p) <> Some true) -> successor1 (bv_range l) pos = Ub AssertFailed).
Proof. exact no_answer. Qed.
Print Assumptions C62_no_answer_partial.
Example C62_no_answer_ex : 0 <= 69 < zlen (repeat true 70) /\
  (forall p, 0 <= p <= 69 -> nth_error (repeat true 70) (Z.to_nat p) <> Some false) /\
  predecessor0 (bv_range (repeat true 70)) 69 = Ub AssertFailed /\ successor1 (bv_range (repeat false 70)) 3 = Ub AssertFailed.
Proof.
  split; [vm_compute; intuition congruence|]. split; [|vm_compute; auto].
  intros p Hp. rewrite nth_error_repeat by lia. discriminate.
Qed.
(** successor0 finds a padding bit and returns size(), unless the last word is full *)
Theorem C62_successor0_refuted : forall l pos, 0 <= pos < zlen l ->
  (forall p, pos <= p < zlen l -> nth_error l (Z.to_nat p) <> Some false) ->
  successor0 (bv_range l) pos = if zlen l mod 64 =? 0 then Ub AssertFailed else Ok (zlen l).
Proof. exact successor0_past. Qed.
Print Assumptions C62_successor0_refuted.
Example C62_ex : 0 <= 3 < zlen (repeat true 70) /\ predecessor0 (bv_range (repeat true 70)) 69 = Ub AssertFailed /\
  successor0 (bv_range (repeat true 70)) 3 = Ok 70 /\ successor0 (bv_range (repeat true 64)) 3 = Ub AssertFailed /\
  successor1 (bv_range (repeat false 70)) 3 = Ub AssertFailed.
Proof. vm_compute. intuition congruence. Qed.
Theorem C62_elias_fano_partial : forall gr n m vs, ef_input n m vs -> exists ef, ef_make gr n m vs true = Ok ef /\
  (forall pos, 0 <= pos < n -> (pos + 1 = n -> ~ In n vs) -> (forall v, In v vs -> pos < v) -> ef_predecessor1 ef pos = Ub AssertFailed) /\
  (forall pos, 0 <= pos <= n -> (pos = n -> ~ In n vs) -> (forall v, In v vs -> v < pos) -> ef_successor1 ef pos = Ub AssertFailed).
Proof. exact ef_no_answer. Qed.
Print Assumptions C62_elias_fano_partial.
Example C62_elias_fano_ex : ef_input 50 3 [7; 9; 30] /\
  (do ef <- ef_make sf_grow 50 3 [7; 9; 30] true; ef_predecessor1 ef 6) = Ub AssertFailed /\
  (do ef <- ef_make sf_grow 50 3 [7; 9; 30] true; ef_successor1 ef 31) = Ub AssertFailed.
Proof. split; [|vm_compute; auto]. repeat split; try (intros; discriminate); repeat constructor; discriminate. Qed.

(** C63: bit_vector *)
Theorem C63_bit_vector_partial : forall l pos, zlen l <= pos ->
  bv_get (bv_range l) pos = Ub AssertFailed /\ get_word (bv_range l) pos = Ub AssertFailed /\
  predecessor0 (bv_range l) pos = Ub AssertFailed /\ predecessor1 (bv_range l) pos = Ub AssertFailed /\
  successor0 (bv_range l) pos = Ub AssertFailed /\ successor1 (bv_range l) pos = Ub AssertFailed.
Proof. exact reject_bits. Qed.
Print Assumptions C63_bit_vector_partial.
Example C63_bit_vector_ex : zlen sf_bits <= 130 /\ bv_get (bv_range sf_bits) 130 = Ub AssertFailed /\ bv_get (bv_range sf_bits) 129 = Ok true /\
  successor0 (bv_range sf_bits) 130 = Ub AssertFailed.
Proof. vm_compute. intuition congruence. Qed.
Theorem C63_get_bits_partial : forall sp l pos len, zlen l < pos + len < 2 ^ 64 ->
  get_bits sp (bv_range l) pos len = Ub AssertFailed.
Proof. exact reject_get_bits. Qed.
Print Assumptions C63_get_bits_partial.
Example C63_get_bits_ex : zlen sf_bits < 100 + 31 < 2 ^ 64 /\ get_bits strict_shift (bv_range sf_bits) 100 31 = Ub AssertFailed /\
  get_bits strict_shift (bv_range sf_bits) 100 30 = Ok (2 ^ 30 - 1).
Proof. vm_compute. auto. Qed.
(** the sum pos + len of the assertion of get_bits wraps *)
Theorem C63_get_bits_refuted : forall sp l pos len, zlen l < 2 ^ 63 -> 0 < len < 64 -> pos < 2 ^ 64 <= pos + len ->
  pos + len - 2 ^ 64 <= zlen l -> get_bits sp (bv_range l) pos len = Ub OutOfBounds.
Proof. exact get_bits_wraps. Qed.
Print Assumptions C63_get_bits_refuted.
Example C63_get_bits_wrap_ex : zlen sf_bits < 2 ^ 63 /\ 0 < 63 < 64 /\ 2 ^ 64 - 20 < 2 ^ 64 <= 2 ^ 64 - 20 + 63 /\
  2 ^ 64 - 20 + 63 - 2 ^ 64 <= zlen sf_bits /\ get_bits strict_shift (bv_range sf_bits) (2 ^ 64 - 20) 63 = Ub OutOfBounds.
Proof. vm_compute. intuition congruence. Qed.
(** get_word56 has no assertion; its 8 bytes can lie outside the array for positions inside the vector. *)
Theorem C63_get_word56_refuted : forall l pos, 0 <= pos -> 8 * ((zlen l + 63) / 64) < pos / 8 + 8 ->
  get_word56 (bv_range l) pos = Ub OutOfBounds.
Proof. exact get_word56_out. Qed.
Print Assumptions C63_get_word56_refuted.
Example C63_get_word56_ex : 8 * ((zlen (repeat true 64) + 63) / 64) < 8 / 8 + 8 /\ get_word56 (bv_range (repeat true 64)) 8 = Ub OutOfBounds.
Proof. vm_compute. auto. Qed.
Example C63_bits_ex : zlen sf_bits <= 130 /\ bv_get (bv_range sf_bits) 130 = Ub AssertFailed /\
  get_bits strict_shift (bv_range sf_bits) 120 11 = Ub AssertFailed /\ zlen sf_bits < 2 ^ 63 /\
  get_bits strict_shift (bv_range sf_bits) (2 ^ 64 - 1) 11 = Ub OutOfBounds.
Proof. vm_compute. intuition congruence. Qed.

Theorem C63_rs_bit_vector_partial : forall l h h0, exists rs, rs_build (bv_range l) h h0 = Ok rs /\
  (forall pos, zlen l < pos -> rs_rank rs pos = Ub AssertFailed /\ rs_rank0 rs pos = Ub AssertFailed) /\
  (forall n, Z.of_nat (count true l) <= n -> rs_select rs n = Ub AssertFailed) /\
  (forall n, Z.of_nat (count false l) <= n -> rs_select0 rs n = Ub AssertFailed).
Proof. exact reject_rs. Qed.
Print Assumptions C63_rs_bit_vector_partial.
Example C63_rs_ex : zlen sf_bits < 131 /\ Z.of_nat (count true sf_bits) <= 129 /\
  (do rs <- rs_build (bv_range sf_bits) true true; rs_select rs 129) = Ub AssertFailed /\
  (do rs <- rs_build (bv_range sf_bits) true true; rs_select rs 128) = Ok 129.
Proof. vm_compute. intuition congruence. Qed.

Theorem C63_darray_partial : forall neg l, zlen l < 2 ^ 63 -> exists d, darray_build neg (canonical l) = Ok d /\
  forall i bv, Z.of_nat (count (negb neg) l) <= i -> darray_select neg d bv i = Ub AssertFailed.
Proof. exact reject_darray. Qed.
Print Assumptions C63_darray_partial.
Example C63_darray_zeros_ex : zlen sf_bits < 2 ^ 63 /\ Z.of_nat (count false sf_bits) <= 1 /\
  (do d <- darray_build true (canonical sf_bits); darray_select true d (canonical sf_bits) 1) = Ub AssertFailed.
Proof. vm_compute. intuition congruence. Qed.
Theorem C63_darray64_partial : forall gr skips, Forall (fun s => 0 <= s <= 64) skips -> exists b d,
  append1_all gr d64_new skips = Ok b /\ d64_build b = Ok d /\
  forall i, zlen skips <= i -> d64_select d i = Ub AssertFailed.
Proof. exact reject_darray64. Qed.
Print Assumptions C63_darray64_partial.
Example C63_darray_ex : zlen sf_bits < 2 ^ 63 /\ Forall (fun s => 0 <= s <= 64) [3; 64; 0] /\
  (do d <- darray_build true (canonical sf_bits); darray_select true d (canonical sf_bits) 1) = Ub AssertFailed /\
  (do d <- darray_build true (canonical sf_bits); darray_select true d (canonical sf_bits) 0) = Ok 70.
Proof. split; [reflexivity|]. split; [repeat constructor; discriminate|]. vm_compute. auto. Qed.

Theorem C63_elias_fano_partial : forall gr n m vs index, ef_input n m vs -> exists ef, ef_make gr n m vs index = Ok ef /\
  (forall i, zlen vs <= i -> ef_select ef i = Ub AssertFailed /\ ef_delta ef i = Ub AssertFailed) /\
  (forall i, zlen vs <= i + 1 <= 2 ^ 64 -> ef_select_range ef i = Ub AssertFailed) /\
  (forall pos, n <= pos -> ef_get ef pos = Ub AssertFailed) /\
  (forall pos, n < pos -> ef_rank ef pos = Ub AssertFailed) /\
  (index = false -> forall pos, ef_get ef pos = Ub AssertFailed /\ ef_rank ef pos = Ub AssertFailed).
Proof. exact reject_ef. Qed.
Print Assumptions C63_elias_fano_partial.
Example C63_elias_fano_queries_ex : ef_input 50 3 [7; 9; 30] /\
  (do ef <- ef_make sf_grow 50 3 [7; 9; 30] true; ef_select ef 3) = Ub AssertFailed /\
  (do ef <- ef_make sf_grow 50 3 [7; 9; 30] true; ef_rank ef 51) = Ub AssertFailed /\
  (do ef <- ef_make sf_grow 50 3 [7; 9; 30] false; ef_rank ef 5) = Ub AssertFailed.
Proof. split; [|vm_compute; auto]. repeat split; try (intros; discriminate); repeat constructor; discriminate. Qed.
Theorem C63_elias_fano_builder_partial : forall gr n m vs, ef_input n m vs -> exists b,
  (do b <- ef_builder_new gr n m; ef_push_all gr b vs) = Ok b /\
  forall i, n < i \/ (exists v, In v vs /\ i < v) \/ (zlen vs = m /\ 0 <= i) -> ef_push gr b i = Ub AssertFailed.
Proof. exact ef_push_reject. Qed.
Print Assumptions C63_elias_fano_builder_partial.
Example C63_elias_fano_ex : ef_input 50 3 [7; 9; 30] /\
  (do ef <- ef_make sf_grow 50 3 [7; 9; 30] true; ef_select ef 3) = Ub AssertFailed /\
  (do b <- ef_builder_new sf_grow 50 3; do b <- ef_push_all sf_grow b [7; 9; 30]; ef_push sf_grow b 40) = Ub AssertFailed.
Proof. split; [|vm_compute; auto]. repeat split; try (intros; discriminate); repeat constructor; discriminate. Qed.

Theorem C63_lists_partial : forall gr ints, Forall (fun x => 0 <= x < 2 ^ 64 - 1) ints -> zlen ints < 2 ^ 57 ->
  (sum ints < 2 ^ 64 - 1 -> exists c, efl_build gr ints = Ok c /\ forall i, zlen ints <= i -> efl_get c i = Ub AssertFailed) /\
  (exists c, efc_build gr ints = Ok c /\ forall i, zlen ints <= i < 2 ^ 64 -> efc_get c i = Ub AssertFailed) /\
  (exists g, gv_build gr ints = Ok g /\ forall i, zlen ints <= i -> gv_get g i = Ub AssertFailed) /\
  (Forall (fun x => x < 2 ^ 64 - 2) ints -> exists g, gb_build gr ints = Ok g /\ forall i, zlen ints <= i -> gb_get g i = Ub AssertFailed).
Proof. exact reject_lists. Qed.
Print Assumptions C63_lists_partial.
Example C63_lists_ex : Forall (fun x => 0 <= x < 2 ^ 64 - 1) sf_ints /\ zlen sf_ints < 2 ^ 57 /\
  (do c <- efc_build sf_grow sf_ints; efc_get c 4) = Ub AssertFailed /\ (do g <- gv_build sf_grow sf_ints; gv_get g 4) = Ub AssertFailed /\
  (do g <- gb_build sf_grow sf_ints; gb_get g 4) = Ub AssertFailed.
Proof. split; [repeat constructor; discriminate|]. vm_compute. auto. Qed.

Theorem C63_nibble_vector_partial :
  (forall l, Forall (fun x => 0 <= x < 16) l -> exists n, nv_build l = Ok n /\ forall i, zlen l <= i -> nv_get n i = Ub AssertFailed) /\
  (forall a x b, Forall (fun y => 0 <= y < 16) a -> 16 <= x -> nv_build (a ++ x :: b) = Ub AssertFailed).
Proof. exact (conj reject_nv reject_nv_build). Qed.
Print Assumptions C63_nibble_vector_partial.
Example C63_nibble_vector_ex : (do n <- nv_build [3; 15; 0]; nv_get n 3) = Ub AssertFailed /\ nv_build [3; 16; 0] = Ub AssertFailed.
Proof. vm_compute. auto. Qed.

Theorem C63_bp_vector_partial : forall sp uninit h h0 l, zlen l < 2 ^ 31 -> prefix_ok l ->
  exists bp, bp_build uninit (bv_range l) h h0 = Ok bp /\
  (forall p, nth_error l p <> Some true -> find_close sp bp (Z.of_nat p) = Ub AssertFailed /\ enclose sp bp (Z.of_nat p) = Ub AssertFailed) /\
  find_open sp bp 0 = Ub AssertFailed /\
  (forall cs a b, b < a -> excess_rmq cs bp a b = Ub AssertFailed).
Proof. exact reject_bp. Qed.
Print Assumptions C63_bp_vector_partial.
Example C63_parens_ex : zlen sf_parens < 2 ^ 31 /\ prefix_ok sf_parens /\ nth_error sf_parens 75 = Some false /\
  (do bp <- bp_build 0 (bv_range sf_parens) false false; enclose strict_shift bp 75) = Ub AssertFailed /\
  (do bp <- bp_build 0 (bv_range sf_parens) false false; excess_rmq true bp 5 4) = Ub AssertFailed.
Proof. split; [reflexivity|]. split; [apply bal_prefix_ok, balb_sound; vm_compute; reflexivity|]. vm_compute. auto. Qed.
(** find_open does not check its argument *)
Theorem C63_find_open_refuted : forall sp uninit h h0 l pos, zlen l < 2 ^ 31 -> prefix_ok l ->
  64 * ((zlen l + 63) / 64) <= pos -> pos <> 0 ->
  exists bp, bp_build uninit (bv_range l) h h0 = Ok bp /\ find_open sp bp pos = Ub OutOfBounds.
Proof. exact find_open_past. Qed.
Print Assumptions C63_find_open_refuted.
Example C63_bp_vector_ex : prefix_ok sf_parens /\ nth_error sf_parens 75 <> Some true /\ 64 * ((zlen sf_parens + 63) / 64) <= 192 /\
  (do bp <- bp_build 0 (bv_range sf_parens) false false; find_close strict_shift bp 75) = Ub AssertFailed /\
  (do bp <- bp_build 0 (bv_range sf_parens) false false; find_open strict_shift bp 193) = Ub OutOfBounds.
Proof. split; [apply bal_prefix_ok, balb_sound; vm_compute; reflexivity|]. vm_compute. intuition congruence. Qed.

Theorem C63_cartesian_tree_partial : forall T (comp : T -> T -> bool) gr uninit e v, 2 * zlen v + 2 < 2 ^ 31 ->
  exists ct, ct_build gr uninit comp e v = Ok ct /\
  (forall cs a b, b < a -> ct_rmq cs ct a b = Ub AssertFailed) /\
  (forall cs a b, a < b -> zlen v <= b < 2 ^ 63 -> ct_rmq cs ct a b = Ub AssertFailed).
Proof. exact @reject_ct. Qed.
Print Assumptions C63_cartesian_tree_partial.
Example C63_cartesian_range_ex : 2 * zlen [4; 1; 3] + 2 < 2 ^ 31 /\
  (do ct <- ct_build sf_grow 0 Z.ltb 3 [4; 1; 3]; ct_rmq true ct 1 3) = Ub AssertFailed /\
  (do ct <- ct_build sf_grow 0 Z.ltb 3 [4; 1; 3]; ct_rmq true ct 2 1) = Ub AssertFailed.
Proof. vm_compute. auto. Qed.
(** rmq(a, a) is not checked against the size *)
Theorem C63_rmq_refuted : forall cs ct a, ct_rmq cs ct a a = Ok a.
Proof. exact rmq_same. Qed.
Print Assumptions C63_rmq_refuted.
Example C63_cartesian_tree_ex : 2 * zlen [4; 1; 3] + 2 < 2 ^ 31 /\
  (do ct <- ct_build sf_grow 0 Z.ltb 3 [4; 1; 3]; ct_rmq true ct 1 3) = Ub AssertFailed /\
  (do ct <- ct_build sf_grow 0 Z.ltb 3 [4; 1; 3]; ct_rmq true ct 3 3) = Ok 3.
Proof. vm_compute. auto. Qed.
Theorem C63_topk_vector_partial : forall T cs (tk : topk_vector T) s a b, b < a -> te_set cs tk s a b = Ub AssertFailed.
Proof. exact @reject_topk. Qed.
Print Assumptions C63_topk_vector_partial.
Example C63_topk_vector_ex : (do tk <- tk_build sf_grow 0 Z.ltb [4; 1; 3]; te_set true tk te_new 2 1) = Ub AssertFailed.
Proof. vm_compute. auto. Qed.
