(** Property C110: enumerators whose structure is swapped with another between two calls *)
From Verif Require Import Base Spec M_BitVector M_Darray M_EliasFano M_Gamma S_BitVector S_EliasFano S_Gamma M_EnumSwap S_EnumSwap P_EnumSwap.

(** C110: a bit_vector::enumerator returns, at call [i], a bit of what its object held at call [64 * (i / 64)], over every history
    of calls and swaps; it stops with a failed assertion exactly if one of these refills is beyond the end of the contents of its time *)
Theorem C110_bits : forall l l' pos os, 0 <= pos -> let cs := seen l l' os in
  ((forall i, (i < length cs)%nat -> (i mod 64 = 0)%nat -> pos + Z.of_nat i < zlen (nth i cs [])) ->
   en_calls (bv_range l) (bv_range l') (enum_new pos) os =
   Ok (map (fun i => bit_or_zero (nth (64 * (i / 64)) cs []) (pos + Z.of_nat i)) (seq 0 (length cs)))) /\
  ((exists i, (i < length cs)%nat /\ (i mod 64 = 0)%nat /\ zlen (nth i cs []) <= pos + Z.of_nat i) ->
   en_calls (bv_range l) (bv_range l') (enum_new pos) os = Ub AssertFailed).
Proof. exact bits_swapped. Qed.
Print Assumptions C110_bits.
Example C110_bits_ex : seen [true; true; true] [false; false; false] [SCall; SSwap; SCall] = [[true; true; true]; [false; false; false]] /\
  en_calls (bv_range [true; true; true]) (bv_range [false; false; false]) (enum_new 0) [SCall; SSwap; SCall] = Ok [true; true] /\
  en_calls (bv_range [true; true; true]) (bv_range [false; false; false]) (enum_new 0) [SSwap; SCall; SCall] = Ok [false; false] /\
  en_calls (bv_range [true; true; true]) (bv_range []) (enum_new 0) [SSwap; SCall] = Ub AssertFailed.
Proof. split; [reflexivity|]. split; [vm_compute; reflexivity|]. split; vm_compute; reflexivity. Qed.

(** C110: a unary_enumerator goes on through the ones of the words it was made for, wherever they are now *)
Theorem C110_unary : forall l l' pos os, 0 <= pos < zlen l -> (rank true l (Z.to_nat pos) + length (seen l l' os) <= count true l)%nat ->
  exists u vs, unary_new (bv_words (bv_range l)) pos = Ok u /\ un_calls (bv_range l) (bv_range l') (bv_words (bv_range l)) u os = Ok vs /\
  length vs = length (seen l l' os) /\
  forall j, (j < length vs)%nat -> exists q, is_select true l (rank true l (Z.to_nat pos) + j) q /\ nth j vs 0 = Z.of_nat q.
Proof. exact unary_swapped. Qed.
Print Assumptions C110_unary.
Example C110_unary_ex : (rank true [true; false; true; true] 1 + length (seen (@nil bool) [] [SCall; SSwap; SCall]) <= count true [true; false; true; true])%nat /\
  (do u <- unary_new (bv_words (bv_range [true; false; true; true])) 1;
   un_calls (bv_range [true; false; true; true]) (bv_range []) (bv_words (bv_range [true; false; true; true])) u [SCall; SSwap; SCall]) = Ok [2; 3].
Proof. split; [cbn; auto with arith|vm_compute; reflexivity]. Qed.

(** C110: the enumerators of the gamma codes keep the lengths of the values they were made for, whatever the other vector holds *)
Theorem C110_gamma_vector : forall gr ints, Forall (fun x => 0 <= x < 2 ^ 64 - 1) ints -> zlen ints < 2 ^ 57 -> exists g, gv_build gr ints = Ok g /\
  forall i, (i < length ints)%nat -> exists e, gv_enum_new g (Z.of_nat i) = Ok e /\
  forall other os vs, (i + length (seen g other os) <= length ints)%nat -> gs_calls gvs_next g other (bv_words (d64_bits (g_high g))) e os = Ok vs ->
  map (fun v => Z.log2 (v + 1)) vs = map (fun y => Z.log2 (y + 1)) (window ints i (length (seen g other os))).
Proof. exact gv_swapped. Qed.
Print Assumptions C110_gamma_vector.
Example C110_gamma_vector_ex : Forall (fun x => 0 <= x < 2 ^ 64 - 1) [5; 100] /\
  (do g <- gv_build (fun c _ => 2 * c) [5; 100]; do g' <- gv_build (fun c _ => 2 * c) [2 ^ 20 - 2; 7]; do e <- gv_enum_new g 0;
   gs_calls gvs_next g g' (bv_words (d64_bits (g_high g))) e [SSwap; SCall; SCall]) = Ok [6; 126].
Proof. split; [repeat (apply Forall_cons; [lia|]); apply Forall_nil|vm_compute; reflexivity]. Qed.

(** C110: the same for gamma_bit_vector *)
Theorem C110_gamma_bit_vector : forall gr ints, Forall (fun x => 0 <= x < 2 ^ 64 - 2) ints -> zlen ints < 2 ^ 57 -> exists g, gb_build gr ints = Ok g /\
  forall i, (i < length ints)%nat -> exists e, gb_enum_new g (Z.of_nat i) = Ok e /\
  forall other os vs, (i + length (seen g other os) <= length ints)%nat -> gs_calls gbs_next g other (bv_words (d64_bits (g_high g))) e os = Ok vs ->
  map (fun v => Z.log2 (v + 2)) vs = map (fun y => Z.log2 (y + 2)) (window ints i (length (seen g other os))).
Proof. exact gb_swapped. Qed.
Print Assumptions C110_gamma_bit_vector.
Example C110_gamma_bit_vector_ex : Forall (fun x => 0 <= x < 2 ^ 64 - 2) [5; 100] /\
  (do g <- gb_build (fun c _ => 2 * c) [5; 100]; do g' <- gb_build (fun c _ => 2 * c) [2 ^ 20 - 3; 7]; do e <- gb_enum_new g 0;
   gs_calls gbs_next g g' (bv_words (d64_bits (g_high g))) e [SSwap; SCall; SCall]) = Ok [5; 125].
Proof. split; [repeat (apply Forall_cons; [lia|]); apply Forall_nil|vm_compute; reflexivity]. Qed.

(** C110: the select_enumerator of elias_fano keeps the high parts of the values it was made for *)
Theorem C110_select : forall gr n m vs idx, ef_input n m vs -> exists ef, ef_make gr n m vs idx = Ok ef /\
  forall i, (i < length vs)%nat -> exists e, se_new ef (Z.of_nat i) = Ok e /\
  forall other os rs, (i + length (seen ef other os) <= length vs)%nat -> ses_calls ef other (bv_words (ef_high ef)) (ef_l ef) e os = Ok rs ->
  map (fun v => v / 2 ^ ef_l ef) rs = map (fun v => v / 2 ^ ef_l ef) (window vs i (length (seen ef other os))).
Proof. exact se_swapped. Qed.
Print Assumptions C110_select.
Example C110_select_ex : ef_input 100 2 [3; 5] /\
  (do ef <- ef_make (fun c _ => 2 * c) 100 2 [3; 5] false; do ef' <- ef_make (fun c _ => 2 * c) 100 2 [8; 9] false; do e <- se_new ef 0;
   ses_calls ef ef' (bv_words (ef_high ef)) (ef_l ef) e [SSwap; SCall; SCall]) = Ok [8; 9].
Proof.
  split; [|vm_compute; reflexivity]. unfold ef_input. split; [lia|]. split; [lia|]. split; [vm_compute; reflexivity|]. split; [vm_compute; discriminate|].
  split; [repeat (apply Forall_cons; [lia|]); apply Forall_nil|]. repeat constructor; lia.
Qed.

(** C110: swaps that are undone before the next call change nothing *)
Theorem C110_undone : (forall g other e os, Forall (eq g) (seen g other os) ->
    gs_calls gvs_next g other (bv_words (d64_bits (g_high g))) e os = gv_run g e (length (seen g other os)) /\
    gs_calls gbs_next g other (bv_words (d64_bits (g_high g))) e os = gb_run g e (repeat GNext (length (seen g other os)))) /\
  (forall ef other e os, Forall (eq ef) (seen ef other os) ->
    ses_calls ef other (bv_words (ef_high ef)) (ef_l ef) e os = se_run ef e (length (seen ef other os))).
Proof. exact (conj (fun g o e os F => conj (gv_home g os g o e F) (gb_home g os g o e F)) (fun ef o e os F => se_home ef os ef o e F)). Qed.
Print Assumptions C110_undone.
Example C110_undone_ex : forall g other : gamma, Forall (eq g) (seen g other [SCall; SSwap; SSwap; SCall]).
Proof. intros. repeat (apply Forall_cons; [reflexivity|]). apply Forall_nil. Qed.

(** C110: after a swap the enumerators of gamma codes return values that are in neither vector, and the select_enumerator fails an
    assertion *)
Theorem C110_gamma_refuted : exists ints ints' v, (do g <- gv_build (fun c _ => 2 * c) ints; do g' <- gv_build (fun c _ => 2 * c) ints'; do e <- gv_enum_new g 0;
   gs_calls gvs_next g g' (bv_words (d64_bits (g_high g))) e [SSwap; SCall]) = Ok [v] /\ ~ In v ints /\ ~ In v ints'.
Proof. exact gamma_mixed. Qed.
Print Assumptions C110_gamma_refuted.
Theorem C110_select_refuted : exists vs vs', ef_input 100 2 vs /\ ef_input 100 2 vs' /\
  (do ef <- ef_make (fun c _ => 2 * c) 100 2 vs false; do ef' <- ef_make (fun c _ => 2 * c) 100 2 vs' false; do e <- se_new ef 0;
   ses_calls ef ef' (bv_words (ef_high ef)) (ef_l ef) e [SCall; SSwap; SCall]) = Ub AssertFailed.
Proof. exact select_stops. Qed.
Print Assumptions C110_select_refuted.
