(** C115: which words a query depends on. [same_at P xs ys]: the arrays have the same length and the same elements at the places [P]. *)
From Verif Require Import Base Spec M_BitVector M_RsBitVector M_EliasFano M_Util S_Local P_Local.

(** C115: the reads of a bit_vector depend on the words their bits lie in, for any two objects of the same size *)
Theorem C115_bits : forall bv bv' pos, bv_size bv = bv_size bv' ->
  (same_at (fun i => i = pos / 64) (bv_words bv) (bv_words bv') -> bv_get bv pos = bv_get bv' pos) /\
  (forall sp len, 0 <= len -> same_at (fun i => pos / 64 <= i <= (pos + len - 1) / 64) (bv_words bv) (bv_words bv') ->
    get_bits sp bv pos len = get_bits sp bv' pos len) /\
  (same_at (fun i => pos / 64 <= i <= (pos + 63) / 64) (bv_words bv) (bv_words bv') -> get_word bv pos = get_word bv' pos) /\
  (same_at (fun i => pos / 64 <= i <= (pos / 8 + 7) / 8) (bv_words bv) (bv_words bv') -> get_word56 bv pos = get_word56 bv' pos).
Proof. exact local_bits. Qed.
Print Assumptions C115_bits.
Example C115_bits_ex : same_at (fun i => 70 / 64 <= i <= (70 + 20 - 1) / 64) [5; 7; 9] [6; 7; 0] /\
  get_bits strict_shift (mk_bv 192 [5; 7; 9]) 70 20 = get_bits strict_shift (mk_bv 192 [6; 7; 0]) 70 20 /\
  bv_get (mk_bv 192 [5; 7; 9]) 0 <> bv_get (mk_bv 192 [6; 7; 0]) 0.
Proof.
  split; [|split; [reflexivity|vm_compute; discriminate]]. split; [reflexivity|]. intros i _ Hi. change (70 / 64) with 1 in Hi.
  change ((70 + 20 - 1) / 64) with 1 in Hi. replace i with 1 by lia. reflexivity.
Qed.

(** C115: an element of a nibble_vector depends on one byte *)
Theorem C115_nibble : forall n n' pos, nv_size n = nv_size n' -> same_at (fun i => i = pos / 2) (nv_nibbles n) (nv_nibbles n') ->
  nv_get n pos = nv_get n' pos.
Proof. exact local_nibble. Qed.
Print Assumptions C115_nibble.
Example C115_nibble_ex : same_at (fun i => i = 3 / 2) [1; 0x52] [2; 0x52] /\ nv_get (mk_nv 4 [1; 0x52]) 3 = Ok 5.
Proof. split; [|reflexivity]. split; [reflexivity|]. intros i _ ->. reflexivity. Qed.

(** C115: rank and rank0 depend on the pair of their block, and on the word of the position unless it is the first bit of it; at the
    end, on the last rank only *)
Theorem C115_rank : forall rs rs' pos, bv_size (rs_bv rs) = bv_size (rs_bv rs') ->
  (if pos =? bv_size (rs_bv rs) then same_at (fun i => i = zlen (rs_pairs rs) - 2) (rs_pairs rs) (rs_pairs rs')
   else same_at (fun i => i = 2 * (pos / 512) \/ i = 2 * (pos / 512) + 1) (rs_pairs rs) (rs_pairs rs') /\
     (pos mod 64 <> 0 -> same_at (fun i => i = pos / 64) (bv_words (rs_bv rs)) (bv_words (rs_bv rs')))) ->
  rs_rank rs pos = rs_rank rs' pos /\ rs_rank0 rs pos = rs_rank0 rs' pos.
Proof. exact local_rank. Qed.
Print Assumptions C115_rank.
Definition C115_bits_of : list bool := repeat true 70 ++ repeat false 60.
Example C115_rank_ex : exists rs, rs_build (bv_range C115_bits_of) false false = Ok rs /\
  let rs' := mk_rs (mk_bv 130 (0 :: tl (bv_words (rs_bv rs)))) (rs_pairs rs) [] [] in
  bv_words (rs_bv rs) <> bv_words (rs_bv rs') /\
  same_at (fun i => i = 66 / 64) (bv_words (rs_bv rs)) (bv_words (rs_bv rs')) /\ rs_rank rs' 66 = Ok 66 /\ rs_rank rs' 20 = Ok 0.
Proof.
  eexists. split; [vm_compute; reflexivity|]. cbv zeta. split; [cbn; discriminate|]. split; [|split; vm_compute; reflexivity].
  split; [reflexivity|]. intros i _ ->. reflexivity.
Qed.

(** C115: select and select0 of a built vector stay right in any object that has the same ranks of blocks, the same two hints, and the
    pair and the word of the result *)
Theorem C115_select : forall l with_hints with_hints0, exists rs, rs_build (bv_range l) with_hints with_hints0 = Ok rs /\
  forall rs' n q, bv_size (rs_bv rs) = bv_size (rs_bv rs') ->
  same_at (fun i => i mod 2 = 0 \/ i = 2 * (Z.of_nat q / 512) + 1) (rs_pairs rs) (rs_pairs rs') ->
  same_at (fun i => i = Z.of_nat q / 64) (bv_words (rs_bv rs)) (bv_words (rs_bv rs')) ->
  (is_select true l n q -> same_at (fun i => i = Z.of_nat n / 1024 \/ i = Z.of_nat n / 1024 - 1) (rs_hints rs) (rs_hints rs') ->
    rs_select rs' (Z.of_nat n) = Ok (Z.of_nat q)) /\
  (is_select false l n q -> same_at (fun i => i = Z.of_nat n / 1024 \/ i = Z.of_nat n / 1024 - 1) (rs_hints0 rs) (rs_hints0 rs') ->
    rs_select0 rs' (Z.of_nat n) = Ok (Z.of_nat q)).
Proof. exact local_select. Qed.
Print Assumptions C115_select.
Example C115_select_ex : exists rs, rs_build (bv_range C115_bits_of) false false = Ok rs /\
  let rs' := mk_rs (mk_bv 130 (0 :: tl (bv_words (rs_bv rs)))) (rs_pairs rs) [] [] in
  is_select true C115_bits_of 68 68 /\ same_at (fun i => i = 68 / 64) (bv_words (rs_bv rs)) (bv_words (rs_bv rs')) /\
  rs_select rs' 68 = Ok 68 /\ rs_select rs' 20 = Ub AssertFailed.
Proof.
  eexists. split; [vm_compute; reflexivity|]. cbv zeta. split; [split; reflexivity|]. split; [|split; vm_compute; reflexivity].
  split; [reflexivity|]. intros i _ ->. reflexivity.
Qed.

(** C115: select of an elias_fano depends on the low bits of its own value alone *)
Theorem C115_elias_fano : forall ef low n, 0 <= ef_l ef -> bv_size (ef_low ef) = bv_size low ->
  same_at (fun i => n * ef_l ef / 64 <= i <= (n * ef_l ef + ef_l ef - 1) / 64) (bv_words (ef_low ef)) (bv_words low) ->
  ef_select ef n = ef_select (mk_ef (ef_size ef) (ef_high ef) (ef_d1 ef) (ef_d0 ef) low (ef_l ef)) n.
Proof. exact local_ef. Qed.
Print Assumptions C115_elias_fano.
Example C115_elias_fano_ex : exists ef, (do b <- ef_builder_new (fun c n => Z.max (2 * c) n) (3 * 2 ^ 40) 3; do b <- ef_push (fun c n => Z.max (2 * c) n) b 700;
    do b <- ef_push (fun c n => Z.max (2 * c) n) b 1500; do b <- ef_push (fun c n => Z.max (2 * c) n) b (2 ^ 41 + 5); ef_build b false) = Ok ef /\
  ef_l ef = 40 /\ let low := mk_bv 120 (0 :: tl (bv_words (ef_low ef))) in bv_size (ef_low ef) = bv_size low /\
  same_at (fun i => 2 * 40 / 64 <= i <= (2 * 40 + 40 - 1) / 64) (bv_words (ef_low ef)) (bv_words low) /\
  ef_select ef 2 = Ok (2 ^ 41 + 5) /\ ef_select ef 0 = Ok 700 /\
  ef_select (mk_ef (ef_size ef) (ef_high ef) (ef_d1 ef) (ef_d0 ef) low (ef_l ef)) 2 = Ok (2 ^ 41 + 5) /\
  ef_select (mk_ef (ef_size ef) (ef_high ef) (ef_d1 ef) (ef_d0 ef) low (ef_l ef)) 0 = Ok 0.
Proof.
  eexists. split; [vm_compute; reflexivity|]. split; [reflexivity|]. cbv zeta. split; [vm_compute; reflexivity|]. split.
  - split; [reflexivity|]. intros i _ Hi. change (2 * 40 / 64) with 1 in Hi. change ((2 * 40 + 40 - 1) / 64) with 1 in Hi. replace i with 1 by lia. reflexivity.
  - split; [vm_compute; reflexivity|]. split; [vm_compute; reflexivity|]. split; vm_compute; reflexivity.
Qed.
