(** C71: how many rounds the loops of the searching queries take. A query of [M_Steps] given too few rounds ends in [Ub OutOfFuel]. *)
From Verif Require Import Base Spec M_BitVector S_BitVector M_RsBitVector M_Darray S_Darray M_Bp S_Bp M_Steps P_BpSpec P_Steps.

(** at most [k] rounds of binary search in a vector of at most 512 (2^k - 1) bits, with hints or without *)
Theorem C71_select : forall l with_hints with_hints0 k, zlen l + 512 <= 512 * 2 ^ Z.of_nat k ->
  exists rs, rs_build (bv_range l) with_hints with_hints0 = Ok rs /\
  (forall n q, is_select true l n q -> rs_select_in k rs (Z.of_nat n) = Ok (Z.of_nat q)) /\
  (forall n q, is_select false l n q -> rs_select0_in k rs (Z.of_nat n) = Ok (Z.of_nat q)).
Proof. exact steps_select. Qed.
Print Assumptions C71_select.
Definition steps_seq : list bool := repeat false 700 ++ repeat true 800.
Example C71_select_ex : zlen steps_seq + 512 <= 512 * 2 ^ Z.of_nat 2 /\ is_select true steps_seq 5 705 /\
  (do rs <- rs_build (bv_range steps_seq) false false; rs_select_in 2 rs 5) = Ok 705 /\
  (do rs <- rs_build (bv_range steps_seq) false false; rs_select_in 1 rs 5) = Ub OutOfFuel.
Proof. split; [discriminate|]. split; [split; reflexivity|]. split; vm_compute; reflexivity. Qed.

(** at most 1024 words read after the first *)
Theorem C71_darray : forall neg l, zlen l < 2 ^ 63 -> exists d, darray_build neg (canonical l) = Ok d /\
  forall n q, is_select (negb neg) l n q -> darray_select_in 1024 neg d (canonical l) (Z.of_nat n) = Ok (Z.of_nat q).
Proof. exact steps_darray. Qed.
Print Assumptions C71_darray.
Example C71_darray_ex : zlen steps_seq < 2 ^ 63 /\ is_select (negb false) steps_seq 20 720 /\
  (do d <- darray_build false (canonical steps_seq); darray_select_in 1024 false d (canonical steps_seq) 20) = Ok 720 /\
  (do d <- darray_build false (canonical steps_seq); darray_select_in 0 false d (canonical steps_seq) 20) = Ub OutOfFuel.
Proof. split; [reflexivity|]. split; [split; reflexivity|]. split; vm_compute; reflexivity. Qed.

(** at most 64 words read after the first *)
Theorem C71_darray64 : forall gr skips, Forall (fun s => 0 <= s <= 64) skips -> exists b d,
  append1_all gr d64_new skips = Ok b /\ d64_build b = Ok d /\
  forall i q, 0 <= i -> is_select true (d64_seq skips) (Z.to_nat i) q -> d64_select_in 64 d i = Ok (Z.of_nat q).
Proof. exact steps_darray64. Qed.
Print Assumptions C71_darray64.
(** the bound is reached *)
Definition steps_skips : list Z := 63 :: repeat 64 63.
Example C71_darray64_ex : Forall (fun s => 0 <= s <= 64) steps_skips /\ is_select true (d64_seq steps_skips) 63 4158 /\
  (do b <- append1_all (fun c _ => 2 * c) d64_new steps_skips; do d <- d64_build b; d64_select_in 64 d 63) = Ok 4158 /\
  (do b <- append1_all (fun c _ => 2 * c) d64_new steps_skips; do d <- d64_build b; d64_select_in 63 d 63) = Ub OutOfFuel.
Proof. split; [repeat constructor; discriminate|]. split; [split; reflexivity|]. split; vm_compute; reflexivity. Qed.

(** at most [k + 1] nodes up and [k + 1] down in the tree of a sequence of at most 8192 * 2^k parentheses *)
Theorem C71_parentheses : forall f uninit h h0 l k, zlen l < 2 ^ 31 -> prefix_ok l -> zlen l <= 8192 * 2 ^ Z.of_nat k ->
  exists bp, bp_build uninit (bv_range l) h h0 = Ok bp /\
  (forall p m, matches l p m ->
     find_close_in (S k) (loose_shift f) bp p = Ok m /\ find_open_in (S k) (loose_shift f) bp m = Ok p) /\
  (forall p r, nth_error l p = Some true -> innermost l r (Z.of_nat p) -> enclose_in (S k) (loose_shift f) bp (Z.of_nat p) = Ok r) /\
  (forall p, nth_error l p <> Some true ->
     find_close_in (S k) (loose_shift f) bp (Z.of_nat p) = Ub AssertFailed /\ enclose_in (S k) (loose_shift f) bp (Z.of_nat p) = Ub AssertFailed).
Proof. exact steps_parentheses. Qed.
Print Assumptions C71_parentheses.
Definition steps_bp : list bool := repeat true 300 ++ repeat false 300.
Example C71_parentheses_ex : zlen steps_bp < 2 ^ 31 /\ prefix_ok steps_bp /\ zlen steps_bp <= 8192 * 2 ^ Z.of_nat 0 /\ bal steps_bp /\
  (do bp <- bp_build 0 (bv_range steps_bp) false false;
   do r <- find_close_in 1 (loose_shift (fun _ _ => 5)) bp 3; do s <- find_open_in 1 (loose_shift (fun _ _ => 5)) bp 596;
   do e <- enclose_in 1 (loose_shift (fun _ _ => 5)) bp 9; Ok (r, s, e)) = Ok (596, 3, 8).
Proof.
  assert (B : bal steps_bp) by (apply balb_sound; vm_compute; reflexivity).
  split; [reflexivity|]. split; [apply bal_prefix_ok; exact B|]. split; [discriminate|]. split; [exact B|]. vm_compute. reflexivity.
Qed.

(** the same for the range minimum *)
Theorem C71_excess_rmq : forall uninit h h0 l k, zlen l < 2 ^ 31 -> prefix_ok l -> zlen l <= 8192 * 2 ^ Z.of_nat k ->
  (bal l \/ forall p, 0 <= p <= zlen l -> depth l p < 2 ^ 31 - 64) ->
  exists bp, bp_build uninit (bv_range l) h h0 = Ok bp /\
  forall a b, 0 <= a <= b -> b <= zlen l ->
    exists p, excess_rmq_in (S k) true bp a b = Ok (p, depth l p) /\ leftmost_min_depth l a b p.
Proof. exact steps_rmq. Qed.
Print Assumptions C71_excess_rmq.
Example C71_excess_rmq_ex : zlen steps_bp <= 8192 * 2 ^ Z.of_nat 0 /\ bal steps_bp /\ 0 <= 10 <= 590 /\ 590 <= zlen steps_bp /\
  (do bp <- bp_build 0 (bv_range steps_bp) false false; do x <- excess_rmq_in 1 true bp 100 580; do y <- excess_rmq_in 1 true bp 10 500; Ok (x, y))
  = Ok (580, 20, (10, 10)).
Proof.
  split; [discriminate|]. split; [apply balb_sound; vm_compute; reflexivity|]. split; [lia|]. split; [discriminate|]. vm_compute. reflexivity.
Qed.
