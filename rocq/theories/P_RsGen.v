(** The indices and queries for ones and zeros as functions of a flag, for the proofs. *)
From Verif Require Import Base M_Broadword M_BitVector M_Darray M_RsBitVector.

Definition block_rank_gen (neg : bool) := if neg then block_rank0 else block_rank.

Fixpoint hints_gen_loop (neg : bool) (pairs : list Z) (n : nat) (i threshold : Z) (hints : list Z)
  : res (list Z) :=
  match n with
  | O => Ok hints
  | S n =>
      do r <- block_rank_gen neg pairs (i + 1);
      if threshold <? r then
        hints_gen_loop neg pairs n (i + 1) (threshold + select_ones_per_hint) (hints ++ [i])
      else hints_gen_loop neg pairs n (i + 1) threshold hints
  end.
Definition hints_gen (neg : bool) (pairs : list Z) : res (list Z) :=
  do hints <- hints_gen_loop neg pairs (Z.to_nat (num_blocks pairs)) 0 select_ones_per_hint [];
  Ok (hints ++ [num_blocks pairs]).
Definition rs_build_gen (bv : bit_vector) (with_hints with_hints0 : bool) : res rs_bit_vector :=
  do pairs <- build_pairs (bv_words bv);
  do hints <- (if with_hints then hints_gen false pairs else Ok []);
  do hints0 <- (if with_hints0 then hints_gen true pairs else Ok []);
  Ok (mk_rs bv pairs hints hints0).

Definition range_gen (hints pairs : list Z) (n : Z) : res (Z * Z) :=
  if zlen hints =? 0 then Ok (0, num_blocks pairs)
  else
    let chunk := n / select_ones_per_hint in
    do a <- (if chunk =? 0 then Ok 0 else rd hints (chunk - 1));
    do h <- rd hints chunk;
    Ok (a, h + 1).

Fixpoint search_gen (neg : bool) (fuel : nat) (pairs : list Z) (n a b : Z) : res Z :=
  if 1 <? sub64 b a then
    match fuel with
    | O => Ub OutOfFuel
    | S fuel =>
        let mid := a + sub64 b a / 2 in
        do x <- block_rank_gen neg pairs mid;
        if x <=? n then search_gen neg fuel pairs n mid b
        else search_gen neg fuel pairs n a mid
    end
  else Ok a.

Definition select_gen (neg : bool) (rs : rs_bit_vector) (n : Z) : res Z :=
  let pairs := rs_pairs rs in
  do total <- (if neg then num_zeros rs else num_ones rs);
  assert! (n <? total);
  do (a, b) <- range_gen (if neg then rs_hints0 rs else rs_hints rs) pairs n;
  do block <- search_gen neg (S (length pairs)) pairs n a b;
  assert! (block <? num_blocks pairs);
  let block_offset := block * block_size in
  do cur_rank <- block_rank_gen neg pairs block;
  assert! (cur_rank <=? n);
  let rank_in_block_parallel := u64 ((n - cur_rank) * ones_step_9) in
  do s <- sub_block_ranks pairs block;
  let sub_ranks := if neg then u64 (u64 (64 * inv_count_step_9) - s) else s in
  let sub_block_offset :=
    Z.land (Z.shiftr (u64 (uleq_step_9 sub_ranks rank_in_block_parallel * ones_step_9)) 54) 7 in
  do x <- shr sub_ranks ((7 - sub_block_offset) * 9);
  let cur_rank := cur_rank + Z.land x 0x1FF in
  assert! (cur_rank <=? n);
  let word_offset := block_offset + sub_block_offset in
  do w <- getw neg (bv_words (rs_bv rs)) word_offset;
  do r <- select_in_word w (n - cur_rank);
  Ok (word_offset * 64 + r).

Lemma hints_loop_eq pairs n : forall i th hs, hints_loop pairs n i th hs = hints_gen_loop false pairs n i th hs.
Proof.
  induction n as [|n IH]; intros; cbn [hints_loop hints_gen_loop block_rank_gen]; [reflexivity|].
  destruct (block_rank _ _); cbn [bind]; [|reflexivity]. destruct (_ <? _); apply IH.
Qed.
Lemma hints0_loop_eq pairs n : forall i th hs, hints0_loop pairs n i th hs = hints_gen_loop true pairs n i th hs.
Proof.
  induction n as [|n IH]; intros; cbn [hints0_loop hints_gen_loop block_rank_gen]; [reflexivity|].
  destruct (block_rank0 _ _); cbn [bind]; [|reflexivity]. destruct (_ <? _); apply IH.
Qed.
Lemma rs_build_eq bv h h0 : rs_build bv h h0 = rs_build_gen bv h h0.
Proof.
  unfold rs_build, rs_build_gen, build_hints, build_hints0, hints_gen. destruct (build_pairs _) as [pairs|]; cbn [bind]; [|reflexivity].
  rewrite hints_loop_eq, hints0_loop_eq. reflexivity.
Qed.

Lemma search_eq fuel : forall pairs n a b, block_search fuel pairs n a b = search_gen false fuel pairs n a b.
Proof.
  induction fuel as [|fuel IH]; intros; cbn [block_search search_gen block_rank_gen]; [reflexivity|].
  destruct (_ <? _); [|reflexivity]. destruct (block_rank _ _); cbn [bind]; [|reflexivity]. destruct (_ <=? _); apply IH.
Qed.
Lemma search0_eq fuel : forall pairs n a b, block_search0 fuel pairs n a b = search_gen true fuel pairs n a b.
Proof.
  induction fuel as [|fuel IH]; intros; cbn [block_search0 search_gen block_rank_gen]; [reflexivity|].
  destruct (_ <? _); [|reflexivity]. destruct (block_rank0 _ _); cbn [bind]; [|reflexivity]. destruct (_ <=? _); apply IH.
Qed.
Ltac same_select := repeat (match goal with
  | |- assert_ ?c _ = _ => destruct c; cbn [assert_]; [|reflexivity]
  | |- bind (bind ?m _) _ = _ => destruct m; cbn [bind]; [|reflexivity]
  | |- _ = bind (bind ?m _) _ => destruct m; cbn [bind]; [|reflexivity]
  | |- bind ?m _ = bind ?m _ => destruct m as [?|]; cbn [bind]; [|reflexivity]
  | |- (let '(_, _) := ?p in _) = _ => destruct p
  end; cbv zeta); try reflexivity.
Lemma rs_select_eq rs n : rs_select rs n = select_gen false rs n.
Proof.
  unfold rs_select, select_gen. change search_range with range_gen. cbv zeta. unfold block_rank_gen, getw. 
  destruct (num_ones rs) as [t|]; cbn [bind]; [|reflexivity]. destruct (n <? _); cbn [assert_]; [|reflexivity].
  destruct (range_gen _ _ _) as [[? ?]|]; cbn [bind]; [|reflexivity]. rewrite search_eq. same_select.
Qed.
Lemma rs_select0_eq rs n : rs_select0 rs n = select_gen true rs n.
Proof.
  unfold rs_select0, select_gen. change search_range0 with range_gen. cbv zeta. unfold block_rank_gen, getw.
  destruct (num_zeros rs) as [t|]; cbn [bind]; [|reflexivity]. destruct (n <? _); cbn [assert_]; [|reflexivity].
  destruct (range_gen _ _ _) as [[? ?]|]; cbn [bind]; [|reflexivity]. rewrite search0_eq. same_select.
Qed.
