(** Proofs for C115: darray and darray64 *)
From Verif Require Import Base Spec Lib M_Broadword M_BitVector M_Darray S_BitVector S_Darray P_BvLib P_BvRank P_BvGen P_BitVector P_BvProps P_Darray S_Local P_Local.

Lemma same_getw neg (P : Z -> Prop) xs ys i : same_at P xs ys -> P i -> getw neg xs i = getw neg ys i.
Proof. intros S Hi. unfold getw. rewrite (same_rd _ _ _ _ S Hi). reflexivity. Qed.
Lemma same_loop neg ws ws' : Forall is_u64 ws -> length ws = length ws' -> forall fuel i w r i' w' r',
  is_u64 w -> darray_loop neg fuel ws i w r = Ok (i', w', r') ->
  i <= i' /\ is_u64 w' /\ r' < popcount w' /\
  (same_at (fun j => i < j <= i') ws ws' -> darray_loop neg fuel ws' i w r = Ok (i', w', r')).
Proof.
  intros F L. induction fuel as [|fuel IH]; intros i w r i' w' r' U E; cbn [darray_loop] in *; cbv zeta in *;
    destruct (Z.ltb_spec r (popcount w)) as [C|C]; try discriminate; try (injection E as <- <- <-; split; [lia|]; split; [auto|]; split; auto).
  destruct (getw neg ws (i + 1)) as [v|] eqn:G; cbn [bind] in E; [|discriminate].
  destruct (IH _ _ _ _ _ _ (getw_u64 _ _ _ _ F G) E) as (H1 & H2 & H3 & H4). split; [lia|]. split; [exact H2|]. split; [exact H3|].
  intros S. rewrite <- (same_getw neg _ _ _ _ S) by lia. rewrite G. cbn [bind]. apply H4. eapply same_weaken; [|exact S]. cbv beta. lia.
Qed.
Lemma loop_nonneg neg ws : forall fuel i w r i' w' r', 0 <= r -> darray_loop neg fuel ws i w r = Ok (i', w', r') -> 0 <= r'.
Proof.
  induction fuel as [|fuel IH]; intros i w r i' w' r' U E; cbn [darray_loop] in *; cbv zeta in *;
    destruct (Z.ltb_spec r (popcount w)) as [C|C]; try discriminate; try (injection E as <- <- <-; auto; lia).
  destruct (getw neg ws (i + 1)) as [v|] eqn:G; cbn [bind] in E; [|discriminate]. refine (IH _ _ _ _ _ _ _ E). lia.
Qed.
Lemma same_scan neg ws ws' s r q : Forall is_u64 ws -> 0 <= r -> darray_scan neg ws s r = Ok q ->
  same_at (fun i => s / 64 <= i <= q / 64) ws ws' -> darray_scan neg ws' s r = Ok q.
Proof.
  intros F Hr E S. unfold darray_scan in *. destruct (r =? 0); [exact E|]. cbv zeta in *.
  destruct (getw neg ws (s / 64)) as [w|] eqn:G; cbn [bind] in E; [|discriminate].
  destruct (shl (2 ^ 64 - 1) (s mod 64)) as [m|] eqn:Em; cbn [bind] in *; [|discriminate].
  assert (Um : is_u64 m) by (unfold shl in Em; destruct ((0 <=? s mod 64) && (s mod 64 <? 64)); [injection Em as <-; apply u64_is|discriminate]).
  destruct (darray_loop _ _ _ _ _ _) as [[[i' w'] r']|] eqn:D; cbn [bind] in E; [|discriminate].
  destruct (select_in_word w' r') as [x|] eqn:Q; cbn [bind] in E; [|discriminate]. injection E as <-.
  pose proof (getw_u64 _ _ _ _ F G) as U.
  assert (U' : is_u64 (Z.land w m)) by (apply land_is; auto).
  destruct (same_loop neg ws ws' F (proj1 S) _ _ _ _ _ _ _ U' D) as (H1 & H2 & H3 & H4).
  pose proof (siw_range _ _ _ H2 (loop_nonneg _ _ _ _ _ _ _ _ _ Hr D) Q) as Hx.
  assert (Q' : (64 * i' + x) / 64 = i') by dlia. rewrite Q' in S.
  rewrite <- (same_getw neg _ _ _ _ S) by lia. rewrite G. cbn [bind]. rewrite <- (proj1 S), H4.
  - cbn [bind]. rewrite Q. reflexivity.
  - eapply same_weaken; [|exact S]. cbv beta. lia.
Qed.

Lemma sel_lt b l k p : is_select b l k p -> (k < count b l)%nat.
Proof.
  intros [N <-]. pose proof (rank_S b l p b N) as S. pose proof (rank_le_count b l (Datatypes.S p)).
  rewrite Bool.eqb_reflx in S. lia.
Qed.
Lemma local_darray_gen neg l d : (forall i, 0 <= i < Z.of_nat (count (negb neg) l) ->
    exists q, darray_select neg d (canonical l) i = Ok (Z.of_nat q) /\ is_select (negb neg) l (Z.to_nat i) q) ->
  forall bv k p q, is_select (negb neg) l (32 * (k / 32)) p -> is_select (negb neg) l k q ->
  same_at (fun i => Z.of_nat p / 64 <= i <= Z.of_nat q / 64) (bv_words (canonical l)) (bv_words bv) ->
  darray_select neg d bv (Z.of_nat k) = Ok (Z.of_nat q).
Proof.
  intros A bv k p q Hp Hq S.
  pose proof (Nat.div_mod k 32 ltac:(lia)) as Dk.
  destruct (A (Z.of_nat k)) as (q' & Eq & Sq); [pose proof (sel_lt _ _ _ _ Hq); lia|].
  rewrite Nat2Z.id in Sq. rewrite (is_select_unique _ _ _ _ _ Sq Hq) in Eq. clear q' Sq.
  destruct (A (Z.of_nat (32 * (k / 32)))) as (p' & Ep & Sp); [pose proof (sel_lt _ _ _ _ Hp); lia|].
  rewrite Nat2Z.id in Sp. rewrite (is_select_unique _ _ _ _ _ Sp Hp) in Ep. clear p' Sp.
  assert (Kz : Z.of_nat (32 * (k / 32)) = 32 * (Z.of_nat k / 32)) by (rewrite Nat2Z.inj_mul, Nat2Z.inj_div; reflexivity).
  rewrite Kz in Ep. unfold darray_select, d_block_size, d_subblock_size in *. set (z := Z.of_nat k) in *.
  assert (K1 : 32 * (z / 32) / 1024 = z / 1024) by dlia. assert (K2 : 32 * (z / 32) / 32 = z / 32) by dlia. assert (K3 : 32 * (z / 32) mod 32 = 0) by dlia.
  rewrite K1, K2, K3 in Ep.
  destruct (z <? da_positions d); [|discriminate]. destruct (32 * (z / 32) <? da_positions d); [|discriminate]. cbn [assert_] in *.
  destruct (rd (da_blocks d) (z / 1024)) as [bp|]; cbn [bind] in *; [|discriminate]. destruct (bp <? 0); [exact Eq|].
  destruct (rd (da_subs d) (z / 32)) as [s|]; cbn [bind] in *; [|discriminate].
  assert (B : bp + s = Z.of_nat p) by (unfold darray_scan in Ep; cbn [Z.eqb] in Ep; congruence).
  rewrite B in *. apply (same_scan neg (bv_words (canonical l))); auto; [apply pack_u64|apply Z.mod_pos_bound; lia].
Qed.
Lemma local_darray neg l : zlen l < 2 ^ 63 -> exists d, darray_build neg (canonical l) = Ok d /\
  forall bv k p q, is_select (negb neg) l (32 * (k / 32)) p -> is_select (negb neg) l k q ->
  same_at (fun i => Z.of_nat p / 64 <= i <= Z.of_nat q / 64) (bv_words (canonical l)) (bv_words bv) ->
  darray_select neg d bv (Z.of_nat k) = Ok (Z.of_nat q).
Proof.
  intros H. destruct (darray_all neg l H) as (d & E & _ & A). exists d. split; [exact E|]. exact (local_darray_gen neg l d A).
Qed.
Lemma local_darray64 gr skips : Forall (fun s => 0 <= s <= 64) skips -> exists b d,
  append1_all gr d64_new skips = Ok b /\ d64_build b = Ok d /\
  forall bv k p q, is_select true (d64_seq skips) (64 * (k / 64)) p -> is_select true (d64_seq skips) k q ->
  same_at (fun i => Z.of_nat p / 64 <= i <= Z.of_nat q / 64) (bv_words (d64_bits d)) (bv_words bv) ->
  d64_select (mk_d64 (d64_num_ones d) bv (d64_blocks d) (d64_subs d)) (Z.of_nat k) = Ok (Z.of_nat q).
Proof.
  intros F. destruct (d64_all gr skips F) as (b & d & Eb & Ed & B & N & A). exists b, d. split; [exact Eb|]. split; [exact Ed|].
  intros bv k p q Hp Hq S. pose proof (Nat.div_mod k 64 ltac:(lia)) as Dk.
  assert (C : zlen skips = Z.of_nat (count true (d64_seq skips))).
  { clear. unfold zlen. f_equal. induction skips as [|s skips IH]; [reflexivity|]. cbn [d64_seq flat_map].
    rewrite !count_app, count_repeat. cbn [eqb]. change (count true [true]) with 1%nat. unfold d64_seq in IH. rewrite <- IH. reflexivity. }
  destruct (A (Z.of_nat k)) as (q' & Eq & Sq); [pose proof (sel_lt _ _ _ _ Hq); lia|].
  rewrite Nat2Z.id in Sq. rewrite (is_select_unique _ _ _ _ _ Sq Hq) in Eq. clear q' Sq.
  destruct (A (Z.of_nat (64 * (k / 64)))) as (p' & Ep & Sp); [pose proof (sel_lt _ _ _ _ Hp); lia|].
  rewrite Nat2Z.id in Sp. rewrite (is_select_unique _ _ _ _ _ Sp Hp) in Ep. clear p' Sp.
  assert (Kz : Z.of_nat (64 * (k / 64)) = 64 * (Z.of_nat k / 64)) by (rewrite Nat2Z.inj_mul, Nat2Z.inj_div; reflexivity).
  rewrite Kz in Ep. unfold d64_select, d64_block_size, d64_subblock_size in *. cbn [d64_num_ones d64_bits d64_blocks d64_subs].
  set (z := Z.of_nat k) in *.
  assert (K1 : 64 * (z / 64) / 1024 = z / 1024) by dlia. assert (K2 : 64 * (z / 64) / 64 = z / 64) by dlia. assert (K3 : 64 * (z / 64) mod 64 = 0) by dlia.
  rewrite K1, K2, K3 in Ep.
  destruct (z <? d64_num_ones d); [|discriminate]. destruct (64 * (z / 64) <? d64_num_ones d); [|discriminate]. cbn [assert_] in *.
  destruct (rd (d64_blocks d) (z / 1024)) as [bp|]; cbn [bind] in *; [|discriminate].
  destruct (rd (d64_subs d) (z / 64)) as [s|]; cbn [bind] in *; [|discriminate].
  assert (Bp : bp + s = Z.of_nat p) by (unfold darray_scan in Ep; cbn [Z.eqb] in Ep; congruence).
  rewrite Bp in *. apply (same_scan false (bv_words (d64_bits d))); auto; [rewrite B; apply pack_u64|apply Z.mod_pos_bound; lia].
Qed.
