(** Proofs for C71: the binary search of select with hints *)
From Verif Require Import Base Spec Lib M_Broadword M_BitVector M_RsBitVector M_Darray M_Bp M_Steps.
From Verif Require Import P_BvLib P_BvRank S_BitVector P_RsGen P_RsBuild P_RsQuery S_Bp P_BvGen P_BitVector P_Builder P_BvProps P_Steps S_Hints.

Lemma block_of neg l m p w : is_select (negb neg) l m p -> 0 <= w -> G neg l (8 * w) <= Z.of_nat m < G neg l (8 * (w + 1)) -> w = Z.of_nat p / 512.
Proof.
  intros Hp Hw H. apply is_select_bpad in Hp. pose proof (sel_G neg l m p (8 * w) Hp ltac:(lia)) as A.
  pose proof (sel_G neg l m p (8 * (w + 1)) Hp ltac:(lia)) as B. assert (512 * w <= Z.of_nat p < 512 * (w + 1)) by lia. clear - H0. dlia.
Qed.
Lemma nb_end l : nb l = Z.of_nat (length l + 511) / 512.
Proof. unfold nb. rewrite zlen_pack. unfold zlen. rewrite Nat2Z.inj_add. generalize (Z.of_nat (length l)). intros. dlia. Qed.

Lemma hints_range neg l hints pairs n p p' : pinv l pairs -> hints_inv neg l hints -> hints <> [] -> (n < count (negb neg) l)%nat ->
  Z.of_nat n < G neg l (8 * nb l) ->
  chunk_start (negb neg) l n p -> chunk_end (negb neg) l n p' ->
  exists b, range_gen hints pairs (Z.of_nat n) = Ok (Z.of_nat p / 512, b) /\ b <= Z.of_nat p' / 512 + 1 /\ b <= nb l + 1 /\
    (neg = false -> b = Z.of_nat p' / 512 + 1).
Proof.
  intros P Hh Hne Hn HG Hs He. destruct Hh as [->|(L & Hh & Hl & Ht)]; [contradiction|]. unfold range_gen.
  replace (zlen hints =? 0) with false by lia. change select_ones_per_hint with 1024.
  assert (Ec : Z.of_nat n / 1024 = Z.of_nat (n / 1024)) by (rewrite Nat2Z.inj_div; reflexivity). rewrite Ec.
  set (c := (n / 1024)%nat) in *.
  assert (Dn : (1024 * c <= n < 1024 * c + 1024)%nat) by (pose proof (Nat.div_mod n 1024 ltac:(lia)); pose proof (Nat.mod_upper_bound n 1024 ltac:(lia)); fold c in H; lia).
  assert (Hc : Z.of_nat c < zlen hints) by lia.
  assert (HA : (if Z.of_nat c =? 0 then Ok 0 else rd hints (Z.of_nat c - 1)) = Ok (Z.of_nat p / 512)).
  { destruct (Z.eqb_spec (Z.of_nat c) 0) as [E|E].
    - destruct Hs as [(_ & ->)|(Hs & _)]; [reflexivity|lia].
    - rewrite W_rd by lia. f_equal. destruct (Hh (Z.of_nat c - 1) ltac:(lia)) as [Q1 Q2].
      destruct Hs as [(Hs & _)|(_ & Hs)]; [lia|]. apply (block_of neg l _ p _ Hs); lia. }
  rewrite HA. cbn [bind]. rewrite W_rd by lia. cbn [bind]. eexists. split; [reflexivity|].
  destruct (Z.eq_dec (Z.of_nat c) (zlen hints - 1)) as [E|E].
  - rewrite E, Hl. destruct He as [He|(He & ->)].
    + exfalso. pose proof He as He'. apply is_select_bpad in He. pose proof (is_select_rank_lt _ _ _ _ (Z.to_nat (64 * (8 * nb l))) He) as R.
      apply is_select_bound in He'. pose proof (zlen_bpad l) as Z1. pose proof (nb_end l). unfold zlen in *.
      specialize (R ltac:(clear - H He'; revert H; generalize (nb l); intros; dlia)). unfold G in Ht. lia.
    + rewrite <- nb_end. lia.
  - destruct (Hh (Z.of_nat c) ltac:(lia)) as [Q1 Q2]. destruct He as [He|(He & ->)].
    + assert (B : W hints (Z.of_nat c) = Z.of_nat p' / 512) by (apply (block_of neg l _ p' _ He); lia). lia.
    + rewrite <- nb_end. split; [lia|]. split; [lia|]. intros ->. exfalso. cbn [negb] in *.
      pose proof (G_words l (8 * nb l) (proj1 (nb_words l))) as Gw. pose proof (G_mono false l (8 * (W hints (Z.of_nat c) + 1)) (8 * nb l) ltac:(lia)). lia.
Qed.

Lemma hints_nonempty neg pairs hints : hints_gen neg pairs = Ok hints -> hints <> [].
Proof. unfold hints_gen. intros E. destruct (hints_gen_loop _ _ _ _ _ _) as [h|]; [|discriminate]. cbn [bind] in E. injection E as <-. destruct h; discriminate. Qed.
Lemma rs_build_hints l h h0 : exists rs, rs_build (canonical l) h h0 = Ok rs /\ rs_ok l rs /\ (h = true -> rs_hints rs <> []) /\ (h0 = true -> rs_hints0 rs <> []).
Proof.
  destruct (rs_build_ok l h h0) as (rs & E & R). exists rs. split; [exact E|]. split; [exact R|].
  rewrite rs_build_eq in E. unfold rs_build_gen in E. destruct (build_pairs _) as [pairs|]; [|discriminate]. cbn [bind] in E.
  destruct (if h then _ else _) as [hs|] eqn:E1; [|discriminate]. cbn [bind] in E. destruct (if h0 then _ else _) as [hs0|] eqn:E0; [|discriminate]. cbn [bind] in E.
  injection E as <-. cbn [rs_hints rs_hints0]. split; intros ->; eapply hints_nonempty; eassumption.
Qed.

(** fewer rounds than the logarithm do not suffice *)
Lemma search_slow l pairs n : pinv l pairs -> forall k a b, 0 <= a -> b <= nb l + 1 -> 2 ^ (Z.of_nat k + 1) <= b - a ->
  search_gen false k pairs n a b = Ub OutOfFuel.
Proof.
  intros P. induction k as [|k IH]; intros a b Ha Hb Hk.
  - change (2 ^ (Z.of_nat 0 + 1)) with 2 in Hk. cbn [search_gen]. rewrite sub64_ok by lia. replace (1 <? b - a) with true by lia. reflexivity.
  - replace (Z.of_nat (S k) + 1) with (Z.of_nat k + 1 + 1) in Hk by lia. rewrite Z.pow_add_r in Hk by lia. change (2 ^ 1) with 2 in Hk.
    pose proof (Z.pow_pos_nonneg 2 (Z.of_nat k + 1) ltac:(lia) ltac:(lia)) as PP.
    cbn [search_gen]. rewrite sub64_ok by lia. replace (1 <? b - a) with true by lia.
    rewrite (block_rank_ok false l) by (auto; dlia). cbn [bind]. destruct (_ <=? n); apply IH; try lia; dlia.
Qed.

Lemma count_G neg l n q : is_select (negb neg) l n q -> (n < count (negb neg) l)%nat /\ Z.of_nat n < G neg l (8 * nb l).
Proof.
  intros H. split.
  - pose proof (is_select_bound _ _ _ _ H). pose proof (is_select_rank_lt _ _ _ _ (length l) H ltac:(lia)) as R. unfold rank in R. rewrite firstn_all in R. exact R.
  - pose proof (is_select_bound _ _ _ _ H) as B. apply is_select_bpad in H. unfold G. apply inj_lt. apply (is_select_rank_lt _ _ _ q); auto.
    pose proof (nb_end l). revert H0. generalize (nb l). intros. dlia.
Qed.

Lemma steps_hints l h0 : exists rs, rs_build (bv_range l) true h0 = Ok rs /\ forall n q p p' k, is_select true l n q ->
  chunk_start true l n p -> chunk_end true l n p' ->
  (spread p p' <= 2 ^ Z.of_nat k -> rs_select_in k rs (Z.of_nat n) = Ok (Z.of_nat q)) /\
  (2 ^ (Z.of_nat k + 1) <= spread p p' -> rs_select_in k rs (Z.of_nat n) = Ub OutOfFuel).
Proof.
  rewrite bv_range_ok. destruct (rs_build_hints l true h0) as (rs & E & R & N & _). exists rs. split; [exact E|].
  intros n q p p' k Hq Hs He. unfold spread. pose proof R as (Ebv & P & H1 & _).
  destruct (count_G false l n q Hq) as (Cn & Gn).
  destruct (hints_range false l (rs_hints rs) (rs_pairs rs) n p p' P H1 (N eq_refl) Cn Gn Hs He) as (b & Er & B1 & B2 & B3).
  specialize (B3 eq_refl). change range_gen with search_range in Er.
  destruct (select_range false l rs n q R Hq) as (a' & b' & Er' & A1 & A2). change range_gen with search_range in Er'. rewrite Er in Er'. injection Er' as <- <-.
  unfold rs_select_in. rewrite (num_ones_ok l) by auto. cbn [bind negb] in *. rewrite assert_true by lia. rewrite Er. cbn [bind]. split; intros Hk.
  - assert (Es : rs_select rs (Z.of_nat n) = Ok (Z.of_nat q)) by (rewrite rs_select_eq; apply (select_gen_ok false l); auto).
    unfold rs_select in Es. rewrite (num_ones_ok l) in Es by auto. cbn [bind] in Es. rewrite assert_true in Es by lia. rewrite Er in Es. cbn [bind] in Es.
    destruct (block_search _ _ _ (Z.of_nat p / 512) b) as [c|] eqn:Ec; [|discriminate].
    rewrite (block_search_fast k _ _ (Z.of_nat p / 512) b _ c ltac:(lia) ltac:(lia) ltac:(lia) Ec). exact Es.
  - rewrite search_eq, (search_slow l) by (auto; lia). reflexivity.
Qed.
Lemma steps_hints0 l h : exists rs, rs_build (bv_range l) h true = Ok rs /\ forall n q p p' k, is_select false l n q ->
  chunk_start false l n p -> chunk_end false l n p' -> spread p p' <= 2 ^ Z.of_nat k -> rs_select0_in k rs (Z.of_nat n) = Ok (Z.of_nat q).
Proof.
  rewrite bv_range_ok. destruct (rs_build_hints l h true) as (rs & E & R & _ & N). exists rs. split; [exact E|].
  intros n q p p' k Hq Hs He Hk. unfold spread in Hk. pose proof R as (Ebv & P & _ & H1).
  destruct (count_G true l n q Hq) as (Cn & Gn).
  destruct (hints_range true l (rs_hints0 rs) (rs_pairs rs) n p p' P H1 (N eq_refl) Cn Gn Hs He) as (b & Er & B1 & B2 & _).
  change range_gen with search_range0 in Er.
  destruct (select_range true l rs n q R Hq) as (a' & b' & Er' & A1 & A2). change range_gen with search_range0 in Er'. rewrite Er in Er'. injection Er' as <- <-.
  unfold rs_select0_in. rewrite (num_zeros_ok l) by auto. cbn [bind negb] in *. rewrite assert_true by lia. rewrite Er. cbn [bind].
  assert (Es : rs_select0 rs (Z.of_nat n) = Ok (Z.of_nat q)) by (rewrite rs_select0_eq; apply (select_gen_ok true l); auto).
  unfold rs_select0 in Es. rewrite (num_zeros_ok l) in Es by auto. cbn [bind] in Es. rewrite assert_true in Es by lia. rewrite Er in Es. cbn [bind] in Es.
  destruct (block_search0 _ _ _ (Z.of_nat p / 512) b) as [c|] eqn:Ec; [|discriminate].
  rewrite (block_search0_fast k _ _ (Z.of_nat p / 512) b _ c ltac:(lia) ltac:(lia) ltac:(lia) Ec). exact Es.
Qed.
