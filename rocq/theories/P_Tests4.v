(** The test oracles of test_bit_vector.cpp. *)
From Verif Require Import Base Spec Lib M_Broadword M_BitVector M_Tests.
From Verif Require Import S_Tests S_BitVector P_Broadword2 P_BvLib P_Builder P_BitVector P_BvEnum P_BvRank P_BvProps P_BvGen P_Tests1 P_Tests3.

Lemma binv_none : binv (mk_builder [] 0 0 0 None) [].
Proof. split; [reflexivity|]. split; [exact (words_ok_pack [])|]. split; [reflexivity|]. intros H. elim H. reflexivity. Qed.

Lemma push_each_ok gr : forall v b l, binv b l -> exists b', push_each gr b v = Ok b' /\ binv b' (l ++ v).
Proof.
  induction v as [|x v IH]; intros b l B; cbn [push_each]; [exists b; rewrite app_nil_r; auto|].
  destruct (push_back_ok gr b l x B) as (b1 & -> & B1). cbn [bind].
  destruct (IH b1 _ B1) as (b2 & -> & B2). exists b2. split; auto. rewrite <- app_assoc in B2. exact B2.
Qed.

Lemma equal_canonical l : test_equal_bits l (bv_size (canonical l)) (bv_get (canonical l)) = Ok true.
Proof. apply test_equal_bits_ok. intros; apply bv_get_nth; auto. Qed.

Lemma test_push_back_ok gr v : test_push_back gr v = Ok true.
Proof.
  unfold test_push_back. destruct (push_each_ok gr v _ [] binv_none) as (b & -> & B). cbn [bind].
  rewrite (binv_bv _ _ B). apply equal_canonical.
Qed.
Lemma test_reverse_ok gr v : test_bvb_reverse gr v = Ok true.
Proof.
  unfold test_bvb_reverse. destruct (push_each_ok gr v _ [] binv_none) as (b & -> & B). cbn [bind].
  destruct (reverse_ok _ _ B) as (b' & -> & B'). cbn [bind].
  rewrite (binv_bv _ _ B'). apply equal_canonical.
Qed.

Lemma skipn_repeat {A} (x : A) n k : skipn k (repeat x n) = repeat x (n - k).
Proof. revert k; induction n as [|n IH]; intros [|k]; cbn; auto. Qed.

Lemma set_each_ok : forall v b a, binv b (a ++ repeat false (length v)) ->
  exists b', set_each b v (zlen a) = Ok b' /\ binv b' (a ++ v).
Proof.
  induction v as [|x v IH]; intros b a B; cbn [set_each]; [eauto|].
  cbn [length repeat] in B. pose proof (zlen_nonneg a).
  destruct (bset_ok b _ (zlen a) x B) as (b1 & -> & B1).
  { rewrite zlen_app, zlen_cons. pose proof (zlen_nonneg (repeat false (length v))). lia. }
  cbn [bind]. unfold zlen in B1. rewrite Nat2Z.id, firstn_app, firstn_all, Nat.sub_diag in B1.
  cbn [firstn] in B1. rewrite app_nil_r, skipn_app, skipn_all2 in B1 by lia.
  replace (length a + 1 - length a)%nat with 1%nat in B1 by lia. cbn [app skipn] in B1.
  rewrite <- (zlen_snoc a x). destruct (IH b1 (a ++ [x])) as (b2 & -> & B2).
  - rewrite <- app_assoc. exact B1.
  - exists b2. split; auto. rewrite <- app_assoc in B2. exact B2.
Qed.

Lemma test_set_ok gr v : test_set gr v = Ok true.
Proof.
  unfold test_set. destruct (new_builder_ok (zlen v) false (zlen_nonneg v)) as (b & -> & B). cbn [bind].
  unfold zlen in B. rewrite Nat2Z.id in B. destruct (set_each_ok v b [] B) as (b1 & E1 & B1).
  change (zlen (@nil bool)) with 0 in E1. rewrite E1. cbn [bind app] in *.
  destruct (push_back_ok gr _ _ false B1) as (b2 & -> & B2). cbn [bind].
  destruct (push_back_ok gr _ _ true B2) as (b3 & -> & B3). cbn [bind].
  rewrite (binv_bv _ _ B3). cbn [bind]. rewrite <- app_assoc. cbn [app]. apply equal_canonical.
Qed.

(** ** integers *)
Definition int_bits (i : Z) : list bool := bits_of (Z.to_nat (Z.log2 i + 1)) i.
Definition ints_bits (ints : list Z) : list bool := flat_map int_bits ints.

Lemma int_facts i : int_ok i -> msb i = Ok (Z.log2 i) /\ 0 <= Z.log2 i < 64 /\ 0 <= i < 2 ^ (Z.log2 i + 1) /\
  zlen (int_bits i) = Z.log2 i + 1.
Proof.
  intros H. unfold int_ok in H. split; [apply msb_correct; [unfold is_u64; lia|lia]|].
  pose proof (Z.log2_nonneg i). pose proof (Z.log2_spec i ltac:(lia)) as S. unfold Z.succ in S.
  assert (Z.log2 i < 64) by (apply Z.log2_lt_pow2; lia).
  split; [lia|]. split; [lia|]. unfold int_bits. rewrite zlen_bits_of. lia.
Qed.

Lemma append_ints_ok gr : forall ints b l, Forall int_ok ints -> binv b l ->
  exists b', append_ints gr b ints = Ok b' /\ binv b' (l ++ ints_bits ints).
Proof.
  induction ints as [|i ints IH]; intros b l HF B; cbn [append_ints].
  { exists b. cbn. rewrite app_nil_r. auto. }
  inversion HF as [|? ? Hi HF']; subst. destruct (int_facts i Hi) as (-> & H1 & H2 & _). cbn [bind].
  destruct (append_bits_ok gr b l i (Z.log2 i + 1) B ltac:(lia) H2) as (b1 & -> & B1). cbn [bind].
  destruct (IH b1 _ HF' B1) as (b2 & -> & B2). exists b2. split; auto. rewrite <- app_assoc in B2. exact B2.
Qed.

Lemma window_mid {A} (a u v : list A) : window (a ++ u ++ v) (length a) (length u) = u.
Proof.
  unfold window. rewrite skipn_app, skipn_all, Nat.sub_diag. cbn [app skipn].
  rewrite firstn_app, firstn_all, Nat.sub_diag. cbn [firstn]. apply app_nil_r.
Qed.

(** reading one integer *)
Lemma get_int sp i a v : int_ok i -> (i < 2 ^ 63 \/ exists f, sp = loose_shift f) -> (sp = strict_shift \/ exists f, sp = loose_shift f) ->
  get_bits sp (canonical (a ++ int_bits i ++ v)) (zlen a) (Z.log2 i + 1) = Ok i.
Proof.
  intros Hi Hsp Hp. destruct (int_facts i Hi) as (_ & H1 & H2 & H3).
  assert (V : value (window (a ++ int_bits i ++ v) (Z.to_nat (zlen a)) (Z.to_nat (Z.log2 i + 1))) = i).
  { rewrite <- H3. unfold zlen. rewrite !Nat2Z.id, window_mid. unfold int_bits. apply value_bits_of. rewrite Z2Nat.id by lia. lia. }
  assert (L : zlen a + (Z.log2 i + 1) <= zlen (a ++ int_bits i ++ v)).
  { rewrite !zlen_app, H3. pose proof (zlen_nonneg v). lia. }
  pose proof (zlen_nonneg a).
  destruct Hp as [->|(f & ->)].
  - destruct Hsp as [Hs|(f & Hf)].
    + assert (Z.log2 i < 63) by (apply Z.log2_lt_pow2; unfold int_ok in Hi; lia).
      rewrite get_bits_strict by lia. rewrite V. reflexivity.
    + rewrite Hf, get_bits_loose by lia. rewrite V. reflexivity.
  - rewrite get_bits_loose by lia. rewrite V. reflexivity.
Qed.

Lemma get_ints_ok sp l : (sp = strict_shift \/ exists f, sp = loose_shift f) -> forall ints a, Forall int_ok ints ->
  (Forall (fun i => i < 2 ^ 63) ints \/ exists f, sp = loose_shift f) -> l = a ++ ints_bits ints ->
  get_ints sp (canonical l) (zlen a) ints = Ok true.
Proof.
  intros Hp. induction ints as [|i ints IH]; intros a HF HS E; cbn [get_ints]; auto.
  inversion HF as [|? ? Hi HF']; subst x l0. destruct (int_facts i Hi) as (-> & H1 & H2 & H3). cbn [bind].
  cbn [ints_bits flat_map] in E. fold (ints_bits ints) in E.
  assert (HS' : i < 2 ^ 63 \/ exists f, sp = loose_shift f) by (destruct HS as [HS|HS]; [left; inversion HS; auto|auto]).
  rewrite E at 1. rewrite get_int by auto. cbn [bind]. rewrite Z.eqb_refl. rewrite <- H3, <- zlen_app.
  apply IH; auto.
  - destruct HS as [HS|HS]; auto. left. inversion HS; auto.
  - rewrite <- app_assoc. exact E.
Qed.

Lemma test_ints_ok gr sp ints : (sp = strict_shift \/ exists f, sp = loose_shift f) -> Forall int_ok ints ->
  (Forall (fun i => i < 2 ^ 63) ints \/ exists f, sp = loose_shift f) -> test_ints gr sp ints = Ok true.
Proof.
  intros Hp HF HS. unfold test_ints. destruct (append_ints_ok gr ints _ [] HF binv_none) as (b & -> & B). cbn [bind].
  rewrite (binv_bv _ _ B). cbn [bind]. apply (get_ints_ok sp _ Hp ints []); auto.
Qed.

Lemma ints_size_ok : forall ints pos, Forall int_ok ints -> ints_size pos ints = Ok (pos + zlen (ints_bits ints)).
Proof.
  induction ints as [|i ints IH]; intros pos HF; cbn [ints_size].
  { change (zlen (ints_bits [])) with 0. f_equal. lia. }
  inversion HF as [|? ? Hi HF']; subst. destruct (int_facts i Hi) as (-> & _ & _ & H3). cbn [bind].
  rewrite IH by auto. cbn [ints_bits flat_map]. fold (ints_bits ints). rewrite zlen_app, H3. f_equal. lia.
Qed.

Lemma set_ints_ok : forall ints b a, Forall int_ok ints -> binv b (a ++ repeat false (length (ints_bits ints))) ->
  exists b', set_ints b (zlen a) ints = Ok b' /\ binv b' (a ++ ints_bits ints).
Proof.
  induction ints as [|i ints IH]; intros b a HF B; cbn [set_ints]; [eauto|].
  inversion HF as [|? ? Hi HF']; subst. destruct (int_facts i Hi) as (-> & H1 & H2 & H3). cbn [bind].
  cbn [ints_bits flat_map] in *. fold (ints_bits ints) in *. rewrite app_length, repeat_app in B.
  pose proof (zlen_nonneg a). assert (Ln : length (int_bits i) = Z.to_nat (Z.log2 i + 1)) by (unfold zlen in H3; lia).
  destruct (set_bits_ok b _ (zlen a) i (Z.log2 i + 1) B) as (b1 & -> & B1); try lia.
  { rewrite !zlen_app, !zlen_repeat. unfold zlen. lia. }
  cbn [bind]. unfold zlen in B1. rewrite Nat2Z.id, firstn_app, firstn_all, Nat.sub_diag in B1.
  cbn [firstn] in B1. rewrite app_nil_r, skipn_app, skipn_all2 in B1 by lia.
  replace (length a + Z.to_nat (Z.log2 i + 1) - length a)%nat with (length (int_bits i)) in B1 by lia.
  rewrite skipn_app, skipn_all2, repeat_length, Nat.sub_diag in B1 by (rewrite repeat_length; lia). cbn [app skipn] in B1.
  fold (int_bits i) in B1. rewrite <- H3, <- zlen_app.
  destruct (IH b1 (a ++ int_bits i) HF') as (b2 & -> & B2); [rewrite <- app_assoc; exact B1|].
  exists b2. split; auto. rewrite <- app_assoc in B2. exact B2.
Qed.

Lemma test_set_ints_ok sp ints : (sp = strict_shift \/ exists f, sp = loose_shift f) -> Forall int_ok ints ->
  (Forall (fun i => i < 2 ^ 63) ints \/ exists f, sp = loose_shift f) -> test_set_ints sp ints = Ok true.
Proof.
  intros Hp HF HS. unfold test_set_ints. rewrite ints_size_ok by auto. cbn [bind].
  destruct (new_builder_ok (0 + zlen (ints_bits ints)) false) as (b & -> & B); [pose proof (zlen_nonneg (ints_bits ints)); lia|].
  cbn [bind]. unfold zlen in B. rewrite Z.add_0_l, Nat2Z.id in B.
  destruct (set_ints_ok ints b [] HF B) as (b1 & E1 & B1). change (zlen (@nil bool)) with 0 in E1. rewrite E1. cbn [bind].
  rewrite (binv_bv _ _ B1). cbn [bind]. apply (get_ints_ok sp _ Hp ints []); auto.
Qed.

(** the first integer of 64 bits makes get_bits shift by 64 *)
Lemma get_bits_64 bv pos : 0 <= pos -> pos + 64 <= bv_size bv -> bv_size bv < 2 ^ 64 -> get_bits strict_shift bv pos 64 = Ub BadShift.
Proof.
  intros H0 H1 H2. unfold get_bits. rewrite u64_small by lia. rewrite assert_true by lia. reflexivity.
Qed.
Lemma get_ints_strict l : zlen l < 2 ^ 64 -> forall ints a, Forall int_ok ints -> Exists (fun i => 2 ^ 63 <= i) ints ->
  l = a ++ ints_bits ints -> get_ints strict_shift (canonical l) (zlen a) ints = Ub BadShift.
Proof.
  intros HL. induction ints as [|i ints IH]; intros a HF HX E; [inversion HX|]. cbn [get_ints].
  inversion HF as [|? ? Hi HF']; subst x l0. destruct (int_facts i Hi) as (-> & H1 & H2 & H3). cbn [bind].
  cbn [ints_bits flat_map] in E. fold (ints_bits ints) in E.
  destruct (Z_lt_le_dec i (2 ^ 63)) as [C|C].
  - rewrite E at 1. rewrite get_int by auto. cbn [bind]. rewrite Z.eqb_refl. rewrite <- H3, <- zlen_app.
    apply IH; auto.
    + inversion HX; subst; auto. lia.
    + rewrite <- app_assoc. exact E.
  - assert (63 <= Z.log2 i) by (apply Z.log2_le_pow2; unfold int_ok in Hi; lia).
    replace (Z.log2 i) with 63 in * by lia. change (63 + 1) with 64.
    rewrite get_bits_64; auto; [apply zlen_nonneg|]. cbn [canonical bv_size]. rewrite E, !zlen_app, H3.
    pose proof (zlen_nonneg (ints_bits ints)). lia.
Qed.
Lemma test_ints_strict gr ints : Forall int_ok ints -> Exists (fun i => 2 ^ 63 <= i) ints -> zlen ints < 2 ^ 58 ->
  test_ints gr strict_shift ints = Ub BadShift /\ test_set_ints strict_shift ints = Ub BadShift.
Proof.
  intros HF HX HL.
  assert (LB : zlen (ints_bits ints) <= 64 * zlen ints).
  { clear HX HL. induction HF as [|i ints Hi HF IH]; [discriminate|]. cbn [ints_bits flat_map]. fold (ints_bits ints).
    rewrite zlen_app, zlen_cons. destruct (int_facts i Hi) as (_ & H1 & _ & ->). lia. }
  split.
  - unfold test_ints. destruct (append_ints_ok gr ints _ [] HF binv_none) as (b & -> & B). cbn [bind].
    rewrite (binv_bv _ _ B). cbn [bind]. apply (get_ints_strict (ints_bits ints)) with (a := []); auto. lia.
  - unfold test_set_ints. rewrite ints_size_ok by auto. cbn [bind].
    destruct (new_builder_ok (0 + zlen (ints_bits ints)) false) as (b & -> & B); [pose proof (zlen_nonneg (ints_bits ints)); lia|].
    cbn [bind]. unfold zlen in B. rewrite Z.add_0_l, Nat2Z.id in B.
    destruct (set_ints_ok ints b [] HF B) as (b1 & E1 & B1). change (zlen (@nil bool)) with 0 in E1. rewrite E1. cbn [bind].
    rewrite (binv_bv _ _ B1). cbn [bind]. apply (get_ints_strict (ints_bits ints)) with (a := []); auto. lia.
Qed.

Lemma test_bits gr v : test_push_back gr v = Ok true /\ test_set gr v = Ok true /\ test_bvb_reverse gr v = Ok true.
Proof. split; [apply test_push_back_ok|]. split; [apply test_set_ok|apply test_reverse_ok]. Qed.
Lemma test_ints_loose gr f ints : Forall int_ok ints ->
  test_ints gr (loose_shift f) ints = Ok true /\ test_set_ints (loose_shift f) ints = Ok true.
Proof. intros H. split; [apply test_ints_ok|apply test_set_ints_ok]; eauto. Qed.
Lemma test_ints_small gr ints : Forall int_ok ints -> Forall (fun i => i < 2 ^ 63) ints ->
  test_ints gr strict_shift ints = Ok true /\ test_set_ints strict_shift ints = Ok true.
Proof. intros H H'. split; [apply test_ints_ok|apply test_set_ints_ok]; auto. Qed.
Lemma values_ok : Forall int_ok test_ints_values.
Proof. unfold test_ints_values, int_ok. repeat constructor; lia. Qed.
Lemma values_strict gr : test_ints gr strict_shift test_ints_values = Ub BadShift /\ test_set_ints strict_shift test_ints_values = Ub BadShift.
Proof. apply test_ints_strict; [apply values_ok| |reflexivity]. apply Exists_cons_hd. lia. Qed.
