(** Restatements with [nth_error] of the bit_vector lemmas. *)
From Verif Require Import Base Spec Lib M_BitVector S_BitVector P_BvLib P_Builder P_BitVector P_BvRank P_BvEnum P_BvGen.

Lemma zbit_of_nth_error l p b : 0 <= p -> nth_error l (Z.to_nat p) = Some b ->
  p < zlen l /\ zbit l p = b.
Proof.
  intros Hp H. assert (p < zlen l).
  { assert (Z.to_nat p < length l)%nat by (apply nth_error_Some; congruence). unfold zlen; lia. }
  split; auto. rewrite zbit_nth_error in H by lia. congruence.
Qed.

Lemma bv_get_nth l i b : nth_error l i = Some b -> bv_get (canonical l) (Z.of_nat i) = Ok b.
Proof.
  intros H. destruct (zbit_of_nth_error l (Z.of_nat i) b) as [H1 H2]; [lia|rewrite Nat2Z.id; auto|].
  rewrite bv_get_ok by lia. rewrite H2. auto.
Qed.

Lemma bv_get_out l pos : zlen l <= pos -> bv_get (canonical l) pos = Ub AssertFailed.
Proof.
  intros H. unfold bv_get, canonical; cbn [bv_size bv_words].
  replace (pos <? zlen l) with false by lia. reflexivity.
Qed.

Lemma range_get l : bv_size (bv_range l) = zlen l /\
  forall i b, nth_error l i = Some b -> bv_get (bv_range l) (Z.of_nat i) = Ok b.
Proof. rewrite bv_range_ok. split; [reflexivity|]. intros; apply bv_get_nth; auto. Qed.

Lemma get_bits_loose f l pos len : 0 <= pos -> 0 <= len <= 64 -> pos + len <= zlen l ->
  get_bits (loose_shift f) (canonical l) pos len = Ok (value (window l (Z.to_nat pos) (Z.to_nat len))).
Proof. intros. apply get_bits_ok; auto. intros. eexists. reflexivity. Qed.

Lemma get_bits_strict l pos len : 0 <= pos -> 0 <= len < 64 -> pos + len <= zlen l ->
  get_bits strict_shift (canonical l) pos len = Ok (value (window l (Z.to_nat pos) (Z.to_nat len))).
Proof. intros. apply get_bits_ok; auto; lia. Qed.

Lemma get_word56_low l pos : 0 <= pos -> pos / 8 + 8 <= 8 * zlen (pack l) ->
  exists r, get_word56 (canonical l) pos = Ok r /\
    r mod 2 ^ 56 = value (window l (Z.to_nat pos) 56).
Proof.
  intros Hp H. destruct (get_word56_ok l pos Hp H) as (r & E & B). exists r. split; auto.
  assert (0 <= pos mod 8 < 8) by (apply Z.mod_pos_bound; lia).
  apply Z.bits_inj'. intros i Hi. rewrite testbit_value_z by auto. rewrite zbit_window by auto.
  destruct (Z.ltb_spec i (Z.of_nat 56)).
  - rewrite Z.mod_pow2_bits_low by lia. rewrite B by lia. rewrite Z2Nat.id by lia. reflexivity.
  - rewrite Z.mod_pow2_bits_high by lia. reflexivity.
Qed.

Lemma predecessor_nth neg l pos q : 0 <= q <= pos -> pos < zlen l ->
  nth_error l (Z.to_nat q) = Some (negb neg) ->
  (forall p, q < p <= pos -> nth_error l (Z.to_nat p) = Some neg) ->
  predecessor_gen neg (canonical l) pos = Ok q.
Proof.
  intros Hq Hp E N. apply predecessor_ok; try lia.
  - eapply zbit_of_nth_error; eauto; lia.
  - intros p Hpp. eapply zbit_of_nth_error; [lia|]. apply N. auto.
Qed.
Lemma successor_nth neg l pos q : 0 <= pos <= q ->
  nth_error l (Z.to_nat q) = Some (negb neg) ->
  (forall p, pos <= p < q -> nth_error l (Z.to_nat p) = Some neg) ->
  successor_gen neg (canonical l) pos = Ok q.
Proof.
  intros Hq E N. destruct (zbit_of_nth_error l q _ ltac:(lia) E) as [E1 E2].
  apply successor_ok; try lia; auto.
  intros p Hpp. eapply zbit_of_nth_error; [lia|]. apply N. auto.
Qed.

Lemma builder_bits gr os : legal_run seqs0 os ->
  exists st, run gr builders0 os = Ok st /\ forall i, exists bv,
    bv_of_builder (st i) = Ok bv /\ bv_size bv = zlen (spec_run seqs0 os i) /\
    forall j b, nth_error (spec_run seqs0 os i) j = Some b -> bv_get bv (Z.of_nat j) = Ok b.
Proof.
  intros H. destruct (builder_history gr os H) as (st & E & B). exists st. split; auto.
  intros i. eexists. split; [apply B|]. split; [reflexivity|]. intros. apply bv_get_nth; auto.
Qed.

Lemma dangling gr : exists n,
  run gr builders0 [PushBack 0 true; Reserve 0 n; PushBack 0 true] = Ub Dangling.
Proof.
  exists (64 * (Z.max 1 (gr 0 1) + 1)).
  set (m := Z.max 1 (gr 0 1)).
  cbn [run step].
  change (push_back gr (builders0 0%nat) true) with (Ok (mk_builder [1] 1 m 1 (Some (1, 0)))).
  cbn [bind]. change (put builders0 0 _ 0%nat) with (mk_builder [1] 1 m 1 (Some (1, 0))).
  assert (E : reserve gr (mk_builder [1] 1 m 1 (Some (1, 0))) (64 * (m + 1)) =
    mk_builder [1] 1 (Z.max (words_for (64 * (m + 1))) (gr m (words_for (64 * (m + 1))))) 2 (Some (1, 0))).
  { unfold reserve, v_need. cbn [b_cap b_bits b_size b_gen b_cur].
    replace (words_for (64 * (m + 1)) <=? m) with false; [reflexivity|].
    unfold words_for, ceil_div. clearbody m. symmetry. dlia. }
  rewrite E. reflexivity.
Qed.

Lemma predecessor_both : forall neg l pos q, 0 <= q <= pos -> pos < zlen l ->
  nth_error l (Z.to_nat q) = Some (negb neg) ->
  (forall p, q < p <= pos -> nth_error l (Z.to_nat p) = Some neg) ->
  (if neg then predecessor0 else predecessor1) (canonical l) pos = Ok q.
Proof. intros [] *; rewrite ?predecessor0_eq, ?predecessor1_eq; apply predecessor_nth. Qed.
Lemma successor_both : forall neg l pos q, 0 <= pos <= q ->
  nth_error l (Z.to_nat q) = Some (negb neg) ->
  (forall p, pos <= p < q -> nth_error l (Z.to_nat p) = Some neg) ->
  (if neg then successor0 else successor1) (canonical l) pos = Ok q.
Proof. intros [] *; rewrite ?successor0_eq, ?successor1_eq; apply successor_nth. Qed.
