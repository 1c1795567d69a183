From Verif Require Import Base Spec Lib M_Broadword M_BitVector S_BitVector P_BvLib P_Builder P_BitVector.

Lemma run_app gr os1 : forall os2 st, run gr st (os1 ++ os2) = do st <- run gr st os1; run gr st os2.
Proof.
  induction os1 as [|o os1 IH]; intros os2 st; cbn [app run]; [reflexivity|]. destruct (step gr st o) as [st'|]; cbn [bind]; [apply IH|reflexivity].
Qed.

(** a reserve that reallocates leaves the pointer to the old buffer *)
Lemma reserve_moves gr b n : b_cap b < words_for n -> b_gen (reserve gr b n) = b_gen b + 1 /\ b_cur (reserve gr b n) = b_cur b /\
  b_size (reserve gr b n) = b_size b.
Proof. intros H. unfold reserve, v_need. replace (words_for n <=? b_cap b) with false by lia. auto. Qed.
Lemma cur_or_gone b g i x : b_cur b = Some (g, i) -> b_gen b <> g -> cur_or b x = Ub Dangling.
Proof. intros E N. unfold cur_or. rewrite E. replace (g =? b_gen b) with false by lia. reflexivity. Qed.

Lemma push_dangles gr b l n x : binv b l -> zlen l mod 64 <> 0 -> b_cap b < words_for n ->
  push_back gr (reserve gr b n) x = Ub Dangling.
Proof.
  intros (H1 & _ & _ & H3) Hm Hc. specialize (H3 Hm). destruct (reserve_moves gr b n Hc) as (E1 & E2 & E3).
  unfold push_back. rewrite E3, H1. replace (zlen l mod 64 =? 0) with false by lia.
  unfold shl. pose proof (Z.mod_pos_bound (zlen l) 64 ltac:(lia)). replace ((0 <=? zlen l mod 64) && (zlen l mod 64 <? 64)) with true by lia. cbn [bind].
  rewrite (cur_or_gone _ (b_gen b) (zlen (b_bits b) - 1)); [reflexivity|congruence|lia].
Qed.
Lemma append_dangles gr b l n bits len : binv b l -> zlen l mod 64 <> 0 -> b_cap b < words_for n -> 0 < len <= 64 -> 0 <= bits < 2 ^ len ->
  append_bits gr (reserve gr b n) bits len = Ub Dangling.
Proof.
  intros (H1 & _ & _ & H3) Hm Hc Hl Hb. specialize (H3 Hm). destruct (reserve_moves gr b n Hc) as (E1 & E2 & E3).
  unfold append_bits. rewrite no_spurious_ok by lia. cbn [bind]. rewrite assert_true by reflexivity. replace (len =? 0) with false by lia.
  rewrite E3, H1. replace (zlen l mod 64 =? 0) with false by lia.
  unfold shl. pose proof (Z.mod_pos_bound (zlen l) 64 ltac:(lia)). replace ((0 <=? zlen l mod 64) && (zlen l mod 64 <? 64)) with true by lia. cbn [bind].
  rewrite (cur_or_gone _ (b_gen b) (zlen (b_bits b) - 1)); [reflexivity|exact (eq_trans E2 H3)|]. cbn [with_size b_gen]. lia.
Qed.
Lemma words_for_le n c : words_for n <= c <-> n <= 64 * c.
Proof. unfold words_for, ceil_div. split; intros; dlia. Qed.

Lemma reserve_threshold gr os i : legal_run seqs0 os -> zlen (spec_run seqs0 os i) mod 64 <> 0 -> exists cap,
  zlen (spec_run seqs0 os i) <= cap /\
  (forall n, n <= cap -> forall os', legal_run (spec_run seqs0 os) os' -> exists st, run gr builders0 (os ++ Reserve i n :: os') = Ok st /\
     forall j, bv_of_builder (st j) = Ok (canonical (spec_run (spec_run seqs0 os) os' j))) /\
  (forall n, cap < n ->
     (forall x, run gr builders0 (os ++ [Reserve i n; PushBack i x]) = Ub Dangling) /\
     (forall bits len, 0 < len <= 64 -> 0 <= bits < 2 ^ len -> run gr builders0 (os ++ [Reserve i n; AppendBits i bits len]) = Ub Dangling)).
Proof.
  intros HL Hm. destruct (run_ok gr os builders0 seqs0 sinv0 HL) as (st & E & I). pose proof (I i) as B.
  exists (64 * b_cap (st i)). split; [|split].
  - destruct B as (B1 & (_ & B2 & _) & B3 & _). clear - B2 B3. dlia.
  - intros n Hn os' HL'. rewrite run_app, E. cbn [bind run step].
    assert (E2 : reserve gr (st i) n = st i).
    { unfold reserve, v_need. replace (words_for n <=? b_cap (st i)) with true; [reflexivity|]. symmetry. apply Z.leb_le, words_for_le. lia. }
    rewrite E2. destruct (run_ok gr os' (put st i (st i)) (spec_run seqs0 os)) as (st' & E' & I'); [|exact HL'|].
    + intros j. unfold put. destruct (Nat.eqb_spec j i) as [->|]; apply I.
    + exists st'. split; [exact E'|]. intros j. apply binv_bv, I'.
  - intros n Hn. assert (Hc : b_cap (st i) < words_for n) by (apply Z.nle_gt; rewrite words_for_le; lia). split.
    + intros x. rewrite run_app, E. cbn [bind run step]. change (put st i (reserve gr (st i) n) i) with (if Nat.eqb i i then reserve gr (st i) n else st i).
      rewrite Nat.eqb_refl, (push_dangles gr _ _ n x B Hm Hc). reflexivity.
    + intros bits len Hl Hb. rewrite run_app, E. cbn [bind run step]. change (put st i (reserve gr (st i) n) i) with (if Nat.eqb i i then reserve gr (st i) n else st i).
      rewrite Nat.eqb_refl, (append_dangles gr _ _ n bits len B Hm Hc Hl Hb). reflexivity.
Qed.
