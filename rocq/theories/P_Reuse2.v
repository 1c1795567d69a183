(** What the calls on a builder do once a vector was built from it. *)
From Verif Require Import Base Spec Lib M_Broadword M_BitVector S_BitVector M_Reuse S_Reuse P_BvLib P_Builder P_BitVector P_BvProps P_Reuse.

Lemma history_inv gr os st i : legal_run seqs0 os -> run gr builders0 os = Ok st -> binv (st i) (spec_run seqs0 os i).
Proof. intros HL E. destruct (run_ok gr os builders0 seqs0 sinv0 HL) as (st' & E' & I). rewrite E in E'. injection E' as ->. apply I. Qed.

Lemma get_longer n ws j : 0 <= j < n -> forall n', j < n' -> bv_get (mk_bv n ws) j = bv_get (mk_bv n' ws) j.
Proof. intros Hj n' H. unfold bv_get. cbn [bv_size bv_words]. replace (j <? n) with true by lia. replace (j <? n') with true by lia. reflexivity. Qed.

Lemma rinv_vector l h m s : rinv l h m s -> ru_v s = mk_bv (zlen l) (pack (l ++ m)) /\ zlen (pack (l ++ m)) = zlen (pack l).
Proof.
  intros (H1 & H2 & H3 & _). rewrite (words_ok_eq _ _ H2) in H3. split; [|exact H3]. destruct (ru_v s) as [n ws]. cbn in *. rewrite H1, (words_ok_eq _ _ H2). reflexivity.
Qed.

Lemma reuse_visible gr os st i s ros s' : legal_run seqs0 os -> run gr builders0 os = Ok st -> build_from (st i) = Ok s ->
  ru_legal (zlen (spec_run seqs0 os i)) ros -> ru_run gr s ros = Ok s' -> exists m,
  ru_v s' = mk_bv (zlen (spec_run seqs0 os i)) (pack (spec_run seqs0 os i ++ m)) /\
  zlen (pack (spec_run seqs0 os i ++ m)) = zlen (pack (spec_run seqs0 os i)) /\
  forall j b, nth_error (spec_run seqs0 os i) j = Some b -> bv_get (ru_v s') (Z.of_nat j) = Ok b.
Proof.
  intros HL E Hb Hr G. pose proof (history_inv gr os st i HL E) as B. set (l := spec_run seqs0 os i) in *. rewrite (build_from_ok _ _ B) in Hb. injection Hb as <-.
  assert (V : exists m, ru_v s' = mk_bv (zlen l) (pack (l ++ m)) /\ zlen (pack (l ++ m)) = zlen (pack l)).
  { destruct (Z.eqb_spec (zlen l) 0) as [E0|E0].
    - apply ru_run_none in G; [|reflexivity]. exists []. rewrite app_nil_r. split; [exact G|reflexivity].
    - assert (Hl : l <> []) by (intros ->; apply E0; reflexivity).
      destruct (ru_run_inv l (b_gen (st i)) gr Hl ros [] _ _ (built_inv _ _ B Hl) Hr G) as (m & I). exists m. apply (rinv_vector _ _ _ _ I). }
  destruct V as (m & V1 & V2). exists m. split; [exact V1|]. split; [exact V2|]. intros j b Hj. rewrite V1.
  assert (Hj2 : (j < length l)%nat) by (apply nth_error_Some; congruence).
  rewrite (get_longer (zlen l) (pack (l ++ m)) (Z.of_nat j) ltac:(unfold zlen; lia) (zlen (l ++ m))) by (rewrite zlen_app; pose proof (zlen_nonneg m); unfold zlen in *; lia).
  apply (bv_get_nth (l ++ m)). rewrite nth_error_app1 by exact Hj2. exact Hj.
Qed.

(** pushes that stay in the last word of the vector *)
Lemma pushes_vec l h gr : zlen l mod 64 <> 0 -> forall xs ys s i, rinv l h ys s -> b_cur (ru_b s) = Some (h, i) -> b_size (ru_b s) = zlen (l ++ ys) ->
  zlen l mod 64 + zlen ys + zlen xs <= 64 -> exists s', ru_run gr s (map RPushBack xs) = Ok s' /\ rinv l h (ys ++ xs) s' /\ b_size (ru_b s') = zlen (l ++ ys ++ xs).
Proof.
  intros Hm. induction xs as [|x xs IH]; intros ys s i I Hc Hs Hf; cbn [map ru_run].
  - exists s. rewrite app_nil_r. auto.
  - rewrite zlen_cons in Hf. pose proof (zlen_nonneg xs) as Nx. pose proof (zlen_nonneg ys) as Ny. cbn [ru_step].
    assert (Hl : l <> []) by (intros ->; apply Hm; reflexivity).
    assert (E : b_size (ru_b s) mod 64 = zlen l mod 64 + zlen ys).
    { rewrite Hs, zlen_app. clear - Hm Hf Nx Ny. dlia. }
    assert (E0 : b_size (ru_b s) mod 64 <> 0) by (clear - E Hm Ny; dlia).
    destruct (ru_or_vec _ _ _ _ i (Z.b2z x) 1 I Hc E0 ltac:(lia) ltac:(destruct x; simpl; lia)) as (ws & m' & G & W1 & W2 & W3).
    replace (1 <=? 64 - b_size (ru_b s) mod 64) with true in W3 by lia. change (Z.to_nat 1) with 1%nat in W3. rewrite bits_of_1 in W3. subst m'.
    assert (P : ru_push gr s x = Ok (mk_reuse (with_size (ru_b s) (b_size (ru_b s) + 1)) (mk_bv (zlen l) ws) (Some h))).
    { unfold ru_push. pose proof (Z.mod_pos_bound (b_size (ru_b s)) 64 ltac:(lia)). rewrite shl_ok by lia. replace (b_size (ru_b s) mod 64 =? 0) with false by lia.
      cbn [bind]. rewrite G. reflexivity. }
    rewrite P. cbn [bind]. destruct I as (H1 & H2 & H3 & H4 & H5 & H6 & H7). destruct (H7 i Hc) as (A & B). destruct (B E0) as (Ei & Es).
    assert (I2 : rinv l h (ys ++ [x]) (mk_reuse (with_size (ru_b s) (b_size (ru_b s) + 1)) (mk_bv (zlen l) ws) (Some h))).
    { unfold rinv. cbn [with_size ru_v ru_b ru_buf bv_size bv_words b_size b_gen b_cur b_bits].
      split; [reflexivity|]. split; [exact W1|]. split; [exact W2|]. split; [reflexivity|]. split; [exact H5|]. split; [lia|].
      intros j Hj. rewrite Hc in Hj. injection Hj as <-. split; [exact A|]. intros _. split; [lia|]. rewrite app_assoc, zlen_app, Hs. reflexivity. }
    destruct (IH (ys ++ [x]) _ i I2) as (s' & R & I' & S'); [exact Hc|cbn [with_size ru_b b_size]; rewrite app_assoc, zlen_app, Hs; reflexivity|
      rewrite zlen_app, zlen_cons; change (zlen (@nil bool)) with 0; lia|].
    exists s'. rewrite <- app_assoc in I', S'. auto.
Qed.

Lemma reuse_push gr os st i : legal_run seqs0 os -> run gr builders0 os = Ok st -> zlen (spec_run seqs0 os i) mod 64 <> 0 ->
  exists s, build_from (st i) = Ok s /\ ru_v s = canonical (spec_run seqs0 os i) /\
  forall xs, zlen (spec_run seqs0 os i) mod 64 + zlen xs <= 64 -> exists s', ru_run gr s (map RPushBack xs) = Ok s' /\
    ru_v s' = mk_bv (zlen (spec_run seqs0 os i)) (pack (spec_run seqs0 os i ++ xs)) /\
    (In true xs -> ru_v s' <> canonical (spec_run seqs0 os i) /\
       exists w w', get_word (ru_v s) (64 * (zlen (spec_run seqs0 os i) / 64)) = Ok w /\
         get_word (ru_v s') (64 * (zlen (spec_run seqs0 os i) / 64)) = Ok w' /\ w <> w').
Proof.
  intros HL E Hm. pose proof (history_inv gr os st i HL E) as B. set (l := spec_run seqs0 os i) in *.
  assert (Hl : l <> []) by (intros E0; rewrite E0 in Hm; apply Hm; reflexivity).
  assert (E0 : zlen l <> 0) by (intros E0; rewrite E0 in Hm; apply Hm; reflexivity).
  rewrite (build_from_ok _ _ B). replace (zlen l =? 0) with false by lia.
  eexists. split; [reflexivity|]. split; [reflexivity|]. intros xs Hx. pose proof B as (_ & _ & _ & B4).
  destruct (pushes_vec l (b_gen (st i)) gr Hm xs [] _ _ (built_inv _ _ B Hl) (B4 Hm)) as (s' & R & I & _).
  { rewrite app_nil_r. reflexivity. }
  { change (zlen (@nil bool)) with 0. lia. }
  exists s'. split; [exact R|]. destruct (rinv_vector _ _ _ _ I) as (V1 & V2). cbn [app] in V1, V2. split; [exact V1|]. intros Ht. rewrite V1.
  destruct (In_nth_error xs true Ht) as (k & Hk). assert (Kx : (k < length xs)%nat) by (apply nth_error_Some; congruence).
  assert (Kz : Z.of_nat k < zlen xs) by (unfold zlen; lia).
  assert (Ql : zlen (pack l) = zlen l / 64 + 1) by (rewrite zlen_pack; clear - Hm; dlia).
  pose proof (zlen_nonneg l) as Nl.
  assert (D : W (pack (l ++ xs)) (zlen l / 64) <> W (pack l) (zlen l / 64)).
  { intros D. destruct (words_ok_pack l) as (_ & _ & P1). destruct (words_ok_pack (l ++ xs)) as (_ & _ & P2).
    specialize (P1 (zlen l / 64) (zlen l mod 64 + Z.of_nat k)). specialize (P2 (zlen l / 64) (zlen l mod 64 + Z.of_nat k)).
    rewrite D in P2. assert (0 <= zlen l / 64) by (apply Z.div_pos; lia). pose proof (Z.mod_pos_bound (zlen l) 64 ltac:(lia)).
    rewrite P1 in P2 by lia. specialize (P2 ltac:(lia) ltac:(lia)).
    replace (64 * (zlen l / 64) + (zlen l mod 64 + Z.of_nat k)) with (zlen l + Z.of_nat k) in P2 by dlia.
    rewrite zbit_out in P2 by lia. rewrite zbit_app in P2. replace (zlen l + Z.of_nat k <? zlen l) with false in P2 by lia.
    replace (zlen l + Z.of_nat k - zlen l) with (Z.of_nat k) in P2 by lia.
    destruct (zbit_of_nth_error xs (Z.of_nat k) true) as [_ Z1]; [lia|rewrite Nat2Z.id; exact Hk|]. rewrite Z1 in P2. discriminate. }
  split.
  - intros Eq. injection Eq as Eq. apply D. rewrite Eq. reflexivity.
  - cbn [ru_v]. unfold get_word, canonical. cbn [bv_size bv_words].
    replace (64 * (zlen l / 64) <? zlen l) with true by (clear - Hm Nl; dlia).
    replace (64 * (zlen l / 64) / 64) with (zlen l / 64) by (clear; dlia). replace (64 * (zlen l / 64) mod 64) with 0 by (clear; dlia).
    rewrite !assert_true by reflexivity. rewrite (W_rd (pack l)), (W_rd (pack (l ++ xs))) by (clear - Ql V2 Nl; dlia). cbn [bind]. rewrite !shr_ok by lia. cbn [bind Z.eqb negb andb]. rewrite !Z.shiftr_0_r.
    eexists _, _. split; [reflexivity|]. split; [reflexivity|]. intros Q. apply D. symmetry. exact Q.
Qed.

(** the number of words stays behind the size by those the vector took *)
Definition behind (l : list bool) (h : Z) (s : reuse) : Prop :=
  ru_buf s = Some h /\ h < b_gen (ru_b s) /\ 0 <= b_size (ru_b s) /\ words_for (b_size (ru_b s)) = words_for (zlen l) + zlen (b_bits (ru_b s)) /\
  (b_size (ru_b s) mod 64 <> 0 ->
     b_cur (ru_b s) = Some (h, zlen (bv_words (ru_v s)) - 1) /\ 0 < zlen (bv_words (ru_v s)) \/
     b_cur (ru_b s) = Some (b_gen (ru_b s), zlen (b_bits (ru_b s)) - 1) /\ 0 < zlen (b_bits (ru_b s))).
Lemma behind_push l h gr s x : behind l h s -> exists s', ru_push gr s x = Ok s' /\ behind l h s'.
Proof.
  intros (H1 & H2 & H0 & H3 & H4). unfold ru_push. pose proof (Z.mod_pos_bound (b_size (ru_b s)) 64 ltac:(lia)) as Rm. rewrite shl_ok by lia. cbn [bind].
  destruct (Z.eqb_spec (b_size (ru_b s) mod 64) 0) as [E|E].
  - set (b := set_cur_back (v_push gr (ru_b s) 0)). pose proof (v_push_gen gr (ru_b s) 0) as Q.
    assert (Lb : zlen (b_bits b) = zlen (b_bits (ru_b s)) + 1).
    { unfold b. cbn [set_cur_back b_bits]. rewrite v_push_bits, zlen_app, zlen_cons. change (zlen (@nil Z)) with 0. lia. }
    assert (Eb : b_cur b = Some (b_gen b, zlen (b_bits b) - 1)) by reflexivity. assert (Sb : b_size b = b_size (ru_b s)) by (unfold b; cbn [set_cur_back b_size]; apply v_push_size).
    assert (Gb : h < b_gen b) by (unfold b; cbn [set_cur_back b_gen]; lia). clearbody b. pose proof (zlen_nonneg (b_bits (ru_b s))).
    unfold ru_or. cbn [with_b ru_b ru_v ru_buf]. rewrite Eb, H1. replace (b_gen b =? h) with false by lia. rewrite cur_or_ok by (auto; lia). cbn [bind].
    eexists. split; [reflexivity|]. unfold behind. cbn [with_b with_size with_bits ru_b ru_v ru_buf b_size b_gen b_bits b_cur]. rewrite zlen_upd.
    split; [reflexivity|]. split; [exact Gb|]. split; [lia|]. split; [|intros _; right; rewrite Eb; split; [reflexivity|lia]].
    rewrite Sb, Lb. clear - H3 E H0. unfold words_for, ceil_div in *. dlia.
  - destruct (H4 E) as [[Hc P]|[Hc P]].
    + unfold ru_or. rewrite Hc, H1, Z.eqb_refl, mod_word_ok by lia. cbn [bind]. eexists. split; [reflexivity|].
      unfold behind. cbn [with_b with_size ru_b ru_v ru_buf b_size b_gen b_bits b_cur bv_words]. rewrite zlen_upd.
      split; [reflexivity|]. split; [exact H2|]. split; [lia|]. split; [clear - H3 E H0; unfold words_for, ceil_div in *; dlia|]. intros _. left. auto.
    + unfold ru_or. rewrite Hc, H1. replace (b_gen (ru_b s) =? h) with false by lia. rewrite cur_or_ok by auto. cbn [bind]. eexists. split; [reflexivity|].
      unfold behind. cbn [with_b with_size with_bits ru_b ru_v ru_buf b_size b_gen b_bits b_cur bv_words]. rewrite zlen_upd.
      split; [reflexivity|]. split; [exact H2|]. split; [lia|]. split; [clear - H3 E H0; unfold words_for, ceil_div in *; dlia|]. intros _. right. auto.
Qed.
Lemma behind_pushes l h gr xs : forall s, behind l h s -> exists s', ru_run gr s (map RPushBack xs) = Ok s' /\ behind l h s'.
Proof.
  induction xs as [|x xs IH]; intros s H; cbn [map ru_run ru_step]; [eauto|]. destruct (behind_push l h gr s x H) as (t & E & H'). rewrite E. cbn [bind]. apply IH, H'.
Qed.

Lemma nonempty_zlen (l : list bool) : l <> [] -> 0 < zlen l.
Proof. destruct l; [congruence|]. intros _. rewrite zlen_cons. pose proof (zlen_nonneg l). lia. Qed.

Lemma reuse_again gr os st i : legal_run seqs0 os -> run gr builders0 os = Ok st -> spec_run seqs0 os i <> [] ->
  exists s, build_from (st i) = Ok s /\ b_size (ru_b s) = zlen (spec_run seqs0 os i) /\
  forall xs, exists s', ru_run gr s (map RPushBack xs) = Ok s' /\ build_from (ru_b s') = Ub AssertFailed.
Proof.
  intros HL E Hl. pose proof (history_inv gr os st i HL E) as B. set (l := spec_run seqs0 os i) in *. pose proof (nonempty_zlen l Hl) as Pl.
  rewrite (build_from_ok _ _ B). replace (zlen l =? 0) with false by lia. eexists. split; [reflexivity|]. split; [reflexivity|]. intros xs.
  destruct (behind_pushes l (b_gen (st i)) gr xs (mk_reuse (mk_builder [] (zlen l) 0 (b_gen (st i) + 1) (b_cur (st i))) (canonical l) (Some (b_gen (st i))))) as (s' & R & H).
  { unfold behind. cbn [ru_b ru_v ru_buf b_size b_gen b_bits b_cur canonical bv_words]. change (zlen (@nil Z)) with 0.
    split; [reflexivity|]. split; [lia|]. split; [lia|]. split; [lia|]. intros Hm. left. destruct B as (_ & B2 & _ & B4). rewrite (B4 Hm), (words_ok_eq _ _ B2).
    split; [reflexivity|]. rewrite zlen_pack. clear - Pl. dlia. }
  exists s'. split; [exact R|]. destruct H as (_ & _ & H0 & H3 & _). unfold build_from, bv_of_builder. replace (words_for (b_size (ru_b s')) =? zlen (b_bits (ru_b s'))) with false; [reflexivity|].
  symmetry. apply Z.eqb_neq. rewrite H3. unfold words_for, ceil_div. clear - Pl. dlia.
Qed.

Lemma reuse_zero_extend gr os st i n : legal_run seqs0 os -> run gr builders0 os = Ok st -> spec_run seqs0 os i <> [] ->
  0 <= n -> zlen (spec_run seqs0 os i) + n + 63 < 2 ^ 64 -> exists s s',
  build_from (st i) = Ok s /\ ru_run gr s [RZeroExtend n] = Ok s' /\ ru_v s' = canonical (spec_run seqs0 os i) /\
  bv_of_builder (ru_b s') = Ok (canonical (repeat false (length (spec_run seqs0 os i) + Z.to_nat n))).
Proof.
  intros HL E Hl Hn Hf. pose proof (history_inv gr os st i HL E) as B. set (l := spec_run seqs0 os i) in *. pose proof (nonempty_zlen l Hl) as Pl.
  rewrite (build_from_ok _ _ B). replace (zlen l =? 0) with false by lia.
  set (b0 := mk_builder [] 0 0 (b_gen (st i) + 1) (b_cur (st i))).
  assert (B0 : binv b0 []).
  { split; [reflexivity|]. split; [apply words_ok_nil|]. split; [cbn; unfold zlen; simpl; lia|]. intros C. exfalso. apply C. reflexivity. }
  destruct (zero_extend_ok gr b0 [] (zlen l + n) B0 ltac:(lia) ltac:(unfold fits; change (zlen (@nil bool)) with 0; lia)) as (b' & Z1 & Z2).
  assert (Z0 : zero_extend gr (mk_builder [] (zlen l) 0 (b_gen (st i) + 1) (b_cur (st i))) n = Ok b') by (rewrite <- Z1; reflexivity).
  eexists _, _. split; [reflexivity|]. cbn [ru_run ru_step ru_b]. rewrite Z0. cbn [bind]. split; [reflexivity|]. cbn [with_b ru_v ru_b]. split; [reflexivity|].
  rewrite (binv_bv _ _ Z2). cbn [app]. do 3 f_equal. unfold zlen. lia.
Qed.

Lemma reuse_outside gr os st i : legal_run seqs0 os -> run gr builders0 os = Ok st -> spec_run seqs0 os i <> [] ->
  exists s, build_from (st i) = Ok s /\
  (forall pos x, 0 <= pos < zlen (spec_run seqs0 os i) -> ru_run gr s [RSetBit pos x] = Ub OutOfBounds) /\
  (zlen (spec_run seqs0 os i) mod 64 <> 0 ->
     (forall bits len, 0 < len <= 64 - zlen (spec_run seqs0 os i) mod 64 -> 0 <= bits < 2 ^ len -> ru_run gr s [RAppendBits bits len] = Ub OutOfBounds) /\
     (forall j, j <> i -> spec_run seqs0 os j <> [] -> ru_run gr s [RAppend (st j)] = Ub OutOfBounds)).
Proof.
  intros HL E Hl. pose proof (history_inv gr os st i HL E) as B. set (l := spec_run seqs0 os i) in *. pose proof (nonempty_zlen l Hl) as Pl.
  rewrite (build_from_ok _ _ B). replace (zlen l =? 0) with false by lia. eexists. split; [reflexivity|]. split; [|intros Hm; split].
  - intros pos x Hp. cbn [ru_run ru_step ru_b]. unfold bset. pose proof (Z.mod_pos_bound pos 64 ltac:(lia)). rewrite shl_ok by lia. cbn [bind b_bits]. unfold mod_word.
    rewrite rd_oob; [reflexivity|]. change (zlen (@nil Z)) with 0. lia.
  - intros bits len Hlen Hb. pose proof (Z.mod_pos_bound (zlen l) 64 ltac:(lia)) as Rm. cbn [ru_run ru_step]. unfold ru_append_bits. rewrite no_spurious_ok by lia. cbn [bind]. rewrite assert_true by reflexivity.
    replace (len =? 0) with false by lia. cbn [ru_b b_size]. replace (zlen l mod 64 =? 0) with false by lia. rewrite shl_ok by lia. cbn [bind].
    pose proof B as (_ & B2 & _ & B4). unfold ru_or. cbn [with_b ru_b ru_v ru_buf with_size b_cur]. rewrite (B4 Hm), Z.eqb_refl, mod_word_ok.
    2:{ rewrite (words_ok_eq _ _ B2). cbn [canonical bv_words]. pose proof (words_ok_pos _ _ (words_ok_pack l) Hm). lia. }
    cbn [bind ru_b]. replace (64 - zlen l mod 64 <? len) with false by lia. reflexivity.
  - intros j _ Hr. pose proof (history_inv gr os st j HL E) as (R1 & R2 & _). set (rhs := st j) in *. set (r := spec_run seqs0 os j) in *. pose proof (nonempty_zlen r Hr) as Pr. cbn [ru_run ru_step ru_b]. unfold append. rewrite R1. replace (zlen r =? 0) with false by lia.
    cbn [b_size]. replace (zlen l mod 64 =? 0) with false by lia. cbn [b_bits]. change (zlen (@nil Z)) with 0.
    pose proof R2 as (_ & R3 & _). assert (P : 0 < zlen (b_bits rhs)) by (clear - R3 Pr; dlia). rewrite W_rd by lia. cbn [bind].
    pose proof (Z.mod_pos_bound (zlen l) 64 ltac:(lia)).
    destruct (removelast (b_bits rhs)) as [|w ws]; cbn [append_loop bind].
    + rewrite shl_ok by lia. cbn [bind]. unfold mod_word. rewrite rd_oob by lia. reflexivity.
    + rewrite shl_ok by lia. cbn [bind]. unfold mod_word. rewrite rd_oob by lia. reflexivity.
Qed.

Lemma reuse_empty gr os st i : legal_run seqs0 os -> run gr builders0 os = Ok st -> spec_run seqs0 os i = [] ->
  exists s, build_from (st i) = Ok s /\ ru_b s = st i /\ ru_v s = bv_empty.
Proof.
  intros HL E Hl. pose proof (history_inv gr os st i HL E) as B. rewrite (build_from_ok _ _ B), Hl. eexists. split; [reflexivity|]. split; reflexivity.
Qed.
