(** Proofs for C94 *)
From Verif Require Import Base Spec Lib M_Broadword P_Broadword P_Broadword2 P_BvLib P_Builder P_BitVector M_BitVector S_BitVector P_BvRank P_BvEnum M_BvSteps S_BvSteps.

(** ** results of the word functions lie in the word *)
Lemma mapping_range i r : rd debruijn64_mapping i = Ok r -> 0 <= r < 64.
Proof.
  intros H. assert (F : Forall (fun x => 0 <= x < 64) debruijn64_mapping).
  { apply Forall_forall. intros x Hx. assert (B : forallb (fun x => (0 <=? x) && (x <? 64)) debruijn64_mapping = true) by reflexivity.
    rewrite forallb_forall in B. specialize (B x Hx). lia. }
  rewrite Forall_forall in F. apply F. unfold rd in H. destruct (_ && _); [|discriminate]. destruct (nth_error debruijn64_mapping (Z.to_nat i)) eqn:E; [|discriminate].
  injection H as <-. eapply nth_error_In; eauto.
Qed.
Lemma bit_position_range x r : bit_position x = Ok r -> 0 <= r < 64.
Proof. unfold bit_position, assert_. destruct (_ =? 1); [|discriminate]. apply mapping_range. Qed.
Lemma msb_opt_range x r : msb_opt x = Ok (Some r) -> 0 <= r < 64.
Proof.
  unfold msb_opt. destruct (x =? 0); [discriminate|]. intros H. apply bind_inv in H. destruct H as (y & E & H). injection H as <-. eapply bit_position_range; eauto.
Qed.
Lemma lsb_opt_range x r : lsb_opt x = Ok (Some r) -> 0 <= r < 64.
Proof.
  unfold lsb_opt. destruct (x =? 0); [discriminate|]. intros H. apply bind_inv in H. destruct H as (y & E & H). injection H as <-. eapply bit_position_range; eauto.
Qed.
Lemma block_div b r : 0 <= r < 64 -> (b * 64 + r) / 64 = b.
Proof. intros H. rewrite Z.div_add_l by lia. rewrite Z.div_small by lia. lia. Qed.
Lemma align_div p r : 0 <= r < 64 -> (align64 p + r) / 64 = p / 64.
Proof. intros H. unfold align64. rewrite (Z.mul_comm 64). apply block_div. auto. Qed.
Lemma next_word p : (p + 64) / 64 = p / 64 + 1.
Proof. replace (p + 64) with (p + 1 * 64) by lia. apply Z.div_add. lia. Qed.

(** ** predecessor and successor *)
Lemma pred0_same : forall fuel ws block word c,
  (do (q, _) <- predecessor_loop_c true fuel ws block word c; Ok q) = predecessor0_loop fuel ws block word.
Proof.
  induction fuel as [|fuel IH]; intros ws block word c; cbn [predecessor_loop_c predecessor0_loop]; destruct (msb_opt word) as [[ret|]|]; cbn [bind]; auto.
  unfold assert_. destruct (negb (block =? 0)); [|reflexivity]. destruct (rd ws (block - 1)); cbn [bind]; auto.
Qed.
Lemma pred1_same : forall fuel ws block word c,
  (do (q, _) <- predecessor_loop_c false fuel ws block word c; Ok q) = predecessor1_loop fuel ws block word.
Proof.
  induction fuel as [|fuel IH]; intros ws block word c; cbn [predecessor_loop_c predecessor1_loop]; destruct (msb_opt word) as [[ret|]|]; cbn [bind]; auto.
  unfold assert_. destruct (negb (block =? 0)); [|reflexivity]. destruct (rd ws (block - 1)); cbn [bind]; auto.
Qed.
Lemma succ0_same : forall fuel ws block word c,
  (do (q, _) <- successor_loop_c true fuel ws block word c; Ok q) = successor0_loop fuel ws block word.
Proof.
  induction fuel as [|fuel IH]; intros ws block word c; cbn [successor_loop_c successor0_loop]; destruct (lsb_opt word) as [[ret|]|]; cbn [bind]; auto.
  unfold assert_. destruct (block + 1 <? zlen ws); [|reflexivity]. destruct (rd ws (block + 1)); cbn [bind]; auto.
Qed.
Lemma succ1_same : forall fuel ws block word c,
  (do (q, _) <- successor_loop_c false fuel ws block word c; Ok q) = successor1_loop fuel ws block word.
Proof.
  induction fuel as [|fuel IH]; intros ws block word c; cbn [successor_loop_c successor1_loop]; destruct (lsb_opt word) as [[ret|]|]; cbn [bind]; auto.
  unfold assert_. destruct (block + 1 <? zlen ws); [|reflexivity]. destruct (rd ws (block + 1)); cbn [bind]; auto.
Qed.
Lemma pred_count neg : forall fuel ws block word c q r, predecessor_loop_c neg fuel ws block word c = Ok (q, r) -> r = c + (block - q / 64).
Proof.
  induction fuel as [|fuel IH]; intros ws block word c q r H; cbn [predecessor_loop_c] in H; apply bind_inv in H; destruct H as ([ret|] & E & H).
  1,3: injection H as <- <-; apply msb_opt_range in E; rewrite block_div by auto; lia.
  - discriminate.
  - unfold assert_ in H. destruct (negb (block =? 0)); [|discriminate]. apply bind_inv in H. destruct H as (w & _ & H). apply IH in H. lia.
Qed.
Lemma succ_count neg : forall fuel ws block word c q r, successor_loop_c neg fuel ws block word c = Ok (q, r) -> r = c + (q / 64 - block).
Proof.
  induction fuel as [|fuel IH]; intros ws block word c q r H; cbn [successor_loop_c] in H; apply bind_inv in H; destruct H as ([ret|] & E & H).
  1,3: injection H as <- <-; apply lsb_opt_range in E; rewrite block_div by auto; lia.
  - discriminate.
  - unfold assert_ in H. destruct (block + 1 <? zlen ws); [|discriminate]. apply bind_inv in H. destruct H as (w & _ & H). apply IH in H. lia.
Qed.
Lemma assert_inv A b (m : res A) x : assert_ b m = Ok x -> b = true /\ m = Ok x.
Proof. unfold assert_. destruct b; [auto|discriminate]. Qed.

Lemma scans bv pos :
  ((do (q, _) <- predecessor_c true bv pos; Ok q) = predecessor0 bv pos /\ (do (q, _) <- predecessor_c false bv pos; Ok q) = predecessor1 bv pos /\
   (do (q, _) <- successor_c true bv pos; Ok q) = successor0 bv pos /\ (do (q, _) <- successor_c false bv pos; Ok q) = successor1 bv pos) /\
  forall neg q c, (predecessor_c neg bv pos = Ok (q, c) -> c = pos / 64 - q / 64) /\ (successor_c neg bv pos = Ok (q, c) -> c = q / 64 - pos / 64).
Proof.
  split.
  - unfold predecessor_c, successor_c, predecessor0, predecessor1, successor0, successor1, assert_.
    destruct (pos <? bv_size bv); [|repeat split]. cbv zeta. destruct (rd (bv_words bv) (pos / 64)) as [w|]; cbn [bind]; [|repeat split].
    split; [|split; [|split]].
    + destruct (shl (not64 w) _) as [x|]; cbn [bind]; [|auto]. destruct (shr x _) as [y|]; cbn [bind]; [|auto]. apply pred0_same.
    + destruct (shl w _) as [x|]; cbn [bind]; [|auto]. destruct (shr x _) as [y|]; cbn [bind]; [|auto]. apply pred1_same.
    + destruct (shr (not64 w) _) as [x|]; cbn [bind]; [|auto]. destruct (shl x _) as [y|]; cbn [bind]; [|auto]. apply succ0_same.
    + destruct (shr w _) as [x|]; cbn [bind]; [|auto]. destruct (shl x _) as [y|]; cbn [bind]; [|auto]. apply succ1_same.
  - intros neg q c. split; intros H; apply assert_inv in H; destruct H as (_ & H); cbv zeta in H; apply bind_inv in H; destruct H as (w & _ & H);
      apply bind_inv in H; destruct H as (x & _ & H); apply bind_inv in H; destruct H as (y & _ & H).
    + apply pred_count in H. lia.
    + apply succ_count in H. lia.
Qed.

(** ** unary_enumerator *)
Lemma next_same : forall fuel ws pos buf c,
  (do (p, b, r, _) <- unary_next_loop_c fuel ws pos buf c; Ok (p, b, r)) = unary_next_loop fuel ws pos buf.
Proof.
  induction fuel as [|fuel IH]; intros ws pos buf c; cbn [unary_next_loop_c unary_next_loop]; destruct (lsb_opt buf) as [[ret|]|]; cbn [bind]; auto.
  destruct (rd ws ((pos + 64) / 64)); cbn [bind]; auto.
Qed.
Lemma next_count : forall fuel ws pos buf c p b r c', unary_next_loop_c fuel ws pos buf c = Ok (p, b, r, c') -> c' = c + (p / 64 - pos / 64) /\ 0 <= r < 64.
Proof.
  induction fuel as [|fuel IH]; intros ws pos buf c p b r c' H; cbn [unary_next_loop_c] in H; apply bind_inv in H; destruct H as ([ret|] & E & H).
  1,3: injection H as <- <- <- <-; apply lsb_opt_range in E; split; [lia|auto].
  - discriminate.
  - apply bind_inv in H. destruct H as (w & _ & H). apply IH in H. rewrite next_word in H. split; [lia|tauto].
Qed.
Lemma skip_same : forall fuel ws k s pos buf c,
  (do (x, p, b, _) <- skip_loop_c false fuel ws k s pos buf c; Ok (x, p, b)) = skip_loop fuel ws k s pos buf.
Proof.
  induction fuel as [|fuel IH]; intros ws k s pos buf c; cbn [skip_loop_c skip_loop]; destruct (s + popcount buf <=? k); cbn [bind]; auto.
  destruct (rd ws ((pos + 64) / 64)); cbn [bind]; auto.
Qed.
Lemma skip0_same : forall fuel ws k s pos buf c,
  (do (x, p, b, _) <- skip_loop_c true fuel ws k s pos buf c; Ok (x, p, b)) = skip0_loop fuel ws k s pos buf.
Proof.
  induction fuel as [|fuel IH]; intros ws k s pos buf c; cbn [skip_loop_c skip0_loop]; destruct (s + popcount buf <=? k); cbn [bind]; auto.
  destruct (rd ws ((pos + 64) / 64)); cbn [bind]; auto.
Qed.
Lemma rd_u64 ws i x : Forall is_u64 ws -> rd ws i = Ok x -> is_u64 x.
Proof.
  intros F H. unfold rd in H. destruct (_ && _); [|discriminate]. destruct (nth_error ws (Z.to_nat i)) eqn:E; [|discriminate]. injection H as <-.
  rewrite Forall_forall in F. apply F. eapply nth_error_In; eauto.
Qed.
Lemma skip_count neg : forall fuel ws k s pos buf c x p b c', Forall is_u64 ws -> is_u64 buf -> s <= k ->
  skip_loop_c neg fuel ws k s pos buf c = Ok (x, p, b, c') ->
  c' = c + (p / 64 - pos / 64) /\ is_u64 b /\ x <= k < x + popcount b.
Proof.
  induction fuel as [|fuel IH]; intros ws k s pos buf c x p b c' F B S H; cbn [skip_loop_c] in H; destruct (Z.leb_spec (s + popcount buf) k) as [C|C].
  - discriminate.
  - injection H as <- <- <- <-. split; [lia|]. split; [auto|lia].
  - apply bind_inv in H. destruct H as (w & R & H). apply rd_u64 in R; [|auto].
    apply IH in H; [|auto|destruct neg; [apply not64_is|auto]|lia]. rewrite next_word in H. split; [lia|]. split; tauto.
  - injection H as <- <- <- <-. split; [lia|]. split; [auto|lia].
Qed.
Lemma select_range w k p : is_u64 w -> 0 <= k < popcount w -> select_in_word w k = Ok p -> 0 <= p < 64.
Proof.
  intros Hw Hk H. rewrite popcount_correct in Hk by auto. destruct (select_in_word_correct w k Hw Hk) as (q & E & S). rewrite H in E. injection E as ->.
  apply is_select_bound in S. rewrite word_bits_length in S. lia.
Qed.

Definition ok_op (o : uop) : Prop := match o with UNext => True | USkip k | USkipNoMove k | USkip0 k => 0 <= k end.
Lemma ustep_same ws e o : (do (r, e, _) <- ustep_c ws e o; Ok (r, e)) = ustep ws e o.
Proof.
  destruct o as [|k|k|k]; cbn [ustep_c ustep].
  - unfold unary_next_c, unary_next. rewrite <- (next_same _ ws (u_pos e) (u_buf e) 0). destruct (unary_next_loop_c _ _ _ _ _) as [(((p & b) & r) & c)|]; cbn [bind]; reflexivity.
  - unfold unary_skip_c, unary_skip. rewrite <- (skip_same _ ws k 0 (u_pos e) (u_buf e) 0). destruct (skip_loop_c _ _ _ _ _ _ _ _) as [(((x & p) & b) & c)|]; cbn [bind]; [|reflexivity].
    unfold assert_. destruct (negb (b =? 0)); [|reflexivity]. destruct (select_in_word b (k - x)); cbn [bind]; [|reflexivity]. destruct (shl _ _); cbn [bind]; reflexivity.
  - unfold unary_skip_no_move_c, unary_skip_no_move. rewrite <- (skip_same _ ws k 0 (u_pos e) (u_buf e) 0). destruct (skip_loop_c _ _ _ _ _ _ _ _) as [(((x & p) & b) & c)|]; cbn [bind]; [|reflexivity].
    unfold assert_. destruct (negb (b =? 0)); [|reflexivity]. destruct (select_in_word b (k - x)); cbn [bind]; reflexivity.
  - unfold unary_skip0_c, unary_skip0. destruct (shl (2 ^ 64 - 1) (u_pos e mod 64)) as [m0|]; cbn [bind]; [|reflexivity]. cbv zeta.
    rewrite <- (skip0_same _ ws k 0 (u_pos e) (Z.land (not64 (u_buf e)) m0) 0). destruct (skip_loop_c _ _ _ _ _ _ _ _) as [(((x & p) & b) & c)|]; cbn [bind]; [|reflexivity].
    unfold assert_. destruct (negb (b =? 0)); [|reflexivity]. destruct (select_in_word b (k - x)); cbn [bind]; [|reflexivity]. destruct (shl _ _); cbn [bind]; reflexivity.
Qed.
Lemma land_low x y : is_u64 x -> is_u64 (Z.land x y).
Proof.
  intros (H1 & H2). split; [apply Z.land_nonneg; left; lia|]. destruct (Z.eq_dec (Z.land x y) 0) as [->|N]; [lia|].
  assert (0 <= Z.land x y) by (apply Z.land_nonneg; left; lia). rewrite <- (Z.mod_small x (2 ^ 64)) by lia. rewrite <- Z.land_ones by lia.
  rewrite <- Z.land_assoc, (Z.land_comm (Z.ones 64)), Z.land_assoc, Z.land_ones by lia. apply Z.mod_pos_bound. lia.
Qed.
Lemma next_buf : forall fuel ws pos buf c p b r c', Forall is_u64 ws -> is_u64 buf -> unary_next_loop_c fuel ws pos buf c = Ok (p, b, r, c') -> is_u64 b.
Proof.
  induction fuel as [|fuel IH]; intros ws pos buf c p b r c' F B H; cbn [unary_next_loop_c] in H; apply bind_inv in H; destruct H as ([ret|] & E & H).
  1,3: injection H as <- <- <- <-; auto.
  - discriminate.
  - apply bind_inv in H. destruct H as (w & R & H). apply rd_u64 in R; [|auto]. eapply IH; eauto.
Qed.
Lemma ustep_count ws e o r e' c : Forall is_u64 ws -> is_u64 (u_buf e) -> ok_op o -> ustep_c ws e o = Ok (r, e', c) ->
  c = r / 64 - u_pos e / 64 /\ is_u64 (u_buf e') /\ u_pos e' = (match o with USkipNoMove _ => u_pos e | _ => r end).
Proof.
  intros F B O H. destruct o as [|k|k|k]; cbn [ustep_c ok_op] in *.
  - unfold unary_next_c in H. apply bind_inv in H. destruct H as ((((p & b) & x) & c1) & E & H). cbv zeta in H. injection H as <- <- <-.
    pose proof (next_buf _ _ _ _ _ _ _ _ _ F B E). apply next_count in E. destruct E as (-> & X). cbn [u_buf u_pos]. rewrite align_div by auto. split; [lia|].
    split; [apply land_low; auto|reflexivity].
  - apply bind_inv in H. destruct H as ((e1 & c1) & H & G). injection G as <- <- <-. unfold unary_skip_c in H. apply bind_inv in H.
    destruct H as ((((x & p) & b) & c2) & E & H). apply assert_inv in H. destruct H as (_ & H). apply bind_inv in H. destruct H as (y & Y & H).
    apply bind_inv in H. destruct H as (m & _ & H). injection H as <- <-. apply skip_count in E; auto. destruct E as (-> & E1 & E2).
    apply select_range in Y; [|auto|lia]. cbn [u_pos u_buf]. rewrite align_div by auto. split; [lia|]. split; [apply land_low; auto|reflexivity].
  - apply bind_inv in H. destruct H as ((p1 & c1) & H & G). injection G as <- <- <-. unfold unary_skip_no_move_c in H. apply bind_inv in H.
    destruct H as ((((x & p) & b) & c2) & E & H). apply assert_inv in H. destruct H as (_ & H). apply bind_inv in H. destruct H as (y & Y & H).
    injection H as <- <-. apply skip_count in E; auto. destruct E as (-> & E1 & E2). apply select_range in Y; [|auto|lia]. rewrite align_div by auto. split; [lia|]. auto.
  - apply bind_inv in H. destruct H as ((e1 & c1) & H & G). injection G as <- <- <-. unfold unary_skip0_c in H. apply bind_inv in H. destruct H as (m0 & _ & H).
    cbv zeta in H. apply bind_inv in H. destruct H as ((((x & p) & b) & c2) & E & H). apply assert_inv in H. destruct H as (_ & H).
    apply bind_inv in H. destruct H as (y & Y & H). apply bind_inv in H. destruct H as (m & _ & H). injection H as <- <-.
    apply skip_count in E; auto; [|apply land_low, not64_is]. destruct E as (-> & E1 & E2).
    apply select_range in Y; [|auto|lia]. cbn [u_pos u_buf]. rewrite align_div by auto. split; [lia|]. split; [apply land_low, not64_is|reflexivity].
Qed.
Lemma urun_count ws : Forall is_u64 ws -> forall os e rs, is_u64 (u_buf e) -> Forall ok_op os -> urun ws e os = Ok rs ->
  urun_c ws e os = Ok (rs, travel (u_pos e) os rs).
Proof.
  intros F. induction os as [|o os IH]; intros e rs B O H; cbn [urun urun_c] in *.
  - injection H as <-. reflexivity.
  - inversion O as [|? ? O1 O2]; subst. apply bind_inv in H. destruct H as ((r & e1) & E & H). apply bind_inv in H. destruct H as (rs1 & E1 & H). injection H as <-.
    rewrite <- ustep_same in E. apply bind_inv in E. destruct E as (((r0 & e0) & c) & E & G). injection G as -> ->. rewrite E. cbn [bind].
    destruct (ustep_count _ _ _ _ _ _ F B O1 E) as (-> & B1 & P1). rewrite (IH e1 rs1 B1 O2 E1). cbn [bind]. do 2 f_equal. rewrite P1. destruct o; reflexivity.
Qed.
Lemma uspec_ok l s os rs : uspec_run l s os rs -> Forall ok_op os.
Proof. induction 1 as [|s o r s' os rs H R IH]; constructor; auto. destruct H; cbn; auto. Qed.
Lemma unary_rounds l pos os rs : 0 <= pos < 64 * zlen (pack l) -> uspec_run l (pos, false) os rs ->
  urun_c_from (canonical l) pos os = Ok (rs, travel pos os rs).
Proof.
  intros Hp S. pose proof (unary_history l pos os rs Hp S) as H. unfold urun_from in H. unfold urun_c_from. apply bind_inv in H. destruct H as (e & E & H).
  rewrite E. cbn [bind]. pose proof (proj1 (words_ok_pack l)) as F. unfold unary_new in E. apply bind_inv in E. destruct E as (w & R & E).
  apply bind_inv in E. destruct E as (m & _ & E). injection E as <-. apply rd_u64 in R; [|exact F]. apply urun_count in H; [exact H|exact F|apply land_low; auto|eapply uspec_ok; eauto].
Qed.

Lemma travel_sum : forall os rs pos, length os = length rs -> Forall moving os -> travel pos os rs = last rs pos / 64 - pos / 64.
Proof.
  induction os as [|o os IH]; intros [|r rs] pos L F; try discriminate L.
  - cbn. lia.
  - inversion F as [|? ? F1 F2]; subst. cbn in L. injection L as L. assert (travel pos (o :: os) (r :: rs) = (r / 64 - pos / 64) + travel r os rs) as -> by (destruct o; [| |destruct F1|]; reflexivity).
    rewrite IH by auto. assert (last (r :: rs) pos = last rs r) as ->; [|lia]. destruct rs as [|r1 rs]; [reflexivity|].
    cbn [last]. clear. revert r1. induction rs as [|r2 rs IH]; intros r1; [reflexivity|]. cbn [last] in *. destruct rs; [reflexivity|]. apply IH. exact 0.
Qed.
Lemma uspec_len l s os rs : uspec_run l s os rs -> length os = length rs.
Proof. induction 1; cbn; auto. Qed.
Lemma uspec_in l s os rs : uspec_run l s os rs -> Forall (fun r => 0 <= r < zlen l) rs.
Proof.
  induction 1 as [|s o r s' os rs H R IH]; constructor; auto.
  destruct H as [s q S|s k q K S|s k q K S|p k q K S]; apply is_select_bound in S; unfold zlen; lia.
Qed.
Lemma unary_total l pos os rs : 0 <= pos < 64 * zlen (pack l) -> uspec_run l (pos, false) os rs -> Forall moving os ->
  travel pos os rs = last rs pos / 64 - pos / 64 /\ travel pos os rs <= zlen (pack l) - 1.
Proof.
  intros Hp S M. rewrite travel_sum; [|eapply uspec_len; eauto|auto]. split; [reflexivity|].
  assert (L : last rs pos < 64 * zlen (pack l)).
  { pose proof (uspec_in _ _ _ _ S) as F. clear S. rewrite zlen_pack in *. pose proof (Z.div_mod (zlen l + 63) 64 ltac:(lia)). pose proof (Z.mod_pos_bound (zlen l + 63) 64 ltac:(lia)).
    destruct rs as [|r rs]; [cbn; lia|]. rewrite Forall_forall in F. assert (I : In (last (r :: rs) pos) (r :: rs)).
    { clear. revert r. induction rs as [|x rs IH]; intros r; [left; reflexivity|]. right. apply IH. }
    specialize (F _ I). lia. }
  assert (last rs pos / 64 < zlen (pack l)) by (apply Z.div_lt_upper_bound; lia). assert (0 <= pos / 64) by (apply Z.div_pos; lia). lia.
Qed.
