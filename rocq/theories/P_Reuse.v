(** A builder used again after a vector was built from it. *)
From Verif Require Import Base Spec Lib M_Broadword M_BitVector S_BitVector M_Reuse S_Reuse P_BvLib P_Builder P_BitVector.

Lemma v_need_gen gr b n : b_gen b <= b_gen (v_need gr b n) /\ b_cur (v_need gr b n) = b_cur b.
Proof. unfold v_need. destruct (n <=? b_cap b); cbn; split; try reflexivity; lia. Qed.
Lemma v_push_gen gr b w : b_gen b <= b_gen (v_push gr b w).
Proof. unfold v_push. cbn [with_bits b_gen]. apply v_need_gen. Qed.

(** the vector holds [l], with the bits [m] behind its end in the last word; [h] is its buffer *)
Definition rinv (l : list bool) (h : Z) (m : list bool) (s : reuse) : Prop :=
  bv_size (ru_v s) = zlen l /\ words_ok (bv_words (ru_v s)) (l ++ m) /\ zlen (bv_words (ru_v s)) = zlen (pack l) /\
  ru_buf s = Some h /\ h < b_gen (ru_b s) /\ zlen l <= b_size (ru_b s) /\
  (forall i, b_cur (ru_b s) = Some (h, i) -> b_bits (ru_b s) = [] /\
     (b_size (ru_b s) mod 64 <> 0 -> i = zlen (bv_words (ru_v s)) - 1 /\ b_size (ru_b s) = zlen (l ++ m))).

(** a call that leaves the pointer alone, or sets it to the builder's own last word *)
Lemma rinv_own l h m s b : rinv l h m s -> b_gen (ru_b s) <= b_gen b -> zlen l <= b_size b ->
  (exists j, b_cur b = Some (b_gen b, j)) -> rinv l h m (with_b s b).
Proof.
  intros (H1 & H2 & H3 & H4 & H5 & H6 & H7) Hg Hs [j Hc]. unfold rinv. cbn [with_b ru_v ru_b ru_buf]. repeat split; auto; try apply H2; try lia.
  all: intros; exfalso; rewrite Hc in *; assert (b_gen b = h) by congruence; lia.
Qed.
Lemma rinv_same l h m s b : rinv l h m s -> b_gen (ru_b s) <= b_gen b -> b_size b = b_size (ru_b s) ->
  b_cur b = b_cur (ru_b s) -> (b_bits (ru_b s) = [] -> b_bits b = []) -> rinv l h m (with_b s b).
Proof.
  intros (H1 & H2 & H3 & H4 & H5 & H6 & H7) Hg Hs Hc Hb. unfold rinv. cbn [with_b ru_v ru_b ru_buf]. rewrite Hs, Hc.
  split; [exact H1|]. split; [exact H2|]. split; [exact H3|]. split; [exact H4|]. split; [lia|]. split; [exact H6|].
  intros i Hi. destruct (H7 i Hi) as (A & B). split; [exact (Hb A)|exact B].
Qed.

(** shifting a value into the last word keeps what fits *)
Lemma shl_fits bits s : 0 <= bits -> 0 < s < 64 -> u64 (Z.shiftl bits s) = u64 (Z.shiftl (bits mod 2 ^ (64 - s)) s).
Proof.
  intros Hb Hs. unfold u64. rewrite !Z.shiftl_mul_pow2 by lia. replace (2 ^ 64) with (2 ^ (64 - s) * 2 ^ s) by (rewrite <- Z.pow_add_r by lia; f_equal; lia).
  rewrite !Z.mul_mod_distr_r by (apply Z.pow_nonzero; lia). rewrite Z.mod_mod by (apply Z.pow_nonzero; lia). reflexivity.
Qed.

(** OR onto the last word: the bits that do not fit are lost *)
Lemma or_last ws l bits len : words_ok ws l -> 0 < len <= 64 -> 0 <= bits < 2 ^ len -> zlen l mod 64 <> 0 ->
  exists m, words_ok (upd ws (Z.to_nat (zlen ws - 1)) (Z.lor (W ws (zlen ws - 1)) (u64 (Z.shiftl bits (zlen l mod 64))))) (l ++ m) /\
    m = (if len <=? 64 - zlen l mod 64 then bits_of (Z.to_nat len) bits
         else bits_of (Z.to_nat (64 - zlen l mod 64)) (bits mod 2 ^ (64 - zlen l mod 64))).
Proof.
  intros H Hl Hb Hm. eexists. split; [|reflexivity]. pose proof (Z.mod_pos_bound (zlen l) 64 ltac:(lia)) as Rm.
  destruct (Z.leb_spec len (64 - zlen l mod 64)) as [G|G].
  - apply append_cur1; auto.
  - rewrite shl_fits by lia. pose proof (Z.mod_pos_bound bits (2 ^ (64 - zlen l mod 64)) ltac:(apply Z.pow_pos_nonneg; lia)).
    apply append_cur1; auto; lia.
Qed.

Lemma ru_or_vec l h m s i bits len : rinv l h m s -> b_cur (ru_b s) = Some (h, i) -> b_size (ru_b s) mod 64 <> 0 ->
  0 < len <= 64 -> 0 <= bits < 2 ^ len -> exists ws m',
  ru_or s (u64 (Z.shiftl bits (b_size (ru_b s) mod 64))) = Ok (mk_reuse (ru_b s) (mk_bv (zlen l) ws) (Some h)) /\
  words_ok ws (l ++ m ++ m') /\ zlen ws = zlen (pack l) /\
  m' = (if len <=? 64 - b_size (ru_b s) mod 64 then bits_of (Z.to_nat len) bits
        else bits_of (Z.to_nat (64 - b_size (ru_b s) mod 64)) (bits mod 2 ^ (64 - b_size (ru_b s) mod 64))).
Proof.
  intros (H1 & H2 & H3 & H4 & H5 & H6 & H7) Hc Hm Hl Hb. destruct (H7 i Hc) as (A & B). destruct (B Hm) as (-> & E). rewrite E in *.
  destruct (or_last _ _ bits len H2 Hl Hb Hm) as (m' & W1 & W2).
  pose proof (words_ok_pos _ _ H2 Hm) as Pos.
  eexists _, m'. split; [|split; [|split]].
  - unfold ru_or. rewrite Hc, H4, Z.eqb_refl. rewrite mod_word_ok by lia. cbn [bind]. rewrite H1. reflexivity.
  - rewrite app_assoc. exact W1.
  - rewrite zlen_upd. exact H3.
  - exact W2.
Qed.

(** following the builder's own pointer does not touch the vector *)
Lemma ru_or_own s x s' : (forall h i, ru_buf s = Some h -> b_cur (ru_b s) <> Some (h, i)) -> ru_or s x = Ok s' ->
  exists b, s' = with_b s b /\ b_gen b = b_gen (ru_b s) /\ b_size b = b_size (ru_b s) /\ b_cur b = b_cur (ru_b s) /\
    (exists j, b_cur b = Some (b_gen b, j)).
Proof.
  intros Hn. unfold ru_or.
  assert (own : (do b <- cur_or (ru_b s) x; Ok (mk_reuse b (ru_v s) (ru_buf s))) = Ok s' -> exists b, s' = with_b s b /\ b_gen b = b_gen (ru_b s) /\
    b_size b = b_size (ru_b s) /\ b_cur b = b_cur (ru_b s) /\ (exists j, b_cur b = Some (b_gen b, j))).
  { intros G. apply bind_inv in G. destruct G as (b & G1 & G2). exists b. injection G2 as <-. split; [reflexivity|].
    unfold cur_or in G1. destruct (b_cur (ru_b s)) as [[g i]|] eqn:Ec; [|discriminate]. destruct (Z.eqb_spec g (b_gen (ru_b s))) as [->|]; [|discriminate].
    apply bind_inv in G1. destruct G1 as (w & _ & G1). apply bind_inv in G1. destruct G1 as (ws & _ & G1). injection G1 as <-. cbn [with_bits b_gen b_size b_cur].
    rewrite Ec. repeat split. eauto. }
  destruct (b_cur (ru_b s)) as [[g i]|] eqn:Ec; [|exact own]. destruct (ru_buf s) as [h|] eqn:Eb; [|exact own].
  destruct (Z.eqb_spec g h) as [->|]; [|exact own]. exfalso. exact (Hn h i eq_refl eq_refl).
Qed.

(** either the pointer leads into the vector or it does not *)
Lemma cur_cases l h m s : rinv l h m s -> (exists i, b_cur (ru_b s) = Some (h, i)) \/ (forall h' i, ru_buf s = Some h' -> b_cur (ru_b s) <> Some (h', i)).
Proof.
  intros (_ & _ & _ & H4 & _). destruct (b_cur (ru_b s)) as [[g i]|]; [|right; intros; discriminate].
  destruct (Z.eq_dec g h) as [->|N]; [left; eauto|]. right. intros h' j E. rewrite H4 in E. injection E as <-. congruence.
Qed.

Lemma ru_push_inv l h m s gr x s' : l <> [] -> rinv l h m s -> ru_push gr s x = Ok s' -> exists m', rinv l h (m ++ m') s' /\ b_size (ru_b s') = b_size (ru_b s) + 1.
Proof.
  intros Hl I G. unfold ru_push in G. pose proof (Z.mod_pos_bound (b_size (ru_b s)) 64 ltac:(lia)) as Rm.
  rewrite shl_ok in G by lia. cbn [bind] in G. apply bind_inv in G. destruct G as (t & G1 & G2). injection G2 as <-.
  destruct (Z.eqb_spec (b_size (ru_b s) mod 64) 0) as [E|E].
  - exists []. rewrite app_nil_r.
    assert (I2 : rinv l h m (with_b s (set_cur_back (v_push gr (ru_b s) 0)))).
    { apply rinv_own; auto; cbn [set_cur_back b_gen b_size b_cur]; rewrite ?v_push_size; [apply v_push_gen| |eauto]. apply I. }
    apply ru_or_own in G1.
    + destruct G1 as (b & -> & Eg & Es & Ec & j & Ej). cbn [with_b ru_b] in *. cbn [set_cur_back b_size] in Es. rewrite v_push_size in Es.
      split; [|cbn [with_b ru_b with_size b_size]; lia].
      apply (rinv_own l h m _ _ I2); cbn [with_b ru_b with_size b_size b_gen b_cur set_cur_back]; [rewrite Eg; cbn [set_cur_back b_gen]; lia| |eauto].
      destruct I as (_ & _ & _ & _ & _ & H6 & _). lia.
    + intros h' i Eh Ec. destruct I as (_ & _ & _ & H4 & H5 & _). cbn [with_b ru_b ru_buf set_cur_back b_cur] in Eh, Ec. rewrite H4 in Eh. injection Eh as <-.
      injection Ec as Ec _. pose proof (v_need_gen gr (ru_b s) (zlen (b_bits (ru_b s)) + 1)). lia.
  - destruct (cur_cases _ _ _ _ I) as [[i Hc]|Hn].
    + destruct (ru_or_vec _ _ _ _ i (Z.b2z x) 1 I Hc E ltac:(lia) ltac:(destruct x; simpl; lia)) as (ws & m' & G & W1 & W2 & W3).
      rewrite G in G1. injection G1 as <-. replace (1 <=? 64 - b_size (ru_b s) mod 64) with true in W3 by lia.
      destruct I as (H1 & H2 & H3 & H4 & H5 & H6 & H7). destruct (H7 i Hc) as (A & B). destruct (B E) as (Ei & Es).
      exists m'. split; [|reflexivity]. unfold rinv. cbn [with_b with_size ru_v ru_b ru_buf bv_size bv_words b_size b_gen b_cur b_bits].
      split; [reflexivity|]. split; [exact W1|]. split; [exact W2|]. split; [reflexivity|]. split; [exact H5|]. split; [lia|].
      intros j Hj. rewrite Hc in Hj. injection Hj as <-. split; [exact A|]. intros _. split; [lia|].
      rewrite app_assoc, zlen_app, W3, zlen_bits_of. lia.
    + exists []. rewrite app_nil_r. apply ru_or_own in G1; [|exact Hn]. destruct G1 as (b & -> & Eg & Es & Ec & j & Ej). cbn [with_b ru_b with_size b_size].
      split; [|lia]. apply (rinv_own l h m s); cbn [with_size b_size b_gen b_cur]; auto; [lia| |eauto].
      destruct I as (_ & _ & _ & _ & _ & H6 & _). lia.
Qed.

Lemma ru_append_bits_inv l h m s gr bits len s' : l <> [] -> rinv l h m s -> 0 <= len <= 64 -> 0 <= bits < 2 ^ len ->
  ru_append_bits gr s bits len = Ok s' -> exists m', rinv l h (m ++ m') s' /\ b_size (ru_b s') = b_size (ru_b s) + len.
Proof.
  intros Hl I Rl Rb G. unfold ru_append_bits in G. rewrite no_spurious_ok in G by auto. cbn [bind] in G. rewrite assert_true in G by auto.
  pose proof I as (H1 & H2 & H3 & H4 & H5 & H6 & H7).
  destruct (Z.eqb_spec len 0) as [->|Nl].
  { injection G as <-. exists []. rewrite app_nil_r. split; [exact I|lia]. }
  pose proof (Z.mod_pos_bound (b_size (ru_b s)) 64 ltac:(lia)) as Rm. cbv zeta in G.
  set (b1 := with_size (ru_b s) (b_size (ru_b s) + len)) in *.
  destruct (Z.eqb_spec (b_size (ru_b s) mod 64) 0) as [E|E].
  - injection G as <-. exists []. rewrite app_nil_r. cbn [with_b ru_b]. split.
    + apply (rinv_own l h m s); auto; cbn [with_b ru_b set_cur_back b_gen b_size b_cur]; rewrite ?v_push_size; [|unfold b1; cbn; lia|eauto].
      pose proof (v_push_gen gr b1 bits) as Q. unfold b1 in Q at 1. cbn in Q. exact Q.
    + cbn [set_cur_back b_size]. rewrite v_push_size. reflexivity.
  - rewrite shl_ok in G by lia. cbn [bind] in G. apply bind_inv in G. destruct G as (t & G1 & G2).
    destruct (cur_cases _ _ _ _ I) as [[i Hc]|Hn].
    + destruct (ru_or_vec _ _ _ _ i bits len I Hc E ltac:(lia) Rb) as (ws & m' & G & W1 & W2 & W3).
      destruct (H7 i Hc) as (A & B). destruct (B E) as (Ei & Es).
      assert (Et : t = mk_reuse b1 (mk_bv (zlen l) ws) (Some h)).
      { unfold ru_or in G, G1. cbn [with_b ru_b ru_v ru_buf] in G1. unfold b1 in G1 at 1. cbn [with_size b_cur] in G1. rewrite Hc, H4, Z.eqb_refl in G, G1.
        apply bind_inv in G1. destruct G1 as (ws' & G1 & G3). rewrite G1 in G. cbn [bind] in G. injection G as Ga Gb. injection G3 as <-. subst ws'. rewrite H1. reflexivity. }
      subst t. cbn [ru_b ru_v ru_buf] in G2. exists m'.
      destruct (Z.ltb_spec (64 - b_size (ru_b s) mod 64) len) as [L|L].
      * rewrite shr_ok in G2 by lia. cbn [bind] in G2. injection G2 as <-. cbn [with_b ru_b ru_v ru_buf]. split.
        -- unfold rinv. cbn [with_b with_size ru_v ru_b ru_buf bv_size bv_words b_size b_gen b_cur b_bits set_cur_back].
           pose proof (v_push_gen gr b1 (Z.shiftr bits (64 - b_size (ru_b s) mod 64))) as Q. unfold b1 in Q at 1. cbn [with_size b_gen] in Q.
           split; [reflexivity|]. split; [exact W1|]. split; [exact W2|]. split; [reflexivity|]. split; [lia|].
           split; [rewrite v_push_size; unfold b1; cbn; lia|]. intros j Hj. assert (Hj2 : b_gen (v_push gr b1 (Z.shiftr bits (64 - b_size (ru_b s) mod 64))) = h) by congruence. lia.
        -- cbn [set_cur_back b_size]. rewrite v_push_size. reflexivity.
      * apply bind_inv in G2. destruct G2 as (b & G2 & _). unfold cur_back in G2. unfold b1 in G2. cbn [with_size b_bits] in G2. rewrite A in G2.
        change (zlen (@nil Z)) with 0 in G2. discriminate.
    + exists []. rewrite app_nil_r. apply ru_or_own in G1.
      2:{ intros h' j. cbn [with_b ru_b ru_buf]. unfold b1. cbn [with_size b_cur]. apply Hn. }
      destruct G1 as (b & -> & Eg & Es & Ec & j & Ej). cbn [with_b ru_b ru_v ru_buf] in *. unfold b1 in Eg, Es, Ec. cbn [with_size b_gen b_size b_cur] in Eg, Es, Ec.
      destruct (Z.ltb_spec (64 - b_size (ru_b s) mod 64) len) as [L|L].
      * rewrite shr_ok in G2 by lia. cbn [bind] in G2. injection G2 as <-. split.
        -- apply (rinv_own l h m s); auto; cbn [set_cur_back b_gen b_size b_cur]; rewrite ?v_push_size; [|lia|eauto].
           pose proof (v_push_gen gr b (Z.shiftr bits (64 - b_size (ru_b s) mod 64))). lia.
        -- cbn [with_b ru_b set_cur_back b_size]. rewrite v_push_size. lia.
      * apply bind_inv in G2. destruct G2 as (b' & G2 & G3). injection G3 as <-. unfold cur_back in G2. destruct (zlen (b_bits b) =? 0); [discriminate|]. injection G2 as <-.
        cbn [with_b ru_b set_cur_back b_size]. split; [|lia].
        apply (rinv_own l h m s); auto; cbn [set_cur_back b_gen b_size b_cur]; [lia|lia|eauto].
Qed.

Lemma ru_one_extend_loop_inv l h gr : l <> [] -> forall fuel m s n t n', rinv l h m s -> 0 <= n -> ru_one_extend_loop gr fuel s n = Ok (t, n') ->
  exists m', rinv l h (m ++ m') t /\ b_size (ru_b t) + n' = b_size (ru_b s) + n /\ 0 <= n' < 64.
Proof.
  intros Hl. induction fuel as [|fuel IH]; intros m s n t n' I Hn G; cbn [ru_one_extend_loop] in G.
  - destruct (Z.leb_spec 64 n); [discriminate|]. injection G as <- <-. exists []. rewrite app_nil_r. split; [exact I|lia].
  - destruct (Z.leb_spec 64 n) as [L|L].
    + apply bind_inv in G. destruct G as (u & G1 & G2). destruct (ru_append_bits_inv l h m s gr (2 ^ 64 - 1) 64 u Hl I ltac:(lia) ltac:(lia) G1) as (m1 & I1 & E1).
      destruct (IH _ _ (n - 64) _ _ I1 ltac:(lia) G2) as (m2 & I2 & E2 & R2). exists (m1 ++ m2). rewrite app_assoc. split; [exact I2|lia].
    + injection G as <- <-. exists []. rewrite app_nil_r. split; [exact I|lia].
Qed.

Lemma ru_one_extend_inv l h m s gr n s' : l <> [] -> rinv l h m s -> 0 <= n -> ru_one_extend gr s n = Ok s' ->
  exists m', rinv l h (m ++ m') s' /\ b_size (ru_b s') = b_size (ru_b s) + n.
Proof.
  intros Hl I Hn G. unfold ru_one_extend in G. apply bind_inv in G. destruct G as ([t n'] & G1 & G2).
  destruct (ru_one_extend_loop_inv l h gr Hl _ _ _ _ _ _ I Hn G1) as (m1 & I1 & E1 & R1).
  destruct (Z.eqb_spec n' 0) as [->|N].
  - injection G2 as <-. exists m1. split; [exact I1|lia].
  - rewrite shr_ok in G2 by lia. cbn [bind] in G2.
    assert (R : 0 <= Z.shiftr (2 ^ 64 - 1) (64 - n') < 2 ^ n').
    { rewrite Z.shiftr_div_pow2 by lia. split; [apply Z.div_pos; [lia|apply Z.pow_pos_nonneg; lia]|].
      apply Z.div_lt_upper_bound; [apply Z.pow_pos_nonneg; lia|]. rewrite <- Z.pow_add_r by lia. replace (64 - n' + n') with 64 by lia. lia. }
    destruct (ru_append_bits_inv l h _ t gr _ n' s' Hl I1 ltac:(lia) R G2) as (m2 & I2 & E2). exists (m1 ++ m2). rewrite app_assoc. split; [exact I2|lia].
Qed.

(** calls that do not follow the pointer *)
Lemma zero_extend_shape gr b n b' : 0 < b_size b -> 0 <= n -> b_size b + n + 63 < 2 ^ 64 -> zero_extend gr b n = Ok b' ->
  b_gen b <= b_gen b' /\ b_size b' = b_size b + n /\ ((exists j, b_cur b' = Some (b_gen b', j)) \/ (b_bits b <> [] /\ b_cur b' = b_cur b)).
Proof.
  intros Hs Hn Hf G. unfold zero_extend in G. set (b1 := with_size b (b_size b + n)) in *.
  destruct (Z.eqb_spec (u64 (words_for (b_size b1) - zlen (b_bits b1))) 0) as [E|E]; injection G as <-.
  - unfold b1. cbn [with_size b_gen b_size b_cur]. split; [lia|]. split; [reflexivity|]. right. split; [|reflexivity]. intros Eb.
    unfold b1 in E. cbn [with_size b_size b_bits] in E. rewrite Eb in E. change (zlen (@nil Z)) with 0 in E.
    unfold words_for, ceil_div in E. rewrite u64_small in E by dlia. dlia.
  - cbn [set_cur_back b_gen b_size b_cur]. unfold v_grow. cbn [with_bits b_gen b_size].
    match goal with |- context [v_need gr b1 ?k] => pose proof (v_need_gen gr b1 k) as [Q _]; rewrite v_need_size end.
    unfold b1 in Q at 1. cbn [with_size b_gen] in Q. split; [exact Q|]. split; [reflexivity|]. left. eauto.
Qed.

Lemma append_shape gr b rhs b' : append gr b rhs = Ok b' ->
  b_gen b <= b_gen b' /\ b_size b' = b_size b + b_size rhs /\ ((exists j, b_cur b' = Some (b_gen b', j)) \/ b' = b).
Proof.
  intros G. unfold append in G. destruct (Z.eqb_spec (b_size rhs) 0) as [E|E].
  { injection G as <-. split; [lia|]. split; [lia|]. right. reflexivity. }
  cbv zeta in G. set (b1 := with_size b (b_size b + b_size rhs)) in *.
  set (b2 := if words_for (b_size b1) <? zlen (b_bits b) then _ else _) in *.
  assert (E2 : b_gen b <= b_gen b2 /\ b_size b2 = b_size b + b_size rhs).
  { unfold b2. destruct (words_for (b_size b1) <? zlen (b_bits b)).
    - unfold b1. cbn [with_bits with_size b_gen b_size]. split; [lia|reflexivity].
    - unfold v_grow. cbn [with_bits b_gen b_size]. pose proof (v_need_gen gr b1 (words_for (b_size b1))) as [Q _]. rewrite v_need_size.
      unfold b1 in Q at 1. cbn [with_size b_gen] in Q. split; [exact Q|reflexivity]. }
  destruct E2 as [E2 E3].
  assert (fin : forall ws, b' = set_cur_back (with_bits b2 ws) -> b_gen b <= b_gen b' /\ b_size b' = b_size b + b_size rhs /\
    ((exists j, b_cur b' = Some (b_gen b', j)) \/ b' = b)).
  { intros ws ->. cbn [set_cur_back with_bits b_gen b_size b_cur]. split; [exact E2|]. split; [exact E3|]. left. eauto. }
  destruct (b_size b mod 64 =? 0).
  - destruct (zlen (b_bits b) + zlen (b_bits rhs) <=? zlen (b_bits b2)); [|discriminate]. injection G as <-. eapply fin; reflexivity.
  - apply bind_inv in G. destruct G as (w & _ & G). apply bind_inv in G. destruct G as ([ws cur] & _ & G). apply bind_inv in G. destruct G as (x & _ & G).
    apply bind_inv in G. destruct G as (ws1 & _ & G). destruct (cur <? zlen ws1 - 1).
    + apply bind_inv in G. destruct G as (y & _ & G). apply bind_inv in G. destruct G as (ws2 & _ & G). injection G as <-. eapply fin; reflexivity.
    + injection G as <-. eapply fin; reflexivity.
Qed.

Lemma mod_word_nil i f ws : mod_word [] i f = Ok ws -> False.
Proof. unfold mod_word. rewrite rd_oob; [discriminate|]. change (zlen (@nil Z)) with 0. lia. Qed.

Lemma bset_shape b pos x b' : bset b pos x = Ok b' -> b_gen b' = b_gen b /\ b_size b' = b_size b /\ b_cur b' = b_cur b /\ (b_bits b = [] -> b_bits b' = []).
Proof.
  unfold bset. intros G. apply bind_inv in G. destruct G as (y & _ & G). apply bind_inv in G. destruct G as (ws & E & G).
  apply bind_inv in G. destruct G as (z & _ & G). apply bind_inv in G. destruct G as (ws2 & _ & G). injection G as <-. cbn.
  repeat split. intros Eb. rewrite Eb in E. exfalso. exact (mod_word_nil _ _ _ E).
Qed.
Lemma set_bits_shape b pos bits len b' : set_bits b pos bits len = Ok b' ->
  b_gen b' = b_gen b /\ b_size b' = b_size b /\ b_cur b' = b_cur b /\ (b_bits b = [] -> b_bits b' = []).
Proof.
  unfold set_bits. intros G. destruct (u64 (pos + len) <=? b_size b); [|discriminate]. apply bind_inv in G. destruct G as (ok & _ & G).
  destruct ok; [|discriminate]. destruct (len =? 0); [injection G as <-; auto|].
  apply bind_inv in G. destruct G as (mask & _ & G). cbv zeta in G. apply bind_inv in G. destruct G as (y & _ & G). apply bind_inv in G. destruct G as (ws & E & G).
  assert (N : b_bits b = [] -> False) by (intros Eb; rewrite Eb in E; exact (mod_word_nil _ _ _ E)).
  apply bind_inv in G. destruct G as (z & _ & G). apply bind_inv in G. destruct G as (ws2 & _ & G).
  destruct (64 - pos mod 64 <? len).
  - apply bind_inv in G. destruct G as (a & _ & G). apply bind_inv in G. destruct G as (c & _ & G). apply bind_inv in G. destruct G as (d & _ & G).
    apply bind_inv in G. destruct G as (e & _ & G). injection G as <-. cbn. repeat split. intros Eb. exfalso. exact (N Eb).
  - injection G as <-. cbn. repeat split. intros Eb. exfalso. exact (N Eb).
Qed.
Lemma reverse_shape b b' : reverse b = Ok b' -> b_gen b' = b_gen b /\ b_size b' = b_size b /\ b_cur b' = b_cur b /\ (b_bits b = [] -> b_bits b' = []).
Proof.
  unfold reverse. intros G. apply bind_inv in G. destruct G as ([ws r] & E & G). destruct (r =? 0); [|discriminate]. injection G as <-. cbn.
  repeat split. intros Eb. rewrite Eb in E. cbn in E. injection E as <- _. reflexivity.
Qed.

Lemma ru_step_inv l h m s gr o s' : l <> [] -> rinv l h m s -> arg_ok o -> b_size (ru_b s) + added o + 63 < 2 ^ 64 -> ru_step gr s o = Ok s' ->
  exists m', rinv l h (m ++ m') s' /\ b_size (ru_b s') = b_size (ru_b s) + added o.
Proof.
  intros Hl I Ha Hf G. pose proof I as (H1 & H2 & H3 & H4 & H5 & H6 & H7).
  assert (Pl : 0 < zlen l) by (destruct l; [congruence|]; rewrite zlen_cons; pose proof (zlen_nonneg l); lia).
  assert (keep : forall b, b_gen b = b_gen (ru_b s) /\ b_size b = b_size (ru_b s) /\ b_cur b = b_cur (ru_b s) /\ (b_bits (ru_b s) = [] -> b_bits b = []) ->
    exists m', rinv l h (m ++ m') (with_b s b) /\ b_size (ru_b (with_b s b)) = b_size (ru_b s) + 0).
  { intros b (A & B & C & D). exists []. rewrite app_nil_r. split; [|cbn [with_b ru_b]; lia]. apply rinv_same; auto; lia. }
  destruct o as [n|x|pos x|pos bits len|bits len|n|n|rhs|]; cbn [ru_step added arg_ok] in *.
  - injection G as <-. exists []. rewrite app_nil_r. unfold reserve. cbn [with_b ru_b]. rewrite v_need_size. split; [|lia].
    destruct (v_need_gen gr (ru_b s) (words_for n)) as [A B]. apply rinv_same; auto; rewrite ?v_need_size, ?v_need_bits; auto.
  - eapply ru_push_inv; eauto.
  - apply bind_inv in G. destruct G as (b & E & G). injection G as <-. apply keep, (bset_shape _ _ _ _ E).
  - apply bind_inv in G. destruct G as (b & E & G). injection G as <-. apply keep, (set_bits_shape _ _ _ _ _ E).
  - eapply ru_append_bits_inv; eauto; lia.
  - apply bind_inv in G. destruct G as (b & E & G). injection G as <-. destruct (zero_extend_shape gr (ru_b s) n b ltac:(lia) Ha Hf E) as (A & B & C).
    exists []. rewrite app_nil_r. cbn [with_b ru_b]. split; [|exact B]. destruct C as [C|[C D]]; [apply rinv_own; auto; lia|].
    unfold rinv. cbn [with_b ru_v ru_b ru_buf]. split; [exact H1|]. split; [exact H2|]. split; [exact H3|]. split; [exact H4|]. split; [lia|]. split; [lia|].
    intros i Hi. rewrite D in Hi. destruct (H7 i Hi) as (N & _). congruence.
  - eapply ru_one_extend_inv; eauto.
  - apply bind_inv in G. destruct G as (b & E & G). injection G as <-. destruct (append_shape _ _ _ _ E) as (A & B & C).
    exists []. rewrite app_nil_r. cbn [with_b ru_b]. split; [|exact B]. destruct C as [C| ->]; [apply rinv_own; auto; lia|]. apply rinv_same; auto; lia.
  - apply bind_inv in G. destruct G as (b & E & G). injection G as <-. apply keep, (reverse_shape _ _ E).
Qed.

Lemma ru_legal_fits os : forall n, ru_legal n os -> n + 63 < 2 ^ 64.
Proof.
  induction os as [|o os IH]; intros n H; [exact H|]. destruct H as [A B]. apply IH in B.
  assert (0 <= added o) by (destruct o; cbn [arg_ok added] in *; lia). lia.
Qed.
Lemma ru_run_inv l h gr : l <> [] -> forall os m s s', rinv l h m s -> ru_legal (b_size (ru_b s)) os -> ru_run gr s os = Ok s' ->
  exists m', rinv l h (m ++ m') s'.
Proof.
  intros Hl. induction os as [|o os IH]; intros m s s' I L G; cbn [ru_run ru_legal] in *.
  - injection G as <-. exists []. rewrite app_nil_r. exact I.
  - destruct L as [A L]. apply bind_inv in G. destruct G as (t & G1 & G2).
    destruct (ru_step_inv l h m s gr o t Hl I A (ru_legal_fits _ _ L) G1) as (m1 & I1 & E1).
    rewrite <- E1 in L. destruct (IH _ _ _ I1 L G2) as (m2 & I2). exists (m1 ++ m2). rewrite app_assoc. exact I2.
Qed.

(** an empty builder keeps everything, and the empty vector owns nothing *)
Lemma ru_or_none s x s' : ru_buf s = None -> ru_or s x = Ok s' -> ru_v s' = ru_v s /\ ru_buf s' = None.
Proof.
  unfold ru_or. intros E G. rewrite E in G. assert (G' : (do b <- cur_or (ru_b s) x; Ok (mk_reuse b (ru_v s) None)) = Ok s') by (destruct (b_cur (ru_b s)) as [[g i]|]; exact G).
  apply bind_inv in G'. destruct G' as (b & _ & G'). injection G' as <-. auto.
Qed.
Lemma ru_append_bits_none gr s bits len s' : ru_buf s = None -> ru_append_bits gr s bits len = Ok s' -> ru_v s' = ru_v s /\ ru_buf s' = None.
Proof.
  unfold ru_append_bits. intros E G. apply bind_inv in G. destruct G as (ok & _ & G). destruct ok; [|discriminate].
  destruct (len =? 0); [injection G as <-; auto|]. cbv zeta in G. destruct (b_size (ru_b s) mod 64 =? 0); [injection G as <-; auto|].
  apply bind_inv in G. destruct G as (x & _ & G). apply bind_inv in G. destruct G as (t & G1 & G). apply ru_or_none in G1; [|exact E]. destruct G1 as [A B]. cbn in A.
  destruct (64 - b_size (ru_b s) mod 64 <? len).
  - apply bind_inv in G. destruct G as (y & _ & G). injection G as <-. auto.
  - apply bind_inv in G. destruct G as (y & _ & G). injection G as <-. auto.
Qed.
Lemma ru_one_extend_loop_none gr fuel : forall s n t n', ru_buf s = None -> ru_one_extend_loop gr fuel s n = Ok (t, n') -> ru_v t = ru_v s /\ ru_buf t = None.
Proof.
  induction fuel as [|fuel IH]; intros s n t n' E G; cbn [ru_one_extend_loop] in G; destruct (64 <=? n); try discriminate.
  - injection G as <- <-. auto.
  - apply bind_inv in G. destruct G as (u & G1 & G2). apply ru_append_bits_none in G1; [|exact E]. destruct G1 as [A B]. apply IH in G2; [|exact B]. destruct G2. split; congruence.
  - injection G as <- <-. auto.
Qed.
Lemma ru_step_none gr s o s' : ru_buf s = None -> ru_step gr s o = Ok s' -> ru_v s' = ru_v s /\ ru_buf s' = None.
Proof.
  intros E G. destruct o as [n|x|pos x|pos bits len|bits len|n|n|rhs|]; cbn [ru_step] in G;
    try (apply bind_inv in G; destruct G as (b & _ & G); injection G as <-; auto; fail).
  - injection G as <-. auto.
  - unfold ru_push in G. apply bind_inv in G. destruct G as (y & _ & G). apply bind_inv in G. destruct G as (t & G1 & G). injection G as <-.
    apply ru_or_none in G1; [|destruct (b_size (ru_b s) mod 64 =? 0); exact E]. destruct G1 as [A B]. cbn [with_b ru_v ru_buf]. split; [|exact B].
    rewrite A. destruct (b_size (ru_b s) mod 64 =? 0); reflexivity.
  - eapply ru_append_bits_none; eauto.
  - unfold ru_one_extend in G. apply bind_inv in G. destruct G as ([t n'] & G1 & G). apply ru_one_extend_loop_none in G1; [|exact E]. destruct G1 as [A B].
    destruct (n' =? 0); [injection G as <-; auto|]. apply bind_inv in G. destruct G as (y & _ & G). apply ru_append_bits_none in G; [|exact B]. destruct G. split; congruence.
Qed.
Lemma ru_run_none gr os : forall s s', ru_buf s = None -> ru_run gr s os = Ok s' -> ru_v s' = ru_v s.
Proof.
  induction os as [|o os IH]; intros s s' E G; cbn [ru_run] in G; [injection G as <-; reflexivity|].
  apply bind_inv in G. destruct G as (t & G1 & G2). apply ru_step_none in G1; [|exact E]. destruct G1 as [A B]. rewrite <- A. apply (IH _ _ B G2).
Qed.

(** the state right after the vector was built *)
Lemma build_from_ok b l : binv b l -> build_from b =
  Ok (if zlen l =? 0 then mk_reuse b (canonical l) None
      else mk_reuse (mk_builder [] (zlen l) 0 (b_gen b + 1) (b_cur b)) (canonical l) (Some (b_gen b))).
Proof.
  intros B. unfold build_from. rewrite (binv_bv _ _ B). cbn [bind]. destruct B as (B1 & (_ & B2 & _) & _). rewrite B2, B1.
  pose proof (zlen_nonneg l). destruct (Z.eqb_spec (zlen l) 0) as [E|E].
  - rewrite E. reflexivity.
  - replace ((zlen l + 63) / 64 =? 0) with false by dlia. reflexivity.
Qed.
Lemma built_inv b l : binv b l -> l <> [] ->
  rinv l (b_gen b) [] (mk_reuse (mk_builder [] (zlen l) 0 (b_gen b + 1) (b_cur b)) (canonical l) (Some (b_gen b))).
Proof.
  intros (B1 & B2 & B3 & B4) Hl. unfold rinv. cbn [ru_v ru_b ru_buf canonical bv_size bv_words b_gen b_size b_cur b_bits]. rewrite app_nil_r.
  split; [reflexivity|]. split; [apply words_ok_pack|]. split; [reflexivity|]. split; [reflexivity|]. split; [lia|]. split; [lia|].
  intros i Hi. split; [reflexivity|]. intros Hm. split; [|reflexivity]. rewrite (B4 Hm) in Hi. injection Hi as <-. rewrite (words_ok_eq _ _ B2). reflexivity.
Qed.
