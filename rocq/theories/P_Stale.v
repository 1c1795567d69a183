(** The enumerators of bit_vector outside C05 and C06. *)
From Verif Require Import Base Spec Lib M_Broadword M_BitVector S_BitVector M_Darray P_BvGen.
From Verif Require Import P_BvLib P_BvRank P_Broadword P_Broadword2 P_BitVector P_BvEnum S_Stale.

(** ** enumerator *)
Fixpoint erun_st (bv : bit_vector) (e : enumerator) (os : list eop) : res (list Z * enumerator) :=
  match os with
  | [] => Ok ([], e)
  | o :: os => do (r, e) <- estep bv e o; do (rs, e) <- erun_st bv e os; Ok (r :: rs, e)
  end.

Lemma erun_app bv os os' : forall e rs e1, erun_st bv e os = Ok (rs, e1) ->
  erun bv e (os ++ os') = (do (rs', p) <- erun bv e1 os'; Ok (rs ++ rs', p)).
Proof.
  induction os as [|o os IH]; cbn [erun_st erun app]; intros e rs e1 H.
  - injection H as <- <-. destruct (erun bv e os') as [[]|]; reflexivity.
  - destruct (estep bv e o) as [[r e2]|]; cbn [bind] in *; [|discriminate].
    destruct (erun_st bv e2 os) as [[rs2 e3]|] eqn:E; cbn [bind] in *; [|discriminate].
    injection H as <- <-. rewrite (IH _ _ _ E).
    destruct (erun bv e3 os') as [[]|]; reflexivity.
Qed.

Lemma enum_history_st l pos os rs p : 0 <= pos -> espec_run l (pos, false) os rs p ->
  exists e st, erun_st (canonical l) (enum_new pos) os = Ok (rs, e) /\ einv e l (p, st).
Proof.
  intros Hp H.
  assert (I : einv (enum_new pos) l (pos, false)).
  { apply einv_intro; try lia; [unfold is_u64; lia|]. intros _ i Hi. rewrite Z.testbit_0_l.
    replace (i <? 0) with false by lia. reflexivity. }
  remember (pos, false) as s eqn:Es. clear Es Hp. revert I. generalize (enum_new pos).
  induction H as [pos' st|s o r s' os rs p Hs Hr IH]; intros e I; cbn [erun_st].
  - eauto.
  - destruct (estep_ok l e s o r s' I Hs) as (e' & -> & I'). cbn [bind].
    destruct (IH e' I') as (e2 & st & -> & I2). cbn [bind]. eauto.
Qed.

(** [take(64)] leaves the word in the buffer *)
Lemma enum_take64 l e pos st : einv e l (pos, st) -> pos < zlen l ->
  enum_take (canonical l) e 64 =
    Ok (value (window l (Z.to_nat pos) 64),
        mk_enum (pos + 64) (value (window l (Z.to_nat pos) 64)) 0).
Proof.
  intros H Hp. pose proof H as (_ & H2 & _). cbn [fst] in H2. unfold enum_take.
  destruct (refill l e _ 64 H ltac:(lia) Hp) as (e1 & -> & B1 & B2 & B3 & B4). cbn [bind fst] in *.
  change (64 =? 64) with true. cbn [bind].
  assert (V : e_buf e1 = value (window l (Z.to_nat pos) 64)).
  { apply Z.bits_inj'. intros i Hi. change 64%nat with (Z.to_nat 64).
    rewrite testbit_value_z, zbit_window by lia. rewrite !Z2Nat.id by lia.
    destruct (Z.ltb_spec i 64); [|apply testbit_high64; auto]. rewrite B4 by lia.
    replace (i <? e_avail e1) with true by lia. reflexivity. }
  rewrite V, B1. replace (e_avail e1) with 64 by lia. reflexivity.
Qed.

Lemma first_in_lsb l p c : 0 <= p -> first_in l p 64 c ->
  is_lsb (value (window l (Z.to_nat p) 64)) c.
Proof.
  intros Hp (Hc & H1 & H0).
  assert (V : forall i, 0 <= i -> Z.testbit (value (window l (Z.to_nat p) 64)) i =
      (i <? 64) && zbit l (p + i)).
  { intros i Hi. change 64%nat with (Z.to_nat 64).
    rewrite testbit_value_z, zbit_window by lia. rewrite !Z2Nat.id by lia. auto. }
  assert (L : p + c < zlen l).
  { unfold zlen. assert (Z.to_nat (p + c) < length l)%nat by (apply nth_error_Some; congruence). lia. }
  apply lsb_of_first; auto; [apply value_window_u64| |].
  - rewrite V by lia. rewrite zbit_nth_error in H1 by lia. injection H1 as ->.
    replace (c <? 64) with true by lia. reflexivity.
  - intros i Hi. rewrite V by lia. specialize (H0 i Hi). rewrite zbit_nth_error in H0 by lia.
    injection H0 as ->. apply andb_false_r.
Qed.

Lemma stale_skip l p c : 0 <= p -> first_in l p 64 c ->
  enum_skip_zeros (canonical l) (mk_enum (p + 64) (value (window l (Z.to_nat p) 64)) 0) =
    Ok (c, mk_enum (p + 64 + c + 1)
             (Z.shiftr (value (window l (Z.to_nat p) 64)) (c + 1)) (2 ^ 64 - (c + 1))).
Proof.
  intros Hp Hc. pose proof (first_in_lsb l p c Hp Hc) as L.
  assert (Hc' : 0 <= c < 64) by (destruct Hc; lia).
  unfold enum_skip_zeros.
  assert (Hnz : (value (window l (Z.to_nat p) 64)) <> 0) by (eapply is_lsb_nonzero; eauto).
  cbn [skip_zeros_loop e_buf]. destruct (Z.eqb_spec (value (window l (Z.to_nat p) 64)) 0); [tauto|].
  cbn [bind e_buf e_pos e_avail].
  rewrite (lsb_correct _ c) by (auto; apply value_window_u64). cbn [bind].
  rewrite shr_ok by lia. cbn [bind]. rewrite Z.shiftr_shiftr by lia.
  rewrite Z.add_0_l. do 2 f_equal. f_equal; [lia|].
  unfold u64. symmetry. apply Z.mod_unique with (-1); lia.
Qed.

Lemma stale_next l n : forall p buf av, Z.of_nat n <= av -> 0 <= buf ->
  erun (canonical l) (mk_enum p buf av) (repeat ENext n) =
    Ok (map (fun i => Z.b2z (Z.testbit buf (Z.of_nat i))) (seq 0 n), p + Z.of_nat n).
Proof.
  induction n as [|n IH]; intros p buf av Ha Hb.
  - cbn. rewrite Z.add_0_r. reflexivity.
  - cbn [repeat erun estep]. unfold enum_next. cbn [e_avail e_buf e_pos].
    destruct (Z.eqb_spec av 0); [lia|]. cbn [bind e_avail e_buf e_pos].
    rewrite IH by (try lia; apply Z.shiftr_nonneg; lia). cbn [bind seq map].
    do 2 f_equal; [|lia]. f_equal.
    + change (Z.of_nat 0) with 0.
      change 1 with (Z.ones 1) at 1. rewrite Z.land_ones, <- Z.bit0_mod by lia.
      destruct (Z.testbit buf 0); reflexivity.
    + rewrite <- seq_shift, map_map. apply map_ext. intros i.
      rewrite Z.shiftr_spec by lia. do 2 f_equal. lia.
Qed.

Lemma stale_bits l p c i : 0 <= p -> first_in l p 64 c ->
  Z.b2z (Z.testbit (Z.shiftr (value (window l (Z.to_nat p) 64)) (c + 1)) (Z.of_nat i)) =
  if c + 1 + Z.of_nat i <? 64 then bit_at l (p + (c + 1 + Z.of_nat i)) else 0.
Proof.
  intros Hp (Hc & _). rewrite Z.shiftr_spec by lia. change 64%nat with (Z.to_nat 64).
  rewrite testbit_value_z, zbit_window by lia. rewrite !Z2Nat.id by lia.
  replace (Z.of_nat i + (c + 1)) with (c + 1 + Z.of_nat i) by lia.
  destruct (c + 1 + Z.of_nat i <? 64); [|reflexivity]. cbn [andb]. unfold bit_at.
  destruct (Z.lt_ge_cases (p + (c + 1 + Z.of_nat i)) (zlen l)).
  - rewrite zbit_nth_error by lia. destruct (zbit _ _); reflexivity.
  - rewrite zbit_out by lia. replace (nth_error l _) with (@None bool); [reflexivity|].
    symmetry. apply nth_error_None. unfold zlen in *. lia.
Qed.

Theorem stale_enumerator l pos os rs p c n : 0 <= pos -> espec_run l (pos, false) os rs p ->
  first_in l p 64 c -> Z.of_nat n <= 2 ^ 64 - 64 ->
  erun (canonical l) (enum_new pos) (os ++ [ETake 64; ESkipZeros] ++ repeat ENext n) =
    Ok (rs ++ [value (window l (Z.to_nat p) 64); c] ++
          map (fun i => if c + 1 + Z.of_nat i <? 64 then bit_at l (p + (c + 1 + Z.of_nat i)) else 0)
            (seq 0 n),
        p + 64 + c + 1 + Z.of_nat n).
Proof.
  intros Hp H Hc Hn. destruct (enum_history_st l pos os rs p Hp H) as (e & st & E & I).
  rewrite (erun_app _ _ _ _ _ _ E). pose proof I as (_ & P & _). cbn [fst] in P.
  assert (L : p < zlen l).
  { destruct Hc as (Hc & H1 & _). unfold zlen.
    assert (Z.to_nat (p + c) < length l)%nat by (apply nth_error_Some; congruence). lia. }
  assert (Hc' : 0 <= c < 64) by (destruct Hc; lia).
  cbn [erun app estep]. rewrite (enum_take64 l e p st I L). cbn [bind].
  rewrite (stale_skip l p c P Hc). cbn [bind].
  rewrite stale_next by (try lia; apply Z.shiftr_nonneg; apply value_window_u64).
  cbn [bind]. do 3 f_equal. f_equal. f_equal. apply map_ext. intros i. apply stale_bits; auto.
Qed.

(** when the word is zero, nothing goes wrong *)
Theorem fresh_enumerator l pos os rs p q : 0 <= pos -> espec_run l (pos, false) os rs p ->
  p + 64 <= q -> nth_error l (Z.to_nat q) = Some true ->
  (forall i, p <= i < q -> nth_error l (Z.to_nat i) = Some false) ->
  erun (canonical l) (enum_new pos) (os ++ [ETake 64; ESkipZeros]) =
    Ok (rs ++ [0; q - (p + 64)], q + 1).
Proof.
  intros Hp H Hq H1 H0. destruct (enum_history_st l pos os rs p Hp H) as (e & st & E & I).
  rewrite (erun_app _ _ _ _ _ _ E). pose proof I as (_ & P & _). cbn [fst] in P.
  assert (L : q < zlen l).
  { unfold zlen. assert (Z.to_nat q < length l)%nat by (apply nth_error_Some; congruence). lia. }
  cbn [erun estep]. rewrite (enum_take64 l e p st I ltac:(lia)). cbn [bind].
  assert (V : value (window l (Z.to_nat p) 64) = 0).
  { apply Z.bits_inj'. intros i Hi. rewrite Z.bits_0. change 64%nat with (Z.to_nat 64).
    rewrite testbit_value_z, zbit_window by lia. rewrite !Z2Nat.id by lia.
    destruct (Z.ltb_spec i 64); auto. specialize (H0 (p + i) ltac:(lia)).
    rewrite zbit_nth_error in H0 by lia. injection H0 as ->. reflexivity. }
  rewrite V.
  assert (I' : einv (mk_enum (p + 64) 0 0) l (p + 64, false)).
  { apply einv_intro; try lia; [unfold is_u64; lia|]. intros _ i Hi. rewrite Z.testbit_0_l.
    replace (i <? 0) with false by lia. reflexivity. }
  destruct (enum_skip_zeros_ok l _ _ q I' Hq H1) as (e' & -> & I2); [intros; apply H0; lia|].
  cbn [bind]. destruct I2 as (-> & _). reflexivity.
Qed.

(** ** unary_enumerator *)
Definition hide (l : list bool) (pos : Z) : list bool :=
  firstn (Z.to_nat pos) l ++ [false] ++ skipn (Z.to_nat pos + 1) l.

Lemma zlen_hide l pos : 0 <= pos < zlen l -> zlen (hide l pos) = zlen l.
Proof.
  intros H. unfold hide, zlen in *. rewrite !app_length, firstn_length, skipn_length. cbn [length]. lia.
Qed.
Lemma zbit_hide l pos p : 0 <= pos < zlen l -> 0 <= p ->
  zbit (hide l pos) p = zbit l p && negb (p =? pos).
Proof.
  intros H Hp. unfold hide.
  assert (Lf : zlen (firstn (Z.to_nat pos) l) = pos).
  { unfold zlen in *. rewrite firstn_length. lia. }
  rewrite zbit_app, Lf. destruct (Z.ltb_spec p pos) as [D|D].
  - rewrite zbit_firstn. replace (p <? _) with true by lia. replace (p =? pos) with false by lia.
    rewrite andb_true_r. reflexivity.
  - rewrite zbit_app, zbit_single. change (zlen [false]) with 1.
    destruct (Z.eqb_spec p pos) as [->|N]; cbn [negb].
    + rewrite Z.sub_diag. rewrite !andb_false_r. reflexivity.
    + replace (p - pos <? 1) with false by lia. rewrite zbit_skipn by lia. rewrite andb_true_r.
      f_equal. lia.
Qed.

Lemma zlen_pack_hide l pos : 0 <= pos < zlen l -> zlen (pack (hide l pos)) = zlen (pack l).
Proof. intros. rewrite !zlen_pack, zlen_hide by auto. reflexivity. Qed.

(** [skip0] reads only later words *)
Lemma W_hide l pos k : 0 <= pos < zlen l -> pos / 64 < k < zlen (pack l) ->
  rd (pack (hide l pos)) k = rd (pack l) k.
Proof.
  intros Hp Hk. rewrite !W_rd by (rewrite ?zlen_pack_hide by auto; dlia). f_equal.
  destruct (words_ok_pack l) as (U & E & B). destruct (words_ok_pack (hide l pos)) as (U' & E' & B').
  apply Z.bits_inj'. intros i Hi. destruct (Z.lt_ge_cases i 64).
  - rewrite zlen_pack_hide in E' by auto.
    rewrite B, B' by dlia. rewrite zbit_hide by (auto; dlia).
    replace (64 * k + i =? pos) with false by dlia. apply andb_true_r.
  - rewrite !testbit_high64; auto; apply W_range; auto.
Qed.

Lemma skip0_loop_hide l ph k : 0 <= ph < zlen l -> forall fuel sk pos b, ph / 64 <= pos / 64 ->
  skip0_loop fuel (pack (hide l ph)) k sk pos b = skip0_loop fuel (pack l) k sk pos b.
Proof.
  intros Hp. induction fuel as [|fuel IH]; intros sk pos b Hb; cbn [skip0_loop]; auto.
  all: destruct (_ <=? k); auto.
  assert (Ed : (pos + 64) / 64 = pos / 64 + 1) by dlia.
  destruct (Z.lt_ge_cases ((pos + 64) / 64) (zlen (pack l))).
  - rewrite W_hide by (auto; lia). destruct (rd _ _); cbn [bind]; auto. apply IH. lia.
  - rewrite !rd_oob by (rewrite ?zlen_pack_hide by auto; lia). reflexivity.
Qed.

Lemma uinv_hide e l pos : 0 <= pos < zlen l -> uinv e l (pos, true) -> uinv e (hide l pos) (pos, false).
Proof.
  intros Hp (H1 & H2 & H3 & U & B). cbn [fst snd Z.b2z] in *. unfold uinv. cbn [fst snd Z.b2z].
  rewrite zlen_pack_hide by auto. split; [auto|]. split; [auto|]. split; [auto|]. split; [auto|].
  intros i Hi. rewrite B by auto. rewrite !zbit_padded. rewrite zbit_hide by (auto; dlia).
  destruct (Z.eq_dec i (pos mod 64)) as [->|N].
  - replace (pos mod 64 + 1 <=? pos mod 64) with false by lia.
    replace (64 * (pos / 64) + pos mod 64 =? pos) with true by dlia. rewrite !andb_false_r. reflexivity.
  - replace (64 * (pos / 64) + i =? pos) with false by dlia. rewrite andb_true_r.
    f_equal. lia.
Qed.

Lemma uinv_unhide e l pos q : 0 <= pos < zlen l -> pos <= q -> uinv e (hide l pos) (q, false) ->
  uinv e l (q, q =? pos).
Proof.
  intros Hp Hq (H1 & H2 & H3 & U & B). cbn [fst snd Z.b2z] in *. unfold uinv. cbn [fst snd].
  rewrite zlen_pack_hide in H3 by auto. split; [auto|]. split; [auto|]. split; [auto|]. split; [auto|].
  intros i Hi. rewrite B by auto. rewrite !zbit_padded. rewrite zbit_hide by (auto; dlia).
  destruct (Z.eqb_spec q pos) as [->|N]; cbn [Z.b2z].
  - destruct (Z.eq_dec i (pos mod 64)) as [->|N].
    + replace (pos mod 64 + 1 <=? pos mod 64) with false by lia.
      replace (64 * (pos / 64) + pos mod 64 =? pos) with true by dlia. rewrite !andb_false_r. reflexivity.
    + replace (64 * (pos / 64) + i =? pos) with false by dlia. rewrite andb_true_r. f_equal. lia.
  - rewrite Z.add_0_r. destruct (Z.leb_spec (q mod 64) i); [|reflexivity]. cbn [andb].
    replace (64 * (q / 64) + i =? pos) with false by dlia. apply andb_true_r.
Qed.

Definition ugood (l : list bool) (s : Z * bool) : Prop := snd s = true -> fst s < zlen l.

Lemma uact_ok l e s o r s' : uinv e l s -> ugood l s -> uact l s o r s' ->
  (exists e', ustep (pack l) e o = Ok (r, e') /\ uinv e' l s') /\ ugood l s'.
Proof.
  intros I G H. destruct H as [s q Hq|s k q Hk Hq|s k q Hk Hq|[pos c] k q Hk Hq].
  - split; [apply (ustep_ok l e s); auto; apply us_next; auto|].
    intros _. apply is_select_bound in Hq. unfold zlen. cbn [fst]. lia.
  - split; [apply (ustep_ok l e s); auto; apply us_skip; auto|]. discriminate.
  - split; [apply (ustep_ok l e s); auto; apply us_skip_no_move; auto|]. exact G.
  - cbn [fst snd] in *. unfold unread in Hq. cbn [fst snd] in Hq. destruct c.
    + fold (hide l pos) in Hq. cbn [andb]. specialize (G eq_refl). cbn [fst] in G.
      assert (Hp : 0 <= pos < zlen l) by (pose proof I as (_ & P & _); cbn [fst] in P; lia).
      assert (Hge : pos <= Z.of_nat q).
      { destruct (Z.le_gt_cases pos (Z.of_nat q)); auto. exfalso.
        pose proof (is_select_rank_lt _ _ _ _ (Z.to_nat pos) Hq ltac:(lia)). lia. }
      destruct (unary_skip0_ok (hide l pos) e pos k q (uinv_hide e l pos Hp I) Hk Hq)
        as (e' & E & P & I').
      split.
      * exists e'. cbn [ustep].
        assert (E2 : unary_skip0 (pack l) e k = Ok e').
        { rewrite <- E. unfold unary_skip0.
          assert (Hl : length (pack (hide l pos)) = length (pack l)).
          { pose proof (zlen_pack_hide l pos Hp) as Z1. unfold zlen in Z1. lia. }
          destruct (shl _ _); cbn [bind]; auto. rewrite Hl.
          rewrite skip0_loop_hide; [reflexivity|auto|].
          pose proof I as (-> & _). cbn [fst]. lia. }
        rewrite E2. cbn [bind]. rewrite P. split; [reflexivity|]. apply uinv_unhide; auto.
      * unfold ugood. cbn [fst snd]. intros. apply Z.eqb_eq in H. lia.
    + cbn [andb]. split; [|discriminate]. apply (ustep_ok l e (pos, false)); auto. apply us_skip0; auto.
Qed.

Theorem unary_all l pos os rs : 0 <= pos < 64 * zlen (pack l) -> uact_run l (pos, false) os rs ->
  urun_from (canonical l) pos os = Ok rs.
Proof.
  intros Hp H. unfold urun_from. cbn [canonical bv_words].
  destruct (unary_new_ok l pos ltac:(lia) ltac:(dlia)) as (e & -> & I). cbn [bind].
  assert (G : ugood l (pos, false)) by discriminate.
  revert e I G. induction H as [|s o r s' os rs Hs H IH]; intros e I G; cbn [urun]; auto.
  destruct (uact_ok l e s o r s' I G Hs) as ((e' & -> & I') & G'). cbn [bind].
  rewrite (IH e' I' G'). reflexivity.
Qed.

Lemma unread_here a b : unread (a ++ true :: b) (zlen a, true) = a ++ false :: b.
Proof.
  unfold unread, zlen. cbn [fst snd]. rewrite Nat2Z.id. rewrite firstn_app, Nat.sub_diag, firstn_all. cbn [firstn].
  rewrite app_nil_r. f_equal. cbn [app]. f_equal. rewrite skipn_app.
  rewrite skipn_all2 by lia. replace (length a + 1 - length a)%nat with 1%nat by lia. reflexivity.
Qed.

Lemma at_zlen x a b : is_select x (a ++ x :: b) (rank x (a ++ x :: b) (length a)) (length a).
Proof. split; [|reflexivity]. rewrite nth_error_app2, Nat.sub_diag by lia. reflexivity. Qed.

Theorem skip0_after_next a b :
  urun_from (canonical (a ++ true :: b)) (zlen a) [UNext; USkip0 0] = Ok [zlen a; zlen a] /\
  forall k q, is_select false b k q ->
    urun_from (canonical (a ++ true :: b)) (zlen a) [UNext; USkip0 (Z.of_nat k + 1)] =
      Ok [zlen a; zlen a + 1 + Z.of_nat q].
Proof.
  assert (Hl : 0 <= zlen a < 64 * zlen (pack (a ++ true :: b))).
  { rewrite zlen_pack, zlen_app. change (zlen (true :: b)) with (Z.of_nat (S (length b))).
    unfold zlen. dlia. }
  assert (H1 : uact (a ++ true :: b) (zlen a, false) UNext (zlen a) (zlen a, true)).
  { pose proof (at_zlen true a b) as A. apply ua_next with (s := (zlen a, false)) (q := length a).
    unfold ustart. cbn [fst snd Z.b2z]. rewrite Z.add_0_r. unfold zlen. rewrite Nat2Z.id. exact A. }
  split.
  - apply unary_all; auto. eapply uar_cons; [exact H1|].
    eapply uar_cons; [|apply uar_nil].
    apply ua_skip0 with (k := 0) (q := length a); [lia|]. rewrite unread_here. cbn [fst].
    rewrite Nat.add_0_r. unfold zlen. rewrite Nat2Z.id. apply at_zlen.
  - intros k q Hq. apply unary_all; auto. eapply uar_cons; [exact H1|].
    eapply uar_cons; [|apply uar_nil].
    replace (zlen a + 1 + Z.of_nat q) with (Z.of_nat (length a + (1 + q))) by (unfold zlen; lia).
    apply ua_skip0; [lia|]. rewrite unread_here. cbn [fst]. unfold zlen. rewrite Nat2Z.id.
    rewrite rank_app1, rank_all by lia.
    replace (Z.to_nat (Z.of_nat k + 1)) with (1 + k)%nat by lia.
    change 1%nat with (count false [false]).
    apply (is_select_app2 false a (false :: b)). apply (is_select_app2 false [false] b). exact Hq.
Qed.
