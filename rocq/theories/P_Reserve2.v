(** The exact histories that stay defined when reserve moves the words of a builder. *)
From Verif Require Import Base Spec Lib M_Broadword M_BitVector S_BitVector P_BvLib P_Builder P_BitVector S_Reserve P_Reserve.


Definition cur_le (b : builder) : Prop := match b_cur b with Some (g, _) => g <= b_gen b | None => True end.
Definition cur_gone (b : builder) : Prop := match b_cur b with Some (g, _) => g < b_gen b | None => True end.

(** how the capacity and the pointer of a builder change *)
Definition crel (gr : growth) (b b' : builder) : Prop :=
  (zlen (b_bits b) <= b_cap b ->
    zlen (b_bits b') <= b_cap b' /\ b_cap b <= b_cap b' /\ zlen (b_bits b) <= zlen (b_bits b') /\
    (tight gr -> b_cap b' = Z.max (b_cap b) (zlen (b_bits b')))) /\
  (cur_le b -> cur_le b').
Lemma crel_refl gr b : crel gr b b.
Proof. split; [|auto]. intros H. repeat split; lia. Qed.
Lemma crel_trans gr a b c : crel gr a b -> crel gr b c -> crel gr a c.
Proof.
  intros (H1 & H2) (G1 & G2). split; [|auto]. intros H. destruct (H1 H) as (A1 & A2 & A3 & A4). destruct (G1 A1) as (B1 & B2 & B3 & B4).
  repeat split; try lia; intros E; rewrite (B4 E), (A4 E); lia.
Qed.
Lemma crel_bits gr b ws : zlen ws = zlen (b_bits b) -> crel gr b (with_bits b ws).
Proof. intros E. split; cbn [with_bits b_bits b_cap]; [|auto]. intros H. repeat split; lia. Qed.
Lemma crel_size gr b n : crel gr b (with_size b n).
Proof. exact (crel_refl gr b). Qed.
Lemma crel_back gr b : crel gr b (set_cur_back b).
Proof. split; [exact (proj1 (crel_refl gr b))|]. intros _. unfold cur_le. cbn. lia. Qed.
Lemma crel_push gr b w : crel gr b (v_push gr b w).
Proof.
  split.
  - intros H. pose proof (v_push_cap gr b w) as C. rewrite v_push_bits in *. rewrite zlen_app in *. change (zlen [w]) with 1 in *. split; [exact C|].
    unfold v_push, v_need. destruct (Z.leb_spec (zlen (b_bits b) + 1) (b_cap b)); cbn; repeat split; try lia; intros T; specialize (T (b_cap b) (zlen (b_bits b) + 1)); lia.
  - unfold cur_le, v_push, v_need. destruct (zlen (b_bits b) + 1 <=? b_cap b); cbn; destruct (b_cur b) as [[g i]|]; auto; lia.
Qed.
Lemma crel_grow gr b n : zlen (b_bits b) <= n -> crel gr b (v_grow gr b n).
Proof.
  intros Hn. split.
  - intros H. pose proof (v_grow_cap gr b n Hn) as C. rewrite v_grow_bits in *. rewrite zlen_app, zlen_repeat in *. split; [exact C|].
    unfold v_grow, v_need. destruct (Z.leb_spec n (b_cap b)); cbn; repeat split; try lia; intros T; specialize (T (b_cap b) n); lia.
  - unfold cur_le, v_grow, v_need. destruct (n <=? b_cap b); cbn; destruct (b_cur b) as [[g i]|]; auto; lia.
Qed.
Lemma wr_len (ws : list Z) i x ws' : wr ws i x = Ok ws' -> zlen ws' = zlen ws.
Proof. unfold wr. destruct (_ && _); [|discriminate]. intros [= <-]. apply zlen_upd. Qed.
Lemma mod_word_len ws i f ws' : mod_word ws i f = Ok ws' -> zlen ws' = zlen ws.
Proof. unfold mod_word. intros H. apply bind_inv in H. destruct H as (w & _ & H). eapply wr_len; eauto. Qed.
Lemma crel_or gr b x b' : cur_or b x = Ok b' -> crel gr b b'.
Proof.
  unfold cur_or. destruct (b_cur b) as [[g i]|]; [|discriminate]. destruct (g =? b_gen b); [|discriminate]. intros H.
  apply bind_inv in H. destruct H as (w & _ & H). apply bind_inv in H. destruct H as (ws & E & H). injection H as <-. apply crel_bits. eapply wr_len; eauto.
Qed.
Lemma push_crel gr b x b' : push_back gr b x = Ok b' -> crel gr b b'.
Proof.
  unfold push_back. intros H. cbv zeta in H. apply bind_inv in H. destruct H as (y & _ & H). apply bind_inv in H. destruct H as (b1 & E & H). injection H as <-.
  apply (crel_trans gr b (if b_size b mod 64 =? 0 then set_cur_back (v_push gr b 0) else b)).
  - destruct (b_size b mod 64 =? 0); [|apply crel_refl]. eapply crel_trans; [apply crel_push|apply crel_back].
  - eapply crel_trans; [eapply crel_or; eauto|apply crel_size].
Qed.
Lemma append_bits_crel gr b bits len b' : append_bits gr b bits len = Ok b' -> crel gr b b'.
Proof.
  unfold append_bits. intros H. apply bind_inv in H. destruct H as (ok & _ & H). destruct ok; [|discriminate].
  destruct (len =? 0); [injection H as <-; apply crel_refl|]. cbv zeta in H. set (b0 := with_size b (b_size b + len)) in *.
  apply (crel_trans gr b b0); [apply crel_size|]. destruct (b_size b mod 64 =? 0).
  - injection H as <-. eapply crel_trans; [apply crel_push|apply crel_back].
  - apply bind_inv in H. destruct H as (x & _ & H). apply bind_inv in H. destruct H as (b1 & E & H). apply (crel_trans gr b0 b1); [eapply crel_or; eauto|].
    destruct (64 - b_size b mod 64 <? len); [apply bind_inv in H; destruct H as (y & _ & H)|]; injection H as <-; [eapply crel_trans; [apply crel_push|]|]; apply crel_back.
Qed.
Lemma one_loop_crel gr : forall fuel b n b' m, one_extend_loop gr fuel b n = Ok (b', m) -> crel gr b b'.
Proof.
  induction fuel as [|fuel IH]; intros b n b' m H; cbn [one_extend_loop] in H; destruct (64 <=? n); try discriminate; try (injection H as <- <-; apply crel_refl).
  apply bind_inv in H. destruct H as (b1 & E & H). eapply crel_trans; [eapply append_bits_crel; eauto|eauto].
Qed.
Lemma one_crel gr b n b' : one_extend gr b n = Ok b' -> crel gr b b'.
Proof.
  unfold one_extend. intros H. apply bind_inv in H. destruct H as ([b1 m] & E & H). apply (crel_trans gr b b1); [eapply one_loop_crel; eauto|].
  destruct (m =? 0); [injection H as <-; apply crel_refl|]. apply bind_inv in H. destruct H as (x & _ & H). eapply append_bits_crel; eauto.
Qed.
Lemma append_loop_len : forall rhs ws cur s ws' c, append_loop ws cur s rhs = Ok (ws', c) -> zlen ws' = zlen ws.
Proof.
  induction rhs as [|w rhs IH]; intros ws cur s ws' c H; cbn [append_loop] in H; [injection H as <- <-; reflexivity|].
  apply bind_inv in H. destruct H as (x & _ & H). apply bind_inv in H. destruct H as (w1 & E1 & H). apply bind_inv in H. destruct H as (y & _ & H).
  apply bind_inv in H. destruct H as (w2 & E2 & H). rewrite (IH _ _ _ _ _ H), (wr_len _ _ _ _ E2). eapply mod_word_len; eauto.
Qed.
Lemma append_crel gr b c b' : zlen (b_bits b) <= words_for (b_size b + b_size c) -> append gr b c = Ok b' -> crel gr b b'.
Proof.
  intros Hn. unfold append. destruct (b_size c =? 0); [intros [= <-]; apply crel_refl|]. cbv zeta. cbn [with_size b_size b_bits].
  set (b0 := with_size b (b_size b + b_size c)). replace (words_for (b_size b + b_size c) <? zlen (b_bits b)) with false by lia.
  set (b1 := v_grow gr b0 _). assert (R : crel gr b b1) by (eapply crel_trans; [apply crel_size|apply crel_grow; exact Hn]). clearbody b1.
  intros H. destruct (b_size b mod 64 =? 0).
  - destruct (Z.leb_spec (zlen (b_bits b) + zlen (b_bits c)) (zlen (b_bits b1))) as [L|L]; [|discriminate]. injection H as <-.
    eapply crel_trans; [exact R|]. eapply crel_trans; [|apply crel_back]. apply crel_bits.
    pose proof (zlen_nonneg (b_bits b)). pose proof (zlen_nonneg (b_bits c)). rewrite !zlen_app, zlen_firstn, zlen_skipn. lia.
  - apply bind_inv in H. destruct H as (lw & _ & H). apply bind_inv in H. destruct H as ([ws cur] & E & H). apply bind_inv in H. destruct H as (x & _ & H).
    apply bind_inv in H. destruct H as (w1 & E1 & H). eapply crel_trans; [exact R|].
    assert (L1 : zlen w1 = zlen (b_bits b1)) by (rewrite (mod_word_len _ _ _ _ E1); eapply append_loop_len; eauto).
    destruct (cur <? zlen w1 - 1).
    + apply bind_inv in H. destruct H as (y & _ & H). apply bind_inv in H. destruct H as (w2 & E2 & H). injection H as <-.
      eapply crel_trans; [|apply crel_back]. apply crel_bits. rewrite (wr_len _ _ _ _ E2). exact L1.
    + injection H as <-. eapply crel_trans; [|apply crel_back]. apply crel_bits. exact L1.
Qed.

(** calls that do not look at the pointer *)
Lemma append_back gr b c : b_size c <> 0 -> append gr (set_cur_back b) (set_cur_back c) = append gr b c.
Proof.
  intros N. unfold append. cbn [set_cur_back b_size b_bits]. replace (b_size c =? 0) with false by lia. cbv zeta.
  unfold with_size, with_bits, set_cur_back, v_grow, v_need, with_bits. cbn [b_bits b_size b_cap b_gen b_cur].
  destruct (words_for (b_size b + b_size c) <? zlen (b_bits b)); [|destruct (words_for (b_size b + b_size c) <=? b_cap b)]; reflexivity.
Qed.
Ltac shape := repeat match goal with |- context [bind ?m _] => lazymatch m with bind _ _ => fail | Ok _ => fail | _ => destruct m; cbn [bind] end end; try reflexivity.
Lemma bset_shape pos x : exists f, forall b, bset b pos x = do ws <- f (b_bits b); Ok (with_bits b ws).
Proof.
  exists (fun bits => do m <- shl 1 (pos mod 64); do ws <- mod_word bits (pos / 64) (fun w => Z.land w (not64 m));
    do x' <- shl (Z.b2z x) (pos mod 64); mod_word ws (pos / 64) (fun w => Z.lor w x')).
  intros b. unfold bset. cbv zeta. shape.
Qed.
Lemma reverse_shape size : exists f, forall b, b_size b = size -> reverse b = do ws <- f (b_bits b); Ok (with_bits b ws).
Proof.
  exists (fun bits => do (ws, remainder) <- reverse_loop (64 - size mod 64) 0 bits; assert! (remainder =? 0); Ok (rev ws)).
  intros b <-. unfold reverse. destruct (reverse_loop _ _ _) as [[ws r]|]; cbn [bind]; [|reflexivity]. destruct (r =? 0); reflexivity.
Qed.
Lemma set_bits_shape pos bits len size : exists f, forall b, b_size b = size -> set_bits b pos bits len = do ws <- f (b_bits b); Ok (with_bits b ws).
Proof.
  exists (fun bs => do b <- set_bits (mk_builder bs size 0 0 None) pos bits len; Ok (b_bits b)).
  intros b E. unfold set_bits. cbn [b_size b_bits]. rewrite E. destruct (u64 (pos + len) <=? size); [|reflexivity].
  destruct (no_spurious bits len) as [[|]|]; cbn [bind]; try reflexivity. destruct (len =? 0); [destruct b; reflexivity|].
  destruct (if len =? 64 then _ else _); cbn [bind]; [|reflexivity]. destruct (shl _ _); cbn [bind]; [|reflexivity].
  destruct (mod_word _ _ _); cbn [bind]; [|reflexivity]. destruct (shl _ _); cbn [bind]; [|reflexivity]. destruct (mod_word _ _ _); cbn [bind]; [|reflexivity].
  destruct (_ <? _); cbn [bind]; [|reflexivity]. destruct (shr _ _); cbn [bind]; [|reflexivity]. destruct (mod_word _ _ _); cbn [bind]; [|reflexivity].
  destruct (shr _ _); cbn [bind]; [|reflexivity]. destruct (mod_word _ _ _); cbn [bind]; reflexivity.
Qed.

(** ** the invariant *)
Definition rinv (gr : growth) (b : builder) (x : sbuilder) : Prop :=
  binv (set_cur_back b) (sq x) /\ s_cap x <= b_cap b /\ cur_le b /\ (s_moved x = false -> binv b (sq x)) /\
  (tight gr -> s_cap x = b_cap b /\ (s_moved x = true -> cur_gone b)).

Lemma binv_to_back b l : binv b l -> binv (set_cur_back b) l.
Proof. intros (H1 & H2 & H3 & _). apply binv_back; auto. Qed.
Lemma rinv_len gr b x : rinv gr b x -> b_size b = zlen (sq x) /\ zlen (b_bits b) = words (zlen (sq x)) /\ zlen (b_bits b) <= b_cap b.
Proof. intros ((H1 & (_ & H2 & _) & H3 & _) & _). auto. Qed.
Lemma rinv_use gr b x : rinv gr b x -> s_moved x && negb (zlen (sq x) mod 64 =? 0) = false -> binv b (sq x).
Proof.
  intros (H & _ & _ & H4 & _) M. destruct (s_moved x); [|auto]. cbn in M. apply negb_false_iff, Z.eqb_eq in M.
  destruct H as (H1 & H2 & H3 & _). split; [exact H1|]. split; [exact H2|]. split; [exact H3|]. intros N. contradiction.
Qed.
Lemma gone_or b c : cur_gone b -> cur_or b c = Ub Dangling.
Proof. unfold cur_gone, cur_or. destruct (b_cur b) as [[g i]|]; [|reflexivity]. intros G. replace (g =? b_gen b) with false by lia. reflexivity. Qed.
Lemma rinv_gone gr b x : rinv gr b x -> tight gr -> s_moved x = true -> cur_gone b.
Proof. intros (_ & _ & _ & _ & H5) T M. exact (proj2 (H5 T) M). Qed.
Lemma rinv_reset gr b x b' l' : rinv gr b x -> crel gr b b' -> binv b' l' -> rinv gr b' (reset x l').
Proof.
  intros H (C1 & C2) B. pose proof (rinv_len _ _ _ H) as (_ & _ & L). destruct H as (_ & H2 & H3 & _ & H5). destruct (C1 L) as (A1 & A2 & A3 & A4).
  assert (E : zlen (b_bits b') = words (zlen l')) by (destruct B as (_ & (_ & E & _) & _); exact E).
  split; [apply binv_to_back; exact B|]. unfold reset. cbn [sq s_cap s_moved]. split; [lia|]. split; [auto|]. split; [auto|].
  intros T. split; [|discriminate]. rewrite (A4 T), E. destruct (H5 T) as (-> & _). reflexivity.
Qed.
Lemma rinv_keep gr b x ws l' : rinv gr b x -> words_ok ws l' -> zlen l' = zlen (sq x) -> rinv gr (with_bits b ws) (keep x l').
Proof.
  intros (H1 & H2 & H3 & H4 & H5) Hw E. split; [|split; [|split; [|split]]]; cbn [keep sq s_cap s_moved]; auto.
  - apply (binv_with_bits _ _ ws l') in H1; auto. destruct H1 as (A & B & C & _). apply binv_back; auto.
  - intros M. apply binv_with_bits with (l := sq x); auto.
Qed.
Lemma shape_keep gr b x (f : list Z -> res (list Z)) g l' : rinv gr b x -> (forall b0, b_size b0 = b_size b -> g b0 = do ws <- f (b_bits b0); Ok (with_bits b0 ws)) ->
  (exists b', g (set_cur_back b) = Ok b' /\ binv b' l') -> zlen l' = zlen (sq x) -> exists b', g b = Ok b' /\ rinv gr b' (keep x l').
Proof.
  intros H S (b' & E & B) L. rewrite S in E by reflexivity. cbn [set_cur_back b_bits] in E. apply bind_inv in E. destruct E as (ws & E & E'). injection E' as <-.
  exists (with_bits b ws). split; [rewrite S, E by reflexivity; reflexivity|]. apply rinv_keep; auto. apply B.
Qed.

Definition rsinv gr (st : nat -> builder) (s : nat -> sbuilder) : Prop := forall i, rinv gr (st i) (s i).
Lemma rsinv_put gr st s i b x : rsinv gr st s -> rinv gr b x -> rsinv gr (put st i b) (put s i x).
Proof. intros H Hb j. unfold put. destruct (Nat.eqb j i); auto. Qed.
Lemma put_same {A} (f : nat -> A) i x : put f i x i = x.
Proof. unfold put. rewrite Nat.eqb_refl. reflexivity. Qed.

Lemma words_eq n : words_for n = words n.
Proof. unfold words_for, ceil_div, words. f_equal. lia. Qed.

Lemma rstep_ok gr st s o : rsinv gr st s -> pre (fun i => sq (s i)) o -> moved_write s o = false ->
  exists st', step gr st o = Ok st' /\ rsinv gr st' (cap_step s o).
Proof.
  intros H L M. destruct o; cbn [step cap_step pre legal moved_write spec_step] in *; cbv zeta; rewrite ?put_same.
  - destruct L as (L & _). destruct (new_builder_ok size init L) as (b & E & I). rewrite E. cbn [bind]. eexists. split; [reflexivity|]. apply rsinv_put; auto.
    assert (C : b_cap b = words size /\ cur_le b).
    { clear - E. unfold new_builder in E. destruct (size =? 0) eqn:Z0; [injection E as <-; cbn; split; [apply words_eq|exact I]|].
      destruct (init && negb (size mod 64 =? 0)).
      - apply bind_inv in E. destruct E as (w & _ & E). apply bind_inv in E. destruct E as (w' & _ & E). apply bind_inv in E. destruct E as (ws & _ & E). injection E as <-.
        split; [apply words_eq|]. unfold cur_le. cbn. lia.
      - injection E as <-. split; [apply words_eq|]. unfold cur_le. cbn. lia. }
    destruct C as (C1 & C2). split; [apply binv_to_back; exact I|]. cbn [sq s_cap s_moved]. split; [lia|]. split; [exact C2|]. split; [auto|].
    intros _. split; [lia|discriminate].
  - eexists. split; [reflexivity|]. apply rsinv_put; auto. destruct (H i) as (H1 & H2 & H3 & H4 & H5). unfold reserve, v_need. rewrite words_eq.
    destruct (Z.leb_spec (words n) (b_cap (st i))) as [G|G].
    + split; [exact H1|]. cbn [sq s_cap s_moved]. split; [lia|]. split; [exact H3|]. split.
      * intros X. apply orb_false_iff in X. apply H4. apply X.
      * intros T. destruct (H5 T) as (A & B). split; [lia|]. intros X. apply orb_true_iff in X. destruct X as [X|X]; [auto|]. apply Z.ltb_lt in X. lia.
    + assert (X : s_cap (s i) <? words n = true) by (apply Z.ltb_lt; lia). rewrite X, orb_true_r. cbn [sq s_cap s_moved].
      split; [destruct H1 as (A & B & C & _); cbn [set_cur_back b_bits b_cap] in C; apply binv_back; cbn [b_bits b_cap b_size]; auto; clear - C G; lia|]. cbn [b_cap s_cap sq s_moved]. split; [lia|].
      assert (G' : cur_gone (mk_builder (b_bits (st i)) (b_size (st i)) (Z.max (words n) (gr (b_cap (st i)) (words n))) (b_gen (st i) + 1) (b_cur (st i)))).
      { unfold cur_gone, cur_le in *. cbn. destruct (b_cur (st i)) as [[g k]|]; auto; lia. }
      split; [unfold cur_gone, cur_le in *; cbn [b_cur b_gen] in *; destruct (b_cur (st i)) as [[g k]|]; auto; lia|]. split; [discriminate|].
      intros T. destruct (H5 T) as (A & _). split; [|auto]. specialize (T (b_cap (st i)) (words n)). lia.
  - destruct (push_back_ok gr _ _ b (rinv_use _ _ _ (H i) M)) as (b1 & E & I). rewrite E. cbn [bind]. eexists. split; [reflexivity|].
    apply rsinv_put; auto. eapply rinv_reset; eauto. eapply push_crel; eauto.
  - destruct (bset_shape pos b) as (f & F). destruct (shape_keep gr (st i) (s i) f (fun b0 => bset b0 pos b) (firstn (Z.to_nat pos) (sq (s i)) ++ [b] ++ skipn (Z.to_nat pos + 1) (sq (s i)))) as (b1 & E & I); auto.
    + apply bset_ok; auto. apply H.
    + rewrite !zlen_app, zlen_firstn, zlen_skipn. change (zlen [b]) with 1. lia.
    + rewrite E. cbn [bind]. eexists. split; [reflexivity|]. apply rsinv_put; auto.
  - destruct L as (L1 & L2 & L3 & L4). destruct (set_bits_shape pos bits len (b_size (st i))) as (f & F).
    destruct (shape_keep gr (st i) (s i) f (fun b0 => set_bits b0 pos bits len) (firstn (Z.to_nat pos) (sq (s i)) ++ bits_of (Z.to_nat len) bits ++ skipn (Z.to_nat pos + Z.to_nat len) (sq (s i)))) as (b1 & E & I); auto.
    + apply set_bits_ok; auto. apply H.
    + rewrite !zlen_app, zlen_firstn, zlen_skipn. unfold zlen at 2. rewrite bits_of_length. lia.
    + rewrite E. cbn [bind]. eexists. split; [reflexivity|]. apply rsinv_put; auto.
  - destruct L as (L1 & L2 & _). destruct (Z.eqb_spec len 0) as [->|N].
    + unfold append_bits. rewrite no_spurious_ok by auto. cbn [bind]. rewrite assert_true by reflexivity. cbn [Z.eqb bind]. eexists. split; [reflexivity|]. apply rsinv_put; auto.
    + replace (negb false) with true in M by reflexivity. rewrite andb_true_r in M. destruct (append_bits_ok gr _ _ bits len (rinv_use _ _ _ (H i) M) L1 L2) as (b1 & E & I). rewrite E. cbn [bind].
      eexists. split; [reflexivity|]. apply rsinv_put; auto. eapply rinv_reset; eauto. eapply append_bits_crel; eauto.
  - destruct L as (L1 & L2). pose proof (rinv_len _ _ _ (H i)) as (S1 & S2 & S3). set (l' := sq (s i) ++ repeat false (Z.to_nat n)).
    assert (EL : zlen l' = zlen (sq (s i)) + n) by (unfold l'; rewrite zlen_app, zlen_repeat; lia).
    destruct (zero_extend_ok gr _ _ n (proj1 (H i)) L1 L2) as (b0 & E0 & I0). fold l' in I0. unfold zero_extend in *. cbn [set_cur_back with_size b_size b_bits] in *.
    assert (EN : u64 (words_for (b_size (st i) + n) - zlen (b_bits (st i))) = words (zlen l') - words (zlen (sq (s i)))).
    { rewrite S1, S2, words_eq, EL. pose proof (zlen_nonneg (sq (s i))). unfold fits in L2. apply u64_small. unfold words. clear - H0 L1 L2. dlia. }
    rewrite EN in *. destruct (Z.eqb_spec (words (zlen l')) (words (zlen (sq (s i))))) as [D|D].
    + replace (words (zlen l') - words (zlen (sq (s i))) =? 0) with true in * by lia. injection E0 as <-. cbn [bind].
      eexists. split; [reflexivity|]. apply rsinv_put; auto. destruct (H i) as (H1 & H2 & H3 & H4 & H5).
      split; [exact I0|]. cbn [keep sq s_cap s_moved]. split; [exact H2|]. split; [exact H3|]. split; [|exact H5].
      intros X. destruct (H4 X) as (A & B & C & F). destruct I0 as (A' & B' & C' & F'). split; [exact A'|]. split; [exact B'|]. split; [exact C'|].
      intros N. cbn [with_size b_cur b_gen b_bits]. destruct (Z.eq_dec (zlen (sq (s i)) mod 64) 0) as [Y|Y]; [|apply F; exact Y].
      exfalso. clear - D Y N EL L1. unfold words in D. rewrite EL in *. dlia.
    + replace (words (zlen l') - words (zlen (sq (s i))) =? 0) with false in * by lia. injection E0 as E0. cbn [bind]. eexists. split; [reflexivity|]. apply rsinv_put; auto.
      assert (EE : set_cur_back (v_grow gr (with_size (st i) (b_size (st i) + n)) (zlen (b_bits (st i)) + (words (zlen l') - words (zlen (sq (s i)))))) = b0).
      { rewrite <- E0. unfold v_grow, v_need, with_bits, with_size, set_cur_back. cbn [b_bits b_size b_cap b_gen b_cur]. destruct (_ <=? _); reflexivity. }
      rewrite EE. eapply rinv_reset; eauto. rewrite <- EE. eapply crel_trans; [apply crel_size|]. eapply crel_trans; [|apply crel_back]. apply crel_grow. cbn [with_size b_bits].
      clear - D EL L1. unfold words in *. dlia.
  - destruct L as (L1 & L2). destruct (Z.eqb_spec n 0) as [->|N].
    + unfold one_extend. cbn. eexists. split; [reflexivity|]. apply rsinv_put; auto.
    + replace (negb false) with true in M by reflexivity. rewrite andb_true_r in M. destruct (one_extend_ok gr _ _ n (rinv_use _ _ _ (H i) M) L1) as (b1 & E & I). rewrite E. cbn [bind].
      eexists. split; [reflexivity|]. apply rsinv_put; auto. eapply rinv_reset; eauto. eapply one_crel; eauto.
  - destruct L as (L1 & L2). pose proof (rinv_len _ _ _ (H i)) as (S1 & S2 & S3). pose proof (rinv_len _ _ _ (H j)) as (T1 & _ & _).
    destruct (Z.eqb_spec (zlen (sq (s j))) 0) as [D|D].
    + unfold append. replace (b_size (st j) =? 0) with true by lia. cbn [bind]. eexists. split; [reflexivity|]. apply rsinv_put; auto.
    + destruct (append_ok gr _ _ _ _ (proj1 (H i)) (proj1 (H j))) as (b1 & E & I). rewrite append_back in E by lia. rewrite E. cbn [bind].
      eexists. split; [reflexivity|]. apply rsinv_put; auto. eapply rinv_reset; eauto. eapply append_crel; [|exact E].
      rewrite S2, S1, T1, words_eq. pose proof (zlen_nonneg (sq (s j))) as X. clear - X. unfold words. dlia.
  - destruct (reverse_shape (b_size (st i))) as (f & F). destruct (shape_keep gr (st i) (s i) f reverse (rev (sq (s i)))) as (b1 & E & I); auto.
    + apply reverse_ok. apply H.
    + unfold zlen. rewrite rev_length. reflexivity.
    + rewrite E. cbn [bind]. eexists. split; [reflexivity|]. apply rsinv_put; auto.
  - rewrite builder_swap_ok. eexists. split; [reflexivity|]. repeat apply rsinv_put; auto.
Qed.

Lemma rsinv0 gr : rsinv gr builders0 sbuilders0.
Proof.
  intros i. pose proof (sinv0 i) as B. split; [apply binv_to_back; exact B|]. cbn. split; [lia|]. split; [exact I|]. split; [intros _; exact B|]. intros _. split; [reflexivity|discriminate].
Qed.
Lemma rrun_ok gr os : forall st s, rsinv gr st s -> safe_run s os -> exists st', run gr st os = Ok st' /\ rsinv gr st' (cap_run s os).
Proof.
  induction os as [|o os IH]; intros st s H L; cbn [run cap_run safe_run] in *; [eauto|].
  destruct L as (L1 & L2 & L3). destruct (rstep_ok gr st s o H L1 L2) as (st1 & -> & H1). cbn [bind]. eauto.
Qed.

(** the sequences are those of the calls *)
Lemma spec_step_ext s t o : (forall i, s i = t i) -> forall i, spec_step s o i = spec_step t o i.
Proof.
  intros E i. destruct o; cbn [spec_step]; unfold put; repeat match goal with |- context [Nat.eqb ?a ?b] => destruct (Nat.eqb a b) end; rewrite ?E; reflexivity.
Qed.
Lemma spec_run_ext os : forall s t, (forall i, s i = t i) -> forall i, spec_run s os i = spec_run t os i.
Proof. induction os as [|o os IH]; intros s t E i; cbn [spec_run]; [apply E|]. apply IH. apply spec_step_ext. exact E. Qed.
Lemma put_ext {A B} (g : A -> B) (f : nat -> A) i x j : g (put f i x j) = put (fun k => g (f k)) i (g x) j.
Proof. unfold put. destruct (Nat.eqb j i); reflexivity. Qed.
Lemma put_id {A} (f : nat -> A) i x j : x = f i -> put f i x j = f j.
Proof. intros ->. unfold put. destruct (Nat.eqb_spec j i) as [->|]; reflexivity. Qed.
Lemma cap_step_sq s o i : sq (cap_step s o i) = spec_step (fun i => sq (s i)) o i.
Proof.
  destruct o; cbn [cap_step spec_step]; cbv zeta; rewrite ?put_same; try (rewrite (put_ext sq); reflexivity).
  - rewrite (put_ext sq). apply (put_id (fun k => sq (s k))). reflexivity.
  - destruct (Z.eqb_spec len 0) as [->|N]; rewrite (put_ext sq); [|reflexivity]. cbn [Z.to_nat bits_of]. rewrite app_nil_r. reflexivity.
  - destruct (_ =? _); rewrite (put_ext sq); reflexivity.
  - destruct (Z.eqb_spec n 0) as [->|N]; rewrite (put_ext sq); [|reflexivity]. cbn [Z.to_nat repeat]. rewrite app_nil_r. reflexivity.
  - destruct (Z.eqb_spec (zlen (sq (s j))) 0) as [E|N]; rewrite (put_ext sq); [|reflexivity].
    replace (sq (s j)) with (@nil bool) by (destruct (sq (s j)); [reflexivity|rewrite zlen_cons in E; pose proof (zlen_nonneg l); lia]). rewrite app_nil_r. reflexivity.
  - unfold put. destruct (Nat.eqb i j); [reflexivity|]. destruct (Nat.eqb i i0); reflexivity.
Qed.
Lemma cap_run_sq os : forall s t, (forall i, sq (s i) = t i) -> forall i, sq (cap_run s os i) = spec_run t os i.
Proof.
  induction os as [|o os IH]; intros s t E i; cbn [cap_run spec_run]; [apply E|]. apply IH. intros j. rewrite cap_step_sq. apply spec_step_ext. exact E.
Qed.
Lemma legal_ext s t o : (forall i, s i = t i) -> legal s o -> legal t o.
Proof. intros E. destruct o; cbn [legal]; rewrite <- ?E; auto. Qed.
Lemma pre_ext s t o : (forall i, s i = t i) -> pre s o -> pre t o.
Proof. intros E. destruct o; cbn [pre]; auto; apply legal_ext; exact E. Qed.

Lemma pre_run_ext os : forall s t, (forall i, s i = t i) -> pre_run s os -> pre_run t os.
Proof.
  induction os as [|o os IH]; intros s t E H; cbn [pre_run] in *; [exact I|]. destruct H as (H1 & H2). split; [eapply pre_ext; eauto|].
  eapply IH; [|exact H2]. apply spec_step_ext. exact E.
Qed.
Lemma safe_dec os : forall s, pre_run (fun i => sq (s i)) os -> ~ ~ safe_run s os -> safe_run s os.
Proof.
  induction os as [|o os IH]; intros s P N; cbn [pre_run safe_run] in *; [exact I|]. destruct P as (P1 & P2).
  destruct (moved_write s o) eqn:M; [elim N; intros (_ & X & _); congruence|]. split; [exact P1|]. split; [reflexivity|]. apply IH.
  - eapply pre_run_ext; [|exact P2]. intros i. symmetry. apply cap_step_sq.
  - intros X. apply N. intros (_ & _ & Y). auto.
Qed.

Theorem reserve_histories : forall gr os, safe_run sbuilders0 os -> exists st, run gr builders0 os = Ok st /\
  forall i, bv_of_builder (st i) = Ok (canonical (spec_run seqs0 os i)).
Proof.
  intros gr os H. destruct (rrun_ok gr os _ _ (rsinv0 gr) H) as (st & E & I). exists st. split; [exact E|]. intros i.
  rewrite <- (cap_run_sq os sbuilders0 seqs0 (fun _ => eq_refl) i). exact (binv_bv _ _ (proj1 (I i))).
Qed.

Lemma append_bits_bad gr b x bits len : tight gr -> rinv gr b x -> s_moved x = true -> zlen (sq x) mod 64 <> 0 -> 0 < len <= 64 -> 0 <= bits < 2 ^ len ->
  append_bits gr b bits len = Ub Dangling.
Proof.
  intros T H M N L1 L2. pose proof (rinv_len _ _ _ H) as (S & _ & _). unfold append_bits. rewrite no_spurious_ok by lia. cbn [bind]. rewrite assert_true by reflexivity.
  replace (len =? 0) with false by lia. cbv zeta. rewrite S. replace (zlen (sq x) mod 64 =? 0) with false by lia.
  rewrite shl_ok by (pose proof (Z.mod_pos_bound (zlen (sq x)) 64 ltac:(lia)); lia). cbn [bind].
  rewrite gone_or; [reflexivity|exact (rinv_gone gr b x H T M)].
Qed.
Lemma rstep_bad gr st s o : tight gr -> rsinv gr st s -> pre (fun i => sq (s i)) o -> moved_write s o = true -> step gr st o = Ub Dangling.
Proof.
  intros T H L M. destruct o; cbn [step pre legal moved_write] in *; try discriminate.
  - apply andb_true_iff in M. destruct M as (M & N). apply negb_true_iff, Z.eqb_neq in N. pose proof (rinv_len _ _ _ (H i)) as (S & _ & _).
    unfold push_back. cbv zeta. rewrite S. replace (zlen (sq (s i)) mod 64 =? 0) with false by lia. rewrite shl_ok by (pose proof (Z.mod_pos_bound (zlen (sq (s i))) 64 ltac:(lia)); lia).
    cbn [bind]. rewrite gone_or; [reflexivity|exact (rinv_gone _ _ _ (H i) T M)].
  - apply andb_true_iff in M. destruct M as (M & D). apply andb_true_iff in M. destruct M as (M & N). apply negb_true_iff, Z.eqb_neq in D, N. destruct L as (L1 & L2 & _).
    rewrite (append_bits_bad _ _ _ _ _ T (H i) M N) by lia. reflexivity.
  - apply andb_true_iff in M. destruct M as (M & D). apply andb_true_iff in M. destruct M as (M & N). apply negb_true_iff, Z.eqb_neq in D, N. destruct L as (L1 & L2).
    unfold one_extend. destruct (Z.leb_spec 64 n) as [G|G].
    + destruct (Z.to_nat (n / 64)) as [|k] eqn:K; [dlia|]. cbn [one_extend_loop]. replace (64 <=? n) with true by lia.
      rewrite (append_bits_bad _ _ _ _ _ T (H i) M N) by lia. reflexivity.
    + rewrite Z.div_small by lia. change (Z.to_nat 0) with 0%nat. cbn [one_extend_loop]. replace (64 <=? n) with false by lia. cbn [bind]. replace (n =? 0) with false by lia.
      rewrite shr_ok by lia. cbn [bind]. rewrite (append_bits_bad _ _ _ _ _ T (H i) M N); [reflexivity|lia|].
      apply shiftr_range; try lia. replace (n + (64 - n)) with 64 by lia. lia.
Qed.
Lemma rrun_bad gr : tight gr -> forall os st s, rsinv gr st s -> pre_run (fun i => sq (s i)) os -> ~ safe_run s os -> run gr st os = Ub Dangling.
Proof.
  intros T. induction os as [|o os IH]; intros st s H P N; cbn [run pre_run safe_run] in *; [elim N; exact I|]. destruct P as (P1 & P2).
  destruct (moved_write s o) eqn:M; [rewrite (rstep_bad gr st s o T H P1 M); reflexivity|].
  destruct (rstep_ok gr st s o H P1 M) as (st1 & -> & H1). cbn [bind]. apply (IH _ (cap_step s o)); auto.
  - eapply pre_run_ext; [|exact P2]. intros i. symmetry. apply cap_step_sq.
Qed.
Theorem reserve_histories_bad : forall gr os, tight gr -> pre_run seqs0 os -> ~ safe_run sbuilders0 os -> run gr builders0 os = Ub Dangling.
Proof. intros gr os T P N. exact (rrun_bad gr T os _ _ (rsinv0 gr) P N). Qed.
Theorem reserve_portable : forall os, pre_run seqs0 os ->
  (safe_run sbuilders0 os <-> forall gr, exists st, run gr builders0 os = Ok st).
Proof.
  intros os P. split.
  - intros S gr. destruct (reserve_histories gr os S) as (st & E & _). eauto.
  - intros H. destruct (H (fun _ n => n)) as (st & E). apply safe_dec; [exact P|]. intros N.
    rewrite (reserve_histories_bad _ os (fun c n => Z.le_refl n) P N) in E. discriminate.
Qed.
