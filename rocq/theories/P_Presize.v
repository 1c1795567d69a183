(** What the builders reserve is enough for what they are told to expect. *)
From Verif Require Import P_Cartesian.
From Verif Require Import Base Spec Lib P_BvLib M_Broadword M_BitVector M_EliasFano M_Cartesian
  S_BitVector S_EliasFano S_Presize P_Builder P_EliasFano P_EliasFano2 P_Broadword2.

(** the words of [b] are those its size needs *)
Definition jinv (b : builder) : Prop := 0 <= b_size b /\ zlen (b_bits b) = (b_size b + 63) / 64.

(** [b'] comes from [b] by calls that add bits; the words have not moved if there was room *)
Definition grows (b b' : builder) : Prop :=
  jinv b -> jinv b' /\ b_size b <= b_size b' /\
  ((b_size b' + 63) / 64 <= b_cap b -> b_gen b' = b_gen b /\ b_cap b' = b_cap b).

Lemma grows_refl b : grows b b.
Proof. intros J. split; auto. split; [lia|auto]. Qed.

Lemma grows_trans a b c : grows a b -> grows b c -> grows a c.
Proof.
  intros H1 H2 J. destruct (H1 J) as (Jb & L1 & F1). destruct (H2 Jb) as (Jc & L2 & F2).
  split; auto. split; [lia|]. intros C.
  destruct F1 as (G1 & C1); [clear - C L2; dlia|]. rewrite <- C1 in C.
  destruct (F2 C) as (G2 & C2). split; congruence.
Qed.

Lemma v_push_room gr b w : zlen (b_bits b) + 1 <= b_cap b ->
  b_gen (v_push gr b w) = b_gen b /\ b_cap (v_push gr b w) = b_cap b.
Proof.
  intros H. unfold v_push, v_need. destruct (Z.leb_spec (zlen (b_bits b) + 1) (b_cap b)); [|lia].
  split; reflexivity.
Qed.

Lemma cur_or_fields b x b' : cur_or b x = Ok b' ->
  zlen (b_bits b') = zlen (b_bits b) /\ b_size b' = b_size b /\ b_gen b' = b_gen b /\ b_cap b' = b_cap b.
Proof.
  unfold cur_or. destruct (b_cur b) as [[g i]|]; [|discriminate].
  destruct (g =? b_gen b); [|discriminate].
  destruct (rd _ _); cbn [bind]; [|discriminate].
  destruct (wr _ _ _) as [ws|] eqn:E; cbn [bind]; [|discriminate]. intros X. injection X as <-.
  cbn. split; auto. unfold wr in E. destruct (_ && _); [|discriminate]. injection E as <-.
  apply zlen_upd.
Qed.

Lemma push_back_grows gr b x b' : push_back gr b x = Ok b' -> grows b b'.
Proof.
  unfold push_back. cbv zeta. intros E (J0 & J1).
  destruct (shl _ _) as [y|]; cbn [bind] in E; [|discriminate].
  destruct (cur_or _ _) as [b1|] eqn:C; cbn [bind] in E; [|discriminate]. injection E as <-.
  apply cur_or_fields in C. destruct C as (C1 & C2 & C3 & C4). unfold jinv. cbn [b_size with_size b_bits b_gen b_cap].
  destruct (Z.eqb_spec (b_size b mod 64) 0) as [Z|Z].
  - cbn [b_size b_bits b_gen b_cap set_cur_back] in *. rewrite v_push_size in C2.
    rewrite v_push_bits, zlen_app in C1. change (zlen [0]) with 1 in C1.
    rewrite C2, C1, C3, C4. split; [split; [lia|clear - J0 J1 Z; dlia]|]. split; [lia|].
    intros R. apply v_push_room. clear - J0 J1 Z R. dlia.
  - rewrite C2, C1, C3, C4. split; [split; [lia|clear - J0 J1 Z; dlia]|]. split; [lia|auto].
Qed.

Lemma append_bits_grows gr b bits len b' : 0 <= len <= 64 -> append_bits gr b bits len = Ok b' -> grows b b'.
Proof.
  intros Hl E (J0 & J1). revert E. unfold append_bits.
  destruct (no_spurious bits len) as [[|]|]; cbn [bind assert_]; try discriminate.
  destruct (Z.eqb_spec len 0) as [|Hn]; [intros E; injection E as <-; apply grows_refl; split; auto|].
  cbv zeta. unfold jinv.
  destruct (Z.eqb_spec (b_size b mod 64) 0) as [Z|Z].
  - intros E. injection E as <-. cbn [b_size b_bits b_gen b_cap set_cur_back].
    rewrite v_push_size, v_push_bits, zlen_app. change (zlen [bits]) with 1.
    cbn [b_size b_bits with_size]. split; [split; [lia|clear - J0 J1 Z Hl Hn; dlia]|]. split; [lia|].
    intros R. apply (v_push_room gr (with_size b (b_size b + len)) bits).
    cbn [b_size b_bits with_size b_cap]. clear - J0 J1 Z R Hl Hn. dlia.
  - destruct (shl _ _) as [y|]; cbn [bind]; [|discriminate].
    destruct (cur_or _ _) as [z|] eqn:C; cbn [bind]; [|discriminate].
    apply cur_or_fields in C. cbn [b_size b_bits with_size b_cap b_gen] in C.
    destruct C as (C1 & C2 & C3 & C4).
    destruct (Z.ltb_spec (64 - b_size b mod 64) len) as [G|G].
    + destruct (shr _ _) as [w|]; cbn [bind]; [|discriminate]. intros E. injection E as <-.
      cbn [b_size b_bits b_gen b_cap set_cur_back].
      rewrite v_push_size, v_push_bits, zlen_app. change (zlen [w]) with 1. rewrite C1, C2.
      split; [split; [lia|clear - J0 J1 Z Hl Hn G; dlia]|]. split; [lia|].
      intros R. rewrite <- C3, <- C4. apply v_push_room. rewrite C1, C4.
      clear - J0 J1 Z R Hl Hn G. dlia.
    + intros E. injection E as <-. cbn [b_size b_bits b_gen b_cap set_cur_back].
      rewrite C1, C2, C3, C4.
      split; [split; [lia|clear - J0 J1 Z Hl Hn G; dlia]|]. split; [lia|auto].
Qed.

Lemma reserve_room gr b size : words_for size <= b_cap (reserve gr b size).
Proof. apply v_need_cap. Qed.

Lemma push_back_size gr b x b' : push_back gr b x = Ok b' -> b_size b' = b_size b + 1.
Proof.
  unfold push_back. cbv zeta. intros P.
  destruct (shl _ _) as [w|]; cbn [bind] in P; [|discriminate].
  destruct (cur_or _ _) as [b2|] eqn:C; cbn [bind] in P; [|discriminate]. injection P as <-.
  apply cur_or_fields in C. destruct C as (_ & C2 & _). cbn [b_size with_size]. rewrite C2.
  destruct (_ =? 0); cbn [b_size set_cur_back]; rewrite ?v_push_size; lia.
Qed.

Lemma bset_fields b pos x b' : bset b pos x = Ok b' -> b_gen b' = b_gen b /\ b_cap b' = b_cap b.
Proof.
  unfold bset. cbv zeta. intros P.
  destruct (shl 1 _) as [w|]; cbn [bind] in P; [|discriminate].
  destruct (mod_word _ _ _) as [ws|]; cbn [bind] in P; [|discriminate].
  destruct (shl _ _) as [w'|]; cbn [bind] in P; [|discriminate].
  destruct (mod_word _ _ _) as [ws'|]; cbn [bind] in P; [|discriminate]. injection P as <-. auto.
Qed.

Lemma reverse_fields b b' : reverse b = Ok b' ->
  b_gen b' = b_gen b /\ b_cap b' = b_cap b /\ b_size b' = b_size b.
Proof.
  unfold reverse. cbv zeta. intros P.
  destruct (reverse_loop _ _ _) as [[ws r]|]; cbn [bind] in P; [|discriminate].
  unfold assert_ in P. destruct (r =? 0); [|discriminate]. injection P as <-. auto.
Qed.

Lemma reserve_exact gr b size : (forall c n, gr c n <= n) -> b_cap b <= words_for size ->
  b_cap (reserve gr b size) = words_for size.
Proof.
  intros G H. unfold reserve, v_need. destruct (Z.leb_spec (words_for size) (b_cap b)); [lia|].
  cbn [b_cap]. specialize (G (b_cap b) (words_for size)). lia.
Qed.

Lemma jinv_reserve gr b size : jinv b -> jinv (reserve gr b size).
Proof. unfold jinv, reserve. rewrite v_need_bits, v_need_size. auto. Qed.

(** ** cartesian_tree::builder *)
Section cartesian.
Context {T : Type} (comp : T -> T -> bool).

Lemma cb_pop_grows gr x : forall s b s' b', cb_pop gr comp x s b = Ok (s', b') ->
  grows b b' /\ b_size b' + zlen s' = b_size b + zlen s.
Proof.
  induction s as [|y s IH]; intros b s' b' E; cbn [cb_pop] in E.
  - injection E as <- <-. split; [apply grows_refl|auto].
  - destruct (comp x y).
    + destruct (push_back gr b true) as [b1|] eqn:P; cbn [bind] in E; [|discriminate].
      destruct (IH _ _ _ E) as (G & Z). split; [eapply grows_trans; [eapply push_back_grows; eauto|auto]|].
      rewrite zlen_cons. apply push_back_size in P. lia.
    + injection E as <- <-. split; [apply grows_refl|auto].
Qed.

Lemma cb_pushes_grows gr : forall v c c', cb_pushes gr comp c v = Ok c' ->
  grows (cb_bp c) (cb_bp c') /\
  b_size (cb_bp c') + zlen (cb_stack c') = b_size (cb_bp c) + zlen (cb_stack c) + 2 * zlen v.
Proof.
  induction v as [|x v IH]; intros c c' E; cbn [cb_pushes] in E.
  - injection E as <-. split; [apply grows_refl|]. change (zlen (@nil T)) with 0. lia.
  - unfold cb_push in E.
    destruct (push_back gr (cb_bp c) false) as [b1|] eqn:P; cbn [bind] in E; [|discriminate].
    destruct (cb_pop gr comp x (cb_stack c) b1) as [[s b2]|] eqn:Q; cbn [bind] in E; [|discriminate].
    destruct (cb_pop_grows _ _ _ _ _ _ Q) as (G & Z). destruct (IH _ _ E) as (G2 & Z2).
    cbn [cb_bp cb_stack] in *. split.
    + eapply grows_trans; [eapply push_back_grows; eauto|]. eapply grows_trans; eauto.
    + apply push_back_size in P. rewrite zlen_cons in *. lia.
Qed.

Lemma cb_flush_grows gr : forall (s : list T) b b', cb_flush gr s b = Ok b' ->
  grows b b' /\ b_size b' = b_size b + zlen s.
Proof.
  induction s as [|y s IH]; intros b b' E; cbn [cb_flush] in E.
  - injection E as <-. split; [apply grows_refl|]. change (zlen (@nil T)) with 0. lia.
  - destruct (push_back gr b true) as [b1|] eqn:P; cbn [bind] in E; [|discriminate].
    destruct (IH _ _ E) as (G & Z). split; [eapply grows_trans; [eapply push_back_grows; eauto|auto]|].
    apply push_back_size in P. rewrite zlen_cons. lia.
Qed.

Theorem cartesian_reserve gr e v : 0 < e -> 2 * e + 2 < 2 ^ 64 -> zlen v <= e ->
  exists c0 c b, cb_new gr e = Ok c0 /\ cb_pushes gr comp c0 v = Ok c /\ cb_finalize gr c = Ok b /\
    b_gen (cb_bp c) = b_gen (cb_bp c0) /\ b_gen b = b_gen (cb_bp c0) /\ b_cap b = b_cap (cb_bp c0) /\
    ((forall k n, gr k n <= n) -> zlen v = e -> b_cap (cb_bp c0) = zlen (b_bits b)).
Proof.
  intros He Hf Hv. unfold cb_new.
  destruct (new_builder_ok 0 false ltac:(lia)) as (b0 & E0 & HB0). rewrite E0. cbn [bind].
  destruct (Z.eqb_spec e 0); [lia|]. rewrite u64_small by lia.
  set (b1 := reserve gr b0 (2 * e + 2)).
  assert (HB1 : binv b1 []) by (apply reserve_ok; [exact HB0|left; reflexivity]).
  destruct (cb_pushes_ok comp gr v (mk_cb [] b1) [] HB1) as (c & Ec & _ & HB).
  destruct (push_back_ok gr _ _ false HB) as (b2 & E2 & HB2).
  destruct (cb_flush_ok gr (cb_stack c) b2 _ HB2) as (b3 & E3 & HB3).
  destruct (push_back_ok gr _ _ true HB3) as (b4 & E4 & HB4).
  destruct (reverse_ok _ _ HB4) as (b5 & E5 & HB5).
  exists (mk_cb [] b1), c, b5. split; [auto|]. split; [auto|].
  split; [unfold cb_finalize; rewrite E2; cbn [bind]; rewrite E3; cbn [bind]; rewrite E4; exact E5|].
  destruct (cb_pushes_grows _ _ _ _ Ec) as (G1 & Z1). pose proof (push_back_grows _ _ _ _ E2) as G2.
  destruct (cb_flush_grows _ _ _ _ E3) as (G3 & Z3). pose proof (push_back_grows _ _ _ _ E4) as G4.
  apply reverse_fields in E5. destruct E5 as (R1 & R2 & R3).
  pose proof (push_back_size _ _ _ _ E2) as Z2. pose proof (push_back_size _ _ _ _ E4) as Z4.
  cbn [cb_bp cb_stack] in *. change (zlen (@nil T)) with 0 in Z1.
  assert (S1 : b_size b1 = 0) by (destruct HB1 as (S1 & _); exact S1).
  assert (J1 : jinv b1).
  { destruct HB1 as (_ & (_ & W & _) & _). split; [lia|]. rewrite S1, W. reflexivity. }
  assert (S5 : b_size b4 = 2 * zlen v + 2) by lia.
  pose proof (reserve_room gr b0 (2 * e + 2)) as C. fold b1 in C. unfold words_for, ceil_div in C.
  pose proof (zlen_nonneg (cb_stack c)) as Nc.
  assert (J : jinv (cb_bp c) /\ b_size (cb_bp c) <= 2 * zlen v).
  { split; [apply G1; auto|lia]. }
  destruct (G1 J1) as (_ & _ & F1). destruct F1 as (F1 & _); [clear - C J Hv; dlia|].
  pose proof (grows_trans _ _ _ G1 (grows_trans _ _ _ G2 (grows_trans _ _ _ G3 G4)) J1) as (J4 & _ & F4).
  destruct F4 as (F4 & F5); [rewrite S5; clear - C Hv; dlia|].
  split; [auto|]. split; [congruence|]. split; [congruence|].
  intros Hg Ev. assert (X : b_cap b1 = words_for (2 * e + 2)).
  { apply reserve_exact; auto. vm_compute in E0. injection E0 as <-. cbn. apply Z.div_pos; lia. }
  rewrite X. destruct HB5 as (B1 & (_ & B2 & _) & _). rewrite B2, <- B1, R3, S5, Ev.
  unfold words_for, ceil_div. f_equal. lia.
Qed.
End cartesian.

(** ** elias_fano_builder *)
Lemma ef_push_grows gr b i b' : 0 <= eb_l b <= 64 -> ef_push gr b i = Ok b' ->
  grows (eb_low b) (eb_low b') /\ b_gen (eb_high b') = b_gen (eb_high b) /\
  b_cap (eb_high b') = b_cap (eb_high b) /\ eb_l b' = eb_l b.
Proof.
  intros Hl E. unfold ef_push in E.
  unfold assert_ in E. destruct (_ && _); [|discriminate].
  destruct (shl 1 _) as [m|]; cbn [bind] in E; [|discriminate].
  destruct (if eb_l b =? 0 then _ else _) as [low|] eqn:L; cbn [bind] in E; [|discriminate].
  destruct (shr _ _) as [h|]; cbn [bind] in E; [|discriminate].
  destruct (bset _ _ _) as [high|] eqn:S; cbn [bind] in E; [|discriminate].
  destruct (_ <=? _); [|discriminate]. injection E as <-. cbn [eb_low eb_high eb_l].
  apply bset_fields in S. destruct S. split; [|auto].
  destruct (eb_l b =? 0); [injection L as <-; apply grows_refl|].
  eapply append_bits_grows; eauto.
Qed.

Lemma ef_push_all_grows gr : forall vs b b', 0 <= eb_l b <= 64 -> ef_push_all gr b vs = Ok b' ->
  grows (eb_low b) (eb_low b') /\ b_gen (eb_high b') = b_gen (eb_high b) /\
  b_cap (eb_high b') = b_cap (eb_high b).
Proof.
  induction vs as [|v vs IH]; intros b b' Hl E; cbn [ef_push_all] in E.
  - injection E as <-. split; [apply grows_refl|auto].
  - destruct (ef_push gr b v) as [b1|] eqn:P; cbn [bind] in E; [|discriminate].
    destruct (ef_push_grows _ _ _ _ Hl P) as (G & H1 & H2 & H3).
    destruct (IH b1 b' ltac:(rewrite H3; auto) E) as (G' & H1' & H2').
    split; [eapply grows_trans; eauto|]. split; congruence.
Qed.

Lemma ef_builder_new_low gr n m b : ef_builder_new gr n m = Ok b ->
  eb_low b = reserve gr (mk_builder [] 0 0 0 None) (u64 (m * eb_l b)).
Proof.
  unfold ef_builder_new. intros E.
  destruct (if _ && _ then _ else _) as [l|]; cbn [bind] in E; [|discriminate].
  destruct (shr n l) as [h|]; cbn [bind] in E; [|discriminate].
  destruct (new_builder (u64 (m + 1 + h + 1)) false) as [high|]; cbn [bind] in E; [|discriminate].
  change (new_builder 0 false) with (Ok (mk_builder [] 0 0 0 None)) in E. cbn [bind] in E.
  unfold assert_ in E. destruct (l <? 64); [|discriminate]. injection E as <-. reflexivity.
Qed.

Lemma log2_le_self x : 0 < x -> Z.log2 x < x.
Proof. intros H. apply Z.log2_lt_lin. auto. Qed.

Lemma low_bits_fit n m : 0 <= n < 2 ^ 64 -> 0 <= m -> 0 <= m * low_len n m <= n.
Proof.
  intros Hn Hm. unfold low_len. destruct (Z.eqb_spec m 0); cbn [orb]; [lia|].
  pose proof (Z.div_mod n m ltac:(lia)) as DM. pose proof (Z.mod_pos_bound n m ltac:(lia)) as MB.
  destruct (Z.eqb_spec (n / m) 0) as [E|E]; [lia|].
  assert (Q : 0 < n / m) by (assert (0 <= n / m) by (apply Z.div_pos; lia); lia).
  pose proof (log2_le_self _ Q). pose proof (Z.log2_nonneg (n / m)). nia.
Qed.

Theorem elias_fano_reserve gr n m vs : ef_input n m vs ->
  exists b0 b, ef_builder_new gr n m = Ok b0 /\ ef_push_all gr b0 vs = Ok b /\
    b_gen (eb_low b) = b_gen (eb_low b0) /\ b_cap (eb_low b) = b_cap (eb_low b0) /\
    b_gen (eb_high b) = b_gen (eb_high b0) /\ b_cap (eb_high b) = b_cap (eb_high b0) /\
    ((forall k x, gr k x <= x) -> zlen vs = m -> b_cap (eb_low b0) = zlen (b_bits (eb_low b))).
Proof.
  intros (Hn & Hm & H0 & Hk & F & S).
  destruct (ef_builder_new_ok gr n m (fits_simple n m Hn Hm H0)) as (b0 & H & E0 & I0).
  destruct (push_all_ok gr n m _ vs b0 [] H I0) as (b & H' & E & I); auto.
  { intros i v. change (zlen (@nil Z)) with 0. lia. }
  exists b0, b. split; [auto|]. split; [auto|].
  pose proof (low_len_range n m Hn ltac:(lia)) as Hl. pose proof (low_bits_fit n m Hn ltac:(lia)) as Hml.
  pose proof (ef_builder_new_low _ _ _ _ E0) as L.
  destruct I0 as (_ & _ & _ & _ & L0 & _ & _ & B0). destruct I as (_ & _ & _ & _ & _ & _ & _ & B1).
  rewrite L0 in L. rewrite u64_small in L by lia. set (l := low_len n m) in *.
  destruct (ef_push_all_grows gr vs b0 b ltac:(lia) E) as (G & G1 & G2).
  assert (J : jinv (eb_low b0)).
  { destruct B0 as (A1 & (_ & A2 & _) & _). split; [rewrite A1; apply zlen_nonneg|]. rewrite A1. auto. }
  destruct (G J) as (_ & _ & R).
  destruct B1 as (A1 & (_ & A2 & _) & _). cbn [app] in A1, A2. rewrite zlen_pieces in A1, A2 by lia.
  pose proof (reserve_room gr (mk_builder [] 0 0 0 None) (m * l)) as C. rewrite <- L in C.
  unfold words_for, ceil_div in C. pose proof (zlen_nonneg vs) as Nv.
  assert (P : zlen vs * l <= m * l) by nia.
  destruct R as (R1 & R2).
  { rewrite A1. etransitivity; [|exact C]. apply Z.div_le_mono; lia. }
  split; [auto|]. split; [auto|]. split; [auto|]. split; [auto|].
  intros Hg Ev. rewrite L, reserve_exact; auto.
  - rewrite A2, Ev. unfold words_for, ceil_div. f_equal. lia.
  - cbn. apply Z.div_pos; lia.
Qed.

(** ** any history after a reserve *)
Lemma v_grow_room gr b n : n <= b_cap b ->
  b_gen (v_grow gr b n) = b_gen b /\ b_cap (v_grow gr b n) = b_cap b.
Proof. intros H. unfold v_grow, v_need. destruct (Z.leb_spec n (b_cap b)); [|lia]. split; reflexivity. Qed.

Lemma zero_extend_grows gr b n b' : 0 <= n -> fits (b_size b + n) -> zero_extend gr b n = Ok b' -> grows b b'.
Proof.
  intros Hn Hf E (J0 & J1). unfold fits in Hf. revert E. unfold zero_extend. cbv zeta.
  cbn [b_size b_bits with_size]. unfold words_for, ceil_div.
  replace (b_size b + n + 64 - 1) with (b_size b + n + 63) by lia.
  rewrite u64_small by (clear - J0 J1 Hn Hf; dlia). unfold jinv.
  destruct (Z.eqb_spec ((b_size b + n + 63) / 64 - zlen (b_bits b)) 0) as [Z|Z].
  - intros E. injection E as <-. cbn [b_size b_bits with_size b_gen b_cap]. split; [lia|]. split; [lia|auto].
  - intros E. injection E as <-. cbn [b_size b_bits b_gen b_cap set_cur_back].
    rewrite v_grow_size, v_grow_bits. cbn [b_size b_bits with_size]. rewrite zlen_app, zlen_repeat.
    split; [split; [lia|clear - J0 J1 Hn Z; dlia]|]. split; [lia|]. intros R.
    apply (v_grow_room gr (with_size b (b_size b + n))). cbn [b_cap with_size]. lia.
Qed.

Lemma one_extend_loop_grows gr fuel : forall b n b' m, one_extend_loop gr fuel b n = Ok (b', m) ->
  grows b b' /\ (0 <= n -> 0 <= m < 64).
Proof.
  induction fuel as [|fuel IH]; intros b n b' m E; cbn [one_extend_loop] in E;
    destruct (Z.leb_spec 64 n); try discriminate.
  - injection E as <- <-. split; [apply grows_refl|lia].
  - destruct (append_bits gr b _ 64) as [b1|] eqn:P; cbn [bind] in E; [|discriminate].
    destruct (IH _ _ _ _ E) as (G & R). split; [|intros; apply R; lia].
    eapply grows_trans; [eapply append_bits_grows; [|exact P]; lia|auto].
  - injection E as <- <-. split; [apply grows_refl|lia].
Qed.

Lemma one_extend_grows gr b n b' : 0 <= n -> one_extend gr b n = Ok b' -> grows b b'.
Proof.
  intros Hn. unfold one_extend.
  destruct (one_extend_loop gr (Z.to_nat (n / 64)) b n) as [[b1 m]|] eqn:P; cbn [bind]; [|discriminate].
  apply one_extend_loop_grows in P. destruct P as (G & R). specialize (R Hn).
  destruct (m =? 0); [intros E; injection E as <-; auto|].
  destruct (shr _ _) as [w|]; cbn [bind]; [|discriminate]. intros E.
  eapply grows_trans; [exact G|]. eapply append_bits_grows; [|exact E]. lia.
Qed.

Lemma append_room gr b c b' : append gr b c = Ok b' ->
  (b_size b + b_size c + 63) / 64 <= b_cap b -> b_gen b' = b_gen b /\ b_cap b' = b_cap b.
Proof.
  unfold append. intros E R. destruct (Z.eqb_spec (b_size c) 0); [injection E as <-; auto|]. cbv zeta in E.
  cbn [b_size with_size b_bits] in E.
  match type of E with context [if ?n <? ?p then ?x else ?y] =>
    set (bb := if n <? p then x else y) in E end.
  assert (B : b_gen bb = b_gen b /\ b_cap bb = b_cap b).
  { unfold bb. destruct (_ <? _); [split; reflexivity|].
    apply (v_grow_room gr (with_size b (b_size b + b_size c))). cbn [b_cap with_size].
    unfold words_for, ceil_div. replace (b_size b + b_size c + 64 - 1) with (b_size b + b_size c + 63) by lia. auto. }
  clearbody bb. destruct B as (<- & <-).
  destruct (_ =? 0).
  - destruct (_ <=? _); [|discriminate]. injection E as <-. auto.
  - destruct (rd _ _); cbn [bind] in E; [|discriminate].
    destruct (append_loop _ _ _ _) as [[ws cur]|]; cbn [bind] in E; [|discriminate].
    destruct (shl _ _); cbn [bind] in E; [|discriminate].
    destruct (mod_word _ _ _); cbn [bind] in E; [|discriminate].
    destruct (_ <? _).
    + destruct (shr _ _); cbn [bind] in E; [|discriminate].
      destruct (wr _ _ _); cbn [bind] in E; [|discriminate]. injection E as <-. auto.
    + injection E as <-. auto.
Qed.

Lemma set_bits_fields b pos bits len b' : set_bits b pos bits len = Ok b' ->
  b_gen b' = b_gen b /\ b_cap b' = b_cap b.
Proof.
  unfold set_bits, assert_. intros E. destruct (_ <=? _); [|discriminate].
  destruct (no_spurious bits len) as [[|]|]; cbn [bind] in E; try discriminate.
  destruct (len =? 0); [injection E as <-; auto|].
  destruct (if len =? 64 then _ else _) as [mask|]; cbn [bind] in E; [|discriminate].
  destruct (shl mask _) as [m|]; cbn [bind] in E; [|discriminate].
  destruct (mod_word _ _ _) as [ws|]; cbn [bind] in E; [|discriminate].
  destruct (shl bits _) as [x|]; cbn [bind] in E; [|discriminate].
  destruct (mod_word _ _ _) as [ws'|]; cbn [bind] in E; [|discriminate].
  destruct (_ <? len); [|injection E as <-; auto].
  destruct (shr mask _) as [m'|]; cbn [bind] in E; [|discriminate].
  destruct (mod_word _ _ _) as [ws''|]; cbn [bind] in E; [|discriminate].
  destruct (shr bits _) as [x'|]; cbn [bind] in E; [|discriminate].
  destruct (mod_word _ _ _) as [ws'''|]; cbn [bind] in E; [|discriminate]. injection E as <-. auto.
Qed.

Lemma binv_jinv b l : binv b l -> jinv b /\ b_size b = zlen l.
Proof.
  intros (A1 & (_ & A2 & _) & _). split; [|auto]. split; [rewrite A1; apply zlen_nonneg|]. rewrite A1. auto.
Qed.

(** one call keeps the words of [i], if the sequence it leads to fits *)
Lemma step_stays gr st s o st' i n : sinv st s -> legal s o -> stays i n o -> S_BitVector.step gr st o = Ok st' ->
  (n + 63) / 64 <= b_cap (st i) -> zlen (spec_step s o i) <= n ->
  b_gen (st' i) = b_gen (st i) /\ b_cap (st' i) = b_cap (st i).
Proof.
  intros H L S E C Z. destruct (step_ok gr st s o H L) as (st1 & E1 & I1). rewrite E in E1. injection E1 as <-.
  destruct (binv_jinv _ _ (H i)) as (J & Sz). destruct (binv_jinv _ _ (I1 i)) as (J' & Sz').
  assert (R : (b_size (st' i) + 63) / 64 <= b_cap (st i)).
  { etransitivity; [|exact C]. apply Z.div_le_mono; lia. }
  assert (K : grows (st i) (st' i) -> b_gen (st' i) = b_gen (st i) /\ b_cap (st' i) = b_cap (st i)).
  { intros G. destruct (G J) as (_ & _ & F). auto. }
  clear Z I1. destruct o as [k|k n'|k x|k pos x|k pos bits len|k bits len|k m|k m|k k'|k|k k']; cbn [step stays legal] in *.
  - destruct (new_builder size init); cbn [bind] in E; [|discriminate]. injection E as <-.
    unfold put. destruct (Nat.eqb_spec i k); [congruence|auto].
  - injection E as <-. unfold put. destruct (Nat.eqb_spec i k) as [->|]; [|auto]. specialize (S eq_refl).
    unfold reserve, v_need. destruct (Z.leb_spec (words_for n') (b_cap (st k))) as [Q|Q]; auto. exfalso.
    unfold words_for, ceil_div in Q. clear - Q C S. dlia.
  - destruct (push_back gr (st k) x) as [b1|] eqn:P; cbn [bind] in E; [|discriminate]. injection E as <-.
    unfold put in *. destruct (Nat.eqb_spec i k) as [->|]; [|auto]. eapply K, push_back_grows; eauto.
  - destruct (bset (st k) pos x) as [b1|] eqn:P; cbn [bind] in E; [|discriminate]. injection E as <-.
    unfold put in *. destruct (Nat.eqb_spec i k) as [->|]; [|auto]. eapply bset_fields; eauto.
  - destruct (set_bits (st k) pos bits len) as [b1|] eqn:P; cbn [bind] in E; [|discriminate]. injection E as <-.
    unfold put in *. destruct (Nat.eqb_spec i k) as [->|]; [|auto]. eapply set_bits_fields; eauto.
  - destruct (append_bits gr (st k) bits len) as [b1|] eqn:P; cbn [bind] in E; [|discriminate]. injection E as <-.
    unfold put in *. destruct (Nat.eqb_spec i k) as [->|]; [|auto]. eapply K, append_bits_grows; [|eauto]. apply L.
  - destruct (zero_extend gr (st k) m) as [b1|] eqn:P; cbn [bind] in E; [|discriminate]. injection E as <-.
    unfold put in *. destruct (Nat.eqb_spec i k) as [->|]; [|auto]. eapply K, zero_extend_grows; [| |eauto]; [apply L|].
    rewrite Sz. apply L.
  - destruct (one_extend gr (st k) m) as [b1|] eqn:P; cbn [bind] in E; [|discriminate]. injection E as <-.
    unfold put in *. destruct (Nat.eqb_spec i k) as [->|]; [|auto]. eapply K, one_extend_grows; [|eauto]. apply L.
  - destruct (append gr (st k) (st k')) as [b1|] eqn:P; cbn [bind] in E; [|discriminate]. injection E as <-.
    cbn [spec_step] in Sz'. unfold put in *. destruct (Nat.eqb_spec i k) as [->|]; [|auto].
    eapply append_room; eauto. destruct (binv_jinv _ _ (H k')) as (_ & Sk).
    rewrite zlen_app, <- Sz, <- Sk in Sz'. rewrite <- Sz'. auto.
  - destruct (reverse (st k)) as [b1|] eqn:P; cbn [bind] in E; [|discriminate]. injection E as <-.
    unfold put in *. destruct (Nat.eqb_spec i k) as [->|]; [|auto]. apply reverse_fields in P. tauto.
  - rewrite builder_swap_ok in E. injection E as <-. destruct S as (S1 & S2). unfold put.
    destruct (Nat.eqb_spec i k'), (Nat.eqb_spec i k); congruence || auto.
Qed.

(** no call of [stays] makes the sequence shorter *)
Lemma spec_step_longer s o i n : legal s o -> stays i n o -> zlen (s i) <= zlen (spec_step s o i).
Proof.
  intros L S. destruct o as [k|k n'|k x|k pos x|k pos bits len|k bits len|k m|k m|k k'|k|k k']; cbn [spec_step stays legal] in *;
    unfold put; try lia.
  - destruct (Nat.eqb_spec i k); [congruence|lia].
  - destruct (Nat.eqb_spec i k) as [->|]; [|lia]. rewrite zlen_app. change (zlen [x]) with 1. lia.
  - destruct (Nat.eqb_spec i k) as [->|]; [|lia]. unfold zlen in *. rewrite !app_length, firstn_length, skipn_length. cbn [length]. lia.
  - destruct (Nat.eqb_spec i k) as [->|]; [|lia].
    pose proof (zlen_bits_of (Z.to_nat len) bits) as B. unfold zlen in *. rewrite !app_length, firstn_length, skipn_length. lia.
  - destruct (Nat.eqb_spec i k) as [->|]; [|lia]. rewrite zlen_app, zlen_bits_of. lia.
  - destruct (Nat.eqb_spec i k) as [->|]; [|lia]. rewrite zlen_app, zlen_repeat. lia.
  - destruct (Nat.eqb_spec i k) as [->|]; [|lia]. rewrite zlen_app, zlen_repeat. lia.
  - destruct (Nat.eqb_spec i k) as [->|]; [|lia]. rewrite zlen_app. pose proof (zlen_nonneg (s k')). lia.
  - destruct (Nat.eqb_spec i k) as [->|]; [|lia]. unfold zlen. rewrite rev_length. lia.
  - destruct (Nat.eqb_spec i k'), (Nat.eqb_spec i k); lia.
Qed.

Lemma spec_run_longer i n : forall os s, legal_run s os -> Forall (stays i n) os ->
  zlen (s i) <= zlen (spec_run s os i).
Proof.
  induction os as [|o os IH]; intros s L F; cbn [spec_run legal_run] in *; [lia|].
  destruct L as (L1 & L2). inversion F; subst. pose proof (spec_step_longer s o i n L1 ltac:(auto)).
  specialize (IH _ L2 ltac:(auto)). lia.
Qed.

Lemma run_stays gr i n : forall os st s st', sinv st s -> legal_run s os -> Forall (stays i n) os ->
  run gr st os = Ok st' -> (n + 63) / 64 <= b_cap (st i) -> zlen (spec_run s os i) <= n ->
  b_gen (st' i) = b_gen (st i) /\ b_cap (st' i) = b_cap (st i).
Proof.
  induction os as [|o os IH]; intros st s st' H L F E C Z; cbn [spec_run legal_run run] in *.
  - injection E as <-. auto.
  - destruct L as (L1 & L2). inversion F; subst.
    destruct (step_ok gr st s o H L1) as (st1 & E1 & H1'). rewrite E1 in E. cbn [bind] in E.
    destruct (step_stays gr st s o st1 i n) as (G1 & G2); auto.
    { pose proof (spec_run_longer i n os _ L2 ltac:(auto)). lia. }
    destruct (IH st1 _ st' H1' L2 ltac:(auto) E) as (G3 & G4); auto; [rewrite G2; auto|].
    split; congruence.
Qed.

Theorem history_reserve gr os i n os' : legal_run seqs0 (os ++ Reserve i n :: os') -> Forall (stays i n) os' ->
  zlen (spec_run seqs0 (os ++ Reserve i n :: os') i) <= n ->
  exists st st', run gr builders0 (os ++ [Reserve i n]) = Ok st /\ run gr st os' = Ok st' /\
    b_gen (st' i) = b_gen (st i) /\ b_cap (st' i) = b_cap (st i).
Proof.
  assert (A : forall a b s, legal_run s (a ++ b) <-> legal_run s a /\ legal_run (spec_run s a) b).
  { induction a as [|o a IH]; intros b s; cbn [app legal_run spec_run]; [tauto|]. rewrite IH. tauto. }
  assert (B : forall a b s, spec_run s (a ++ b) = spec_run (spec_run s a) b).
  { induction a as [|o a IH]; intros b s; cbn [app spec_run]; auto. }
  intros L F Z. change (Reserve i n :: os') with ([Reserve i n] ++ os') in *. rewrite app_assoc in *.
  rewrite B in Z. apply A in L. destruct L as (L1 & L2).
  destruct (run_ok gr _ _ _ sinv0 L1) as (st & E & H). destruct (run_ok gr _ _ _ H L2) as (st' & E' & _).
  exists st, st'. split; [auto|]. split; [auto|]. eapply run_stays; eauto.
  assert (D : forall a b (s s' : nat -> builder), run gr s (a ++ b) = Ok s' -> exists s1, run gr s a = Ok s1 /\ run gr s1 b = Ok s').
  { induction a as [|o a IH]; intros b s s'; cbn [app run]; [eauto|].
    destruct (S_BitVector.step gr s o); cbn [bind]; [|discriminate]. apply IH. }
  destruct (D _ _ _ _ E) as (st1 & _ & E1). cbn [run step bind] in E1. injection E1 as <-.
  unfold put. rewrite Nat.eqb_refl. pose proof (reserve_room gr (st1 i) n) as C. unfold words_for, ceil_div in C.
  replace (n + 64 - 1) with (n + 63) in C by lia. auto.
Qed.
