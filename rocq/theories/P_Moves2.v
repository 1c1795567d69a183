(** Proofs for C113: the instrumented builder is the builder *)
From Verif Require Import Base Spec Lib M_Broadword M_BitVector S_BitVector P_Builder S_Moves M_Moves.

(** the results agree, undefined outcomes included *)
Definition fst_is (x : res mbuilder) (y : res builder) : Prop :=
  match x, y with Ok s, Ok b => fst s = b | Ub r, Ub r' => r = r' | _, _ => False end.

Section same.
Variable gr : growth.
Notation p := (fun _ : Z => gr).

Lemma same_need s n : fst (m_need p s n) = v_need gr (fst s) n.
Proof. destruct s as [b m]. unfold m_need, v_need. cbn [fst]. destruct (n <=? b_cap b); reflexivity. Qed.
Lemma same_push s w : fst (m_push p s w) = v_push gr (fst s) w.
Proof. unfold m_push, v_push. rewrite <- same_need. destruct (m_need p s _) as [b m]. reflexivity. Qed.
Lemma same_grow s n : fst (m_grow p s n) = v_grow gr (fst s) n.
Proof. unfold m_grow, v_grow. rewrite <- same_need. destruct (m_need p s n) as [b m]. reflexivity. Qed.
Lemma same_push_back s x : fst_is (m_push_back p s x) (push_back gr (fst s) x).
Proof.
  unfold m_push_back, push_back. cbv zeta. destruct (b_size (fst s) mod 64 =? 0).
  - rewrite <- same_push. destruct (m_push p s 0) as [b m]. cbn [fst]. destruct (shl _ _) as [y|]; cbn [bind]; [|reflexivity].
    destruct (cur_or _ _) as [b1|]; reflexivity.
  - destruct s as [b m]. cbn [fst]. destruct (shl _ _) as [y|]; cbn [bind]; [|reflexivity]. destruct (cur_or _ _) as [b1|]; reflexivity.
Qed.
Lemma same_append_bits s bits len : fst_is (m_append_bits p s bits len) (append_bits gr (fst s) bits len).
Proof.
  destruct s as [b m]. unfold m_append_bits, append_bits. cbn [fst]. destruct (no_spurious bits len) as [[|]|]; cbn [bind assert_]; try reflexivity.
  destruct (len =? 0); [reflexivity|]. cbv zeta. destruct (b_size b mod 64 =? 0).
  - change (with_size b (b_size b + len)) with (fst (with_size b (b_size b + len), m)) at 2. rewrite <- same_push. destruct (m_push _ _ _). reflexivity.
  - destruct (shl _ _) as [x|]; cbn [bind]; [|reflexivity]. destruct (cur_or _ _) as [b1|]; cbn [bind]; [|reflexivity].
    destruct (_ <? _); [|reflexivity]. destruct (shr _ _) as [y|]; cbn [bind]; [|reflexivity].
    change b1 with (fst (b1, m)) at 2. rewrite <- same_push. destruct (m_push _ _ _). reflexivity.
Qed.
Lemma same_zero_extend s n : fst_is (m_zero_extend p s n) (zero_extend gr (fst s) n).
Proof.
  destruct s as [b m]. unfold m_zero_extend, zero_extend. cbv zeta. cbn [fst]. destruct (_ =? 0); [reflexivity|].
  set (b0 := with_size b (b_size b + n)). change (v_grow gr b0) with (v_grow gr (fst (b0, m))). rewrite <- same_grow. destruct (m_grow _ _ _). reflexivity.
Qed.
Lemma same_one_loop fuel : forall s n, match m_one_extend_loop p fuel s n, one_extend_loop gr fuel (fst s) n with
  | Ok (s', k), Ok (b', k') => fst s' = b' /\ k = k' | Ub r, Ub r' => r = r' | _, _ => False end.
Proof.
  induction fuel as [|fuel IH]; intros s n; cbn [m_one_extend_loop one_extend_loop]; destruct (64 <=? n); auto.
  pose proof (same_append_bits s (2 ^ 64 - 1) 64) as A. unfold fst_is in A. destruct (m_append_bits _ _ _ _) as [s1|], (append_bits _ _ _ _) as [b1|]; cbn [bind]; try contradiction; auto.
  subst b1. apply IH.
Qed.
Lemma same_one_extend s n : fst_is (m_one_extend p s n) (one_extend gr (fst s) n).
Proof.
  unfold m_one_extend, one_extend. pose proof (same_one_loop (Z.to_nat (n / 64)) s n) as A.
  destruct (m_one_extend_loop _ _ _ _) as [[s1 k]|], (one_extend_loop _ _ _ _) as [[b1 k']|]; cbn [bind]; try contradiction; auto. destruct A as (<- & <-).
  destruct (k =? 0); [reflexivity|]. destruct (shr _ _); cbn [bind]; [|reflexivity]. apply same_append_bits.
Qed.
Lemma same_append s c : fst_is (m_append p s c) (append gr (fst s) c).
Proof.
  destruct s as [b m]. unfold m_append, append. cbn [fst]. destruct (b_size c =? 0); [reflexivity|]. cbv zeta.
  set (b0 := with_size b (b_size b + b_size c)). change (v_grow gr b0) with (v_grow gr (fst (b0, m))). rewrite <- same_grow.
  assert (T : forall s1 : mbuilder, fst_is
    (let '(b1, m1) := s1 in if b_size b mod 64 =? 0 then
      if zlen (b_bits b) + zlen (b_bits c) <=? zlen (b_bits b1) then
        Ok (set_cur_back (with_bits b1 (firstn (Z.to_nat (zlen (b_bits b))) (b_bits b1) ++ b_bits c ++ skipn (Z.to_nat (zlen (b_bits b) + zlen (b_bits c))) (b_bits b1))), m1)
      else Ub OutOfBounds
    else
      do last_w <- rd (b_bits c) (zlen (b_bits c) - 1);
      do (ws, cur) <- append_loop (b_bits b1) (zlen (b_bits b) - 1) (b_size b mod 64) (removelast (b_bits c));
      do x <- shl last_w (b_size b mod 64);
      do ws <- mod_word ws cur (fun c => Z.lor c x);
      if cur <? zlen ws - 1 then
        do y <- shr last_w (64 - b_size b mod 64);
        do ws <- wr ws (cur + 1) y;
        Ok (set_cur_back (with_bits b1 ws), m1)
      else Ok (set_cur_back (with_bits b1 ws), m1))
    (if b_size b mod 64 =? 0 then
      if zlen (b_bits b) + zlen (b_bits c) <=? zlen (b_bits (fst s1)) then
        Ok (set_cur_back (with_bits (fst s1) (firstn (Z.to_nat (zlen (b_bits b))) (b_bits (fst s1)) ++ b_bits c ++ skipn (Z.to_nat (zlen (b_bits b) + zlen (b_bits c))) (b_bits (fst s1)))))
      else Ub OutOfBounds
    else
      do last_w <- rd (b_bits c) (zlen (b_bits c) - 1);
      do (ws, cur) <- append_loop (b_bits (fst s1)) (zlen (b_bits b) - 1) (b_size b mod 64) (removelast (b_bits c));
      do x <- shl last_w (b_size b mod 64);
      do ws <- mod_word ws cur (fun c => Z.lor c x);
      if cur <? zlen ws - 1 then
        do y <- shr last_w (64 - b_size b mod 64);
        do ws <- wr ws (cur + 1) y;
        Ok (set_cur_back (with_bits (fst s1) ws))
      else Ok (set_cur_back (with_bits (fst s1) ws)))).
  { intros [b1 m1]. cbn [fst]. destruct (b_size b mod 64 =? 0); [destruct (_ <=? _); reflexivity|].
    destruct (rd _ _) as [lw|]; cbn [bind]; [|reflexivity]. destruct (append_loop _ _ _ _) as [[ws cur]|]; cbn [bind]; [|reflexivity].
    destruct (shl _ _) as [x|]; cbn [bind]; [|reflexivity]. destruct (mod_word _ _ _) as [w1|]; cbn [bind]; [|reflexivity].
    destruct (_ <? _); [|reflexivity]. destruct (shr _ _) as [y|]; cbn [bind]; [|reflexivity]. destruct (wr _ _ _) as [w2|]; reflexivity. }
  destruct (words_for (b_size b0) <? zlen (b_bits b)); [apply (T (_, m))|]. destruct (m_grow _ _ _) as [b1 m1]. apply (T (b1, m1)).
Qed.

Definition fam_is (x : res (nat -> mbuilder)) (y : res (nat -> builder)) : Prop :=
  match x, y with Ok s, Ok b => forall i, fst (s i) = b i | Ub r, Ub r' => r = r' | _, _ => False end.
Lemma same_put ms st i x y : (forall i, fst (ms i) = st i) -> fst_is x y -> fam_is (do b <- x; Ok (put ms i b)) (do b <- y; Ok (put st i b)).
Proof.
  intros F H. destruct x as [s|], y as [b|]; cbn in *; try contradiction; auto. intros j. unfold put. destruct (Nat.eqb j i); auto.
Qed.
Lemma same_write ms st i (m : Z) (x : res builder) : (forall i, fst (ms i) = st i) -> fam_is (do b <- x; Ok (put ms i (b, m))) (do b <- x; Ok (put st i b)).
Proof. intros F. destruct x as [b|]; cbn; auto. intros j. unfold put. destruct (Nat.eqb j i); auto. Qed.
Lemma same_step ms st o : (forall i, fst (ms i) = st i) -> fam_is (m_step p ms o) (step gr st o).
Proof.
  intros F. destruct o; cbn [m_step step]; rewrite <- ?F; try (apply same_write; exact F); try (apply same_put; [exact F|]).
  - intros k. unfold put. destruct (Nat.eqb k i); auto. apply same_need.
  - apply same_push_back.
  - apply same_append_bits.
  - apply same_zero_extend.
  - apply same_one_extend.
  - apply same_append.
  - rewrite builder_swap_ok. intros k. unfold put. destruct (Nat.eqb k j); [reflexivity|]. destruct (Nat.eqb k i); auto.
Qed.
Lemma same_run os : forall ms st, (forall i, fst (ms i) = st i) -> fam_is (m_run (fun _ => p) ms os) (run gr st os).
Proof.
  induction os as [|o os IH]; intros ms st F; cbn [m_run run]; [exact F|]. pose proof (same_step ms st o F) as S.
  destruct (m_step _ _ _) as [ms1|], (step _ _ _) as [st1|]; cbn [bind] in *; try contradiction; [apply IH; exact S|exact S].
Qed.
End same.

Theorem same_use gr os :
  match m_run (fun _ _ => gr) mbuilders0 os, run gr builders0 os with
  | Ok ms, Ok st => forall i, fst (ms i) = st i
  | Ub r, Ub r' => r = r'
  | _, _ => False
  end.
Proof. exact (same_run gr os mbuilders0 builders0 (fun _ => eq_refl)). Qed.
