(** Proofs for C108 *)
From Verif Require Import Base Spec Lib S_BitVector P_BvLib P_RsBuild P_BitVector P_BvEnum M_BitVector M_Darray M_Gamma S_EliasFano P_EliasFano P_EliasFano2
  S_Gamma P_Gamma M_BvSteps P_BvSteps M_SeSteps P_SeSteps M_GammaSteps S_GammaSteps.

Lemma take_same bv e l : (do (v, e', _) <- enum_take_c bv e l; Ok (v, e')) = enum_take bv e l.
Proof.
  unfold enum_take_c, enum_take. destruct (e_avail e <? l); [destruct (fill_buf bv e) as [f|]; [|reflexivity]|]; cbn [bind].
  - destruct (if l =? 64 then _ else _) as [[v b]|]; reflexivity.
  - destruct (if l =? 64 then _ else _) as [[v b]|]; reflexivity.
Qed.
Lemma take_count bv e l v e' r : enum_take_c bv e l = Ok (v, e', r) ->
  e_pos e' = e_pos e + l /\ r = Z.b2z (e_avail e <? l) /\ e_avail e' = u64 ((if e_avail e <? l then 64 else e_avail e) - l).
Proof.
  unfold enum_take_c. intros H. apply bind_inv in H. destruct H as ([f r0] & E & H). apply bind_inv in H. destruct H as ([v0 b] & _ & H).
  injection H as _ <- <-. cbn [e_pos e_avail]. destruct (e_avail e <? l).
  - apply bind_inv in E. destruct E as (f0 & F & E). injection E as <- <-. unfold fill_buf in F. apply bind_inv in F. destruct F as (w & _ & F).
    injection F as <-. auto.
  - injection E as <- <-. auto.
Qed.
Lemma gu_same g u : (do (p, u, _) <- ge_unary_next_c g u; Ok (p, u)) = ge_unary_next g u.
Proof. destruct u; apply unary_next_same. Qed.
Lemma gl_same g e l : (do (v, e', _) <- ge_low_take_c g e l; Ok (v, e')) = ge_low_take g e l.
Proof. destruct e; [apply take_same|reflexivity]. Qed.

Lemma gv_next_same g e : (do (v, e', _, _) <- gv_next_c g e; Ok (v, e')) = gv_enum_next g e.
Proof.
  unfold gv_next_c, gv_enum_next. unfold assert_. destruct (ge_idx e <=? gamma_size g); [|reflexivity]. rewrite <- gu_same.
  destruct (ge_unary_next_c g (ge_high e)) as [[[p u] c]|]; [|reflexivity]. cbn [bind]. cbv zeta. rewrite <- gl_same.
  destruct (ge_low_take_c g (ge_low e) _) as [[[ch low] r]|]; [|reflexivity]. cbn [bind]. destruct (shl 1 _); reflexivity.
Qed.
Lemma gb_next_same g e : (do (v, e', _, _) <- gb_next_c g e; Ok (v, e')) = gb_enum_next g e.
Proof.
  unfold gb_next_c, gb_enum_next. unfold assert_. destruct (ge_idx e <=? gamma_size g); [|reflexivity]. rewrite <- gu_same.
  destruct (ge_unary_next_c g (ge_high e)) as [[[p u] c]|]; [|reflexivity]. cbn [bind]. cbv zeta. rewrite <- gl_same.
  destruct (ge_low_take_c g (ge_low e) _) as [[[ch low] r]|]; [|reflexivity]. cbn [bind]. destruct (shl 1 _); reflexivity.
Qed.
Lemma gv_run_same g : forall k e, (do (vs, _, _) <- gv_run_c g e k; Ok vs) = gv_run g e k.
Proof.
  induction k as [|k IH]; intros e; [reflexivity|]. cbn [gv_run_c gv_run]. rewrite <- gv_next_same.
  destruct (gv_next_c g e) as [[[[v e'] c] r]|]; [|reflexivity]. cbn [bind]. rewrite <- IH. destruct (gv_run_c g e' k) as [[[vs c'] r']|]; reflexivity.
Qed.
Lemma gb_run_same g : forall k e, (do (vs, _, _) <- gb_run_c g e k; Ok vs) = gb_run g e (repeat GNext k).
Proof.
  induction k as [|k IH]; intros e; [reflexivity|]. cbn [gb_run_c gb_run repeat]. rewrite <- gb_next_same.
  destruct (gb_next_c g e) as [[[[v e'] c] r]|]; [|reflexivity]. cbn [bind]. rewrite <- IH. destruct (gb_run_c g e' k) as [[[vs c'] r']|]; reflexivity.
Qed.

(** what one call counts *)
Definition counted (e e' : gamma_enum) (c r : Z) : Prop := forall u en, ge_high e = Some u -> ge_low e = Some en ->
  exists u' en', ge_high e' = Some u' /\ ge_low e' = Some en' /\ u_pos u' = ge_pos e' /\ c = ge_pos e' / 64 - u_pos u / 64 /\
  let l := e_pos en' - e_pos en in r = Z.b2z (e_avail en <? l) /\ e_avail en' = u64 ((if e_avail en <? l then 64 else e_avail en) - l).
Lemma gv_next_count g e v e' c r : gv_next_c g e = Ok (v, e', c, r) -> counted e e' c r.
Proof.
  intros H u en Eu El. unfold gv_next_c in H. apply assert_inv in H. destruct H as [_ H]. rewrite Eu, El in H. cbn [ge_unary_next_c ge_low_take_c] in H.
  apply bind_inv in H. destruct H as ([[p u'] c'] & U & H). apply unary_next_count in U. destruct U as [-> Ep].
  apply bind_inv in H. destruct H as ([[ch low] r'] & T & H). apply take_count in T. destruct T as (T1 & T2 & T3).
  apply bind_inv in H. destruct H as (m & _ & H). injection H as <- <- <- <-. exists u', low. cbn [ge_high ge_low ge_pos].
  do 4 (split; [auto|]). cbv zeta. rewrite T1. rewrite Z.add_simpl_l. auto.
Qed.
Lemma gb_next_count g e v e' c r : gb_next_c g e = Ok (v, e', c, r) -> counted e e' c r.
Proof.
  intros H u en Eu El. unfold gb_next_c in H. apply assert_inv in H. destruct H as [_ H]. rewrite Eu, El in H. cbn [ge_unary_next_c ge_low_take_c] in H.
  apply bind_inv in H. destruct H as ([[p u'] c'] & U & H). apply unary_next_count in U. destruct U as [-> Ep].
  apply bind_inv in H. destruct H as ([[ch low] r'] & T & H). apply take_count in T. destruct T as (T1 & T2 & T3).
  apply bind_inv in H. destruct H as (m & _ & H). injection H as <- <- <- <-. exists u', low. cbn [ge_high ge_low ge_pos].
  do 4 (split; [auto|]). cbv zeta. rewrite T1. rewrite Z.add_simpl_l. auto.
Qed.

Section Run.
Variables (kk : Z) (g : gamma) (ys : list Z).
Hypothesis K : kk = 0 \/ kk = 1.
Hypothesis OK : gamma_ok kk g ys.
Variable next_c : gamma_enum -> res (Z * gamma_enum * Z * Z).
Hypothesis next_ok : forall e i, 0 <= i < zlen ys -> geinv kk ys e i -> exists v e' c r, next_c e = Ok (v, e', c, r) /\ geinv kk ys e' (i + 1) /\ counted e e' c r.
Fixpoint run_c (e : gamma_enum) (k : nat) : res (list Z * Z * Z) :=
  match k with
  | O => Ok ([], 0, 0)
  | S k => do (v, e, c, r) <- next_c e; do (vs, c', r') <- run_c e k; Ok (v :: vs, c + c', r + r')
  end.

Lemma g_run_count : forall k e i u en, 0 <= i -> i + Z.of_nat k <= zlen ys -> geinv kk ys e i -> ge_high e = Some u -> ge_low e = Some en ->
  exists vs r, run_c e k = Ok (vs, (if Nat.eqb k 0 then 0 else hpos kk ys (i + Z.of_nat k) / 64 - u_pos u / 64), r) /\
    let bits := off ys (i + Z.of_nat k) - off ys i in bits - e_avail en <= 64 * r <= 2 * bits + 64 - e_avail en /\ 0 <= r <= Z.of_nat k.
Proof.
  induction k as [|k IH]; intros e i u en Hi Hk I Eu El.
  - exists [], 0. cbn [run_c Nat.eqb]. split; [reflexivity|]. cbv zeta. change (Z.of_nat 0) with 0. rewrite Z.add_0_r.
    destruct I as (_ & _ & _ & (en0 & st & El0 & (_ & _ & R & _))). rewrite El in El0. injection El0 as <-. lia.
  - cbn [run_c]. destruct (next_ok e i ltac:(lia) I) as (v & e' & c & r & -> & I' & C). cbn [bind].
    destruct (C u en Eu El) as (u' & en' & Eu' & El' & Pu & -> & Er & Ea).
    destruct (IH e' (i + 1) u' en' ltac:(lia) ltac:(lia) I' Eu' El') as (vs & r' & -> & B). cbn [bind Nat.eqb].
    exists (v :: vs), (r + r'). pose proof I' as (_ & Pe & _). split.
    + do 3 f_equal. rewrite Pu, Pe. destruct (Nat.eqb_spec k 0) as [E0|N].
      * rewrite E0. replace (i + Z.of_nat 1) with (i + 1) by lia. lia.
      * replace (i + Z.of_nat (S k)) with (i + 1 + Z.of_nat k) by lia. lia.
    + cbv zeta in *. replace (i + Z.of_nat (S k)) with (i + 1 + Z.of_nat k) by lia.
      destruct I as (_ & _ & _ & (en0 & st & El0 & (P0 & _ & R0 & _))). rewrite El in El0. injection El0 as <-.
      destruct I' as (_ & _ & _ & (en1 & st1 & El1 & (P1 & _ & R1 & _))). rewrite El' in El1. injection El1 as <-. cbn [fst] in *.
      pose proof (off_S ys i ltac:(lia)) as OS. destruct (g_elem _ _ _ OK i ltac:(lia)) as [_ CL]. rewrite P0, P1 in *.
      set (l := off ys (i + 1) - off ys i) in *. assert (0 <= l <= 63) by (unfold l; lia).
      destruct (Z.ltb_spec (e_avail en) l); cbn [Z.b2z] in Er; rewrite u64_small in Ea by lia; lia.
Qed.
End Run.

Lemma gv_run_eq g : forall k e, run_c (gv_next_c g) e k = gv_run_c g e k.
Proof. induction k as [|k IH]; intros e; [reflexivity|]. cbn [run_c gv_run_c]. destruct (gv_next_c g e) as [[[[v e'] c] r]|]; [|reflexivity]. cbn [bind]. rewrite IH. reflexivity. Qed.
Lemma gb_run_eq g : forall k e, run_c (gb_next_c g) e k = gb_run_c g e k.
Proof. induction k as [|k IH]; intros e; [reflexivity|]. cbn [run_c gb_run_c]. destruct (gb_next_c g e) as [[[[v e'] c] r]|]; [|reflexivity]. cbn [bind]. rewrite IH. reflexivity. Qed.

Lemma payload_app plus a b : payload plus (a ++ b) = payload plus a + payload plus b.
Proof. induction a as [|x a IH]; [reflexivity|]. unfold payload in *. cbn [app fold_right]. lia. Qed.
Lemma off_payload xs i : off xs (Z.of_nat i) = payload 1 (firstn i xs).
Proof.
  unfold off. rewrite Nat2Z.id, firstn_map. unfold payload, sum, code_len. induction (firstn i xs) as [|x l IH]; [reflexivity|].
  cbn [map fold_right]. rewrite IH. reflexivity.
Qed.
Lemma payload_succs xs : payload 1 (succs xs) = payload 2 xs.
Proof. unfold payload, succs. induction xs as [|x l IH]; [reflexivity|]. cbn [map fold_right]. rewrite IH. do 2 f_equal. lia. Qed.
Lemma firstn_window {A} (l : list A) i k : firstn (i + k) l = firstn i l ++ window l i k.
Proof. unfold window. revert l. induction i as [|i IH]; intros [|x l]; cbn; rewrite ?firstn_nil; auto. f_equal. apply IH. Qed.
Lemma payload_window plus xs i k : payload plus (firstn (i + k) xs) - payload plus (firstn i xs) = payload plus (window xs i k).
Proof. rewrite firstn_window, payload_app. lia. Qed.

Lemma gv_cost gr ints : Forall (fun x => 0 <= x < 2 ^ 64 - 1) ints -> zlen ints < 2 ^ 57 -> exists g, gv_build gr ints = Ok g /\
  forall i k, (i + S k <= length ints)%nat -> exists e r, gv_enum_new g (Z.of_nat i) = Ok e /\
  gv_run_c g e (S k) = Ok (window ints i (S k), gv_place ints (i + S k) / 64 - (gv_place ints i + 1) / 64, r) /\
  reads_fit (payload 1 (window ints i (S k))) (S k) r.
Proof.
  intros F L. destruct (gv_build_ok gr ints F L) as (g & E & OK). exists g. split; [auto|]. intros i k Hk.
  assert (Hi : 0 <= Z.of_nat i < zlen ints) by (unfold zlen; lia). assert (K : 0 = 0 \/ 0 = 1) by auto.
  destruct (gv_enum_new_ok g ints (Z.of_nat i) OK Hi) as (e & En & I).
  assert (N : exists u, ge_high e = Some u /\ u_pos u = hpos 0 ints (Z.of_nat i) + 1 /\ exists p, ge_low e = Some (enum_new p)).
  { unfold gv_enum_new in En. rewrite (g_size _ _ _ OK) in En. replace (Z.of_nat i <? zlen ints) with true in En by lia.
    rewrite (g_select _ _ _ K OK) in En by lia. cbn [bind] in En. apply bind_inv in En. destruct En as (u & U & En). injection En as <-.
    exists u. cbn [ge_high ge_low]. split; [reflexivity|]. split; [|eauto].
    unfold unary_new in U. apply bind_inv in U. destruct U as (w & _ & U). apply bind_inv in U. destruct U as (w' & _ & U). injection U as <-. reflexivity. }
  destruct N as (u & Eu & Pu & p & El).
  destruct (g_run_count 0 g ints K OK (gv_next_c g)) with (k := S k) (e := e) (i := Z.of_nat i) (u := u) (en := enum_new p) as (vs & r & R & B); auto; try lia.
  { intros e0 j Hj I0. destruct (gv_enum_next_ok g ints e0 j OK Hj I0) as (e1 & N1 & I1). rewrite <- gv_next_same in N1.
    apply bind_inv in N1. destruct N1 as ([[[v e2] c] r] & N1 & N2). injection N2 as -> ->. exists (W ints j), e1, c, r. split; [auto|]. split; [auto|].
    eapply gv_next_count; eauto. }
  { unfold zlen. lia. }
  rewrite gv_run_eq in R.
  pose proof (gv_run_same g (S k) e) as SR. rewrite R in SR. cbn [bind] in SR.
  rewrite (gv_run_ok g ints OK (S k) e (Z.of_nat i)) in SR; [|lia|unfold zlen; lia|exact I]. injection SR as ->. rewrite Nat2Z.id in *.
  exists e, r. split; [auto|]. cbn [Nat.eqb] in R. replace (Z.of_nat i + Z.of_nat (S k)) with (Z.of_nat (i + S k)) in * by lia. split.
  - rewrite R. do 3 f_equal. rewrite Pu. unfold hpos, gv_place. rewrite !off_payload. f_equal; f_equal; lia.
  - cbv zeta in B. rewrite !off_payload, payload_window in B. cbn [enum_new e_avail] in B. unfold reads_fit. lia.
Qed.

Lemma gop_nexts : forall n l, (n <= length l)%nat -> gop_spec l (repeat GNext n) = Some (firstn n l).
Proof.
  induction n as [|n IH]; intros [|x l] H; cbn [length] in H; try reflexivity; try lia. cbn [repeat gop_spec firstn]. rewrite IH by lia. reflexivity.
Qed.
Lemma gb_cost gr ints : Forall (fun x => 0 <= x < 2 ^ 64 - 2) ints -> zlen ints < 2 ^ 57 -> exists g, gb_build gr ints = Ok g /\
  forall i k, (i + S k <= length ints)%nat -> exists e r, gb_enum_new g (Z.of_nat i) = Ok e /\
  gb_run_c g e (S k) = Ok (window ints i (S k), gb_place ints (i + S k) / 64 - (gb_place ints i + 1) / 64, r) /\
  reads_fit (payload 2 (window ints i (S k))) (S k) r.
Proof.
  intros F L. destruct (gb_build_ok gr ints F L) as (g & E & OK). exists g. split; [auto|]. intros i k Hk.
  assert (F0 : Forall (fun x => 0 <= x) ints) by (eapply Forall_impl; [|exact F]; cbv beta; intros; lia).
  assert (Hi : 0 <= Z.of_nat i < zlen ints) by (unfold zlen; lia). assert (K : 1 = 0 \/ 1 = 1) by auto. pose proof (zlen_succs ints) as ZS.
  destruct (gb_enum_new_ok g ints (Z.of_nat i) OK Hi) as (e & En & I).
  assert (N : exists u, ge_high e = Some u /\ u_pos u = hpos 1 (succs ints) (Z.of_nat i) + 1 /\ exists p, ge_low e = Some (enum_new p)).
  { unfold gb_enum_new in En. rewrite (g_size _ _ _ OK), ZS in En. replace (Z.of_nat i <? zlen ints) with true in En by lia.
    rewrite (g_select _ _ _ K OK) in En by lia. cbn [bind] in En. apply bind_inv in En. destruct En as (u & U & En). injection En as <-.
    exists u. cbn [ge_high ge_low]. split; [reflexivity|]. split; [|eauto].
    unfold unary_new in U. apply bind_inv in U. destruct U as (w & _ & U). apply bind_inv in U. destruct U as (w' & _ & U). injection U as <-. reflexivity. }
  destruct N as (u & Eu & Pu & p & El).
  destruct (g_run_count 1 g (succs ints) K OK (gb_next_c g)) with (k := S k) (e := e) (i := Z.of_nat i) (u := u) (en := enum_new p) as (vs & r & R & B); auto; try lia.
  { intros e0 j Hj I0. rewrite ZS in Hj. destruct (gb_enum_next_ok g ints e0 j OK F0 Hj I0) as (e1 & N1 & I1). rewrite <- gb_next_same in N1.
    apply bind_inv in N1. destruct N1 as ([[[v e2] c] r] & N1 & N2). injection N2 as -> ->. exists (W ints j), e1, c, r. split; [auto|]. split; [auto|].
    eapply gb_next_count; eauto. }
  { rewrite ZS. unfold zlen. lia. }
  rewrite gb_run_eq in R.
  pose proof (gb_run_same g (S k) e) as SR. rewrite R in SR. cbn [bind] in SR.
  rewrite (gb_run_ok g ints OK F0 (repeat GNext (S k)) e (Z.of_nat i) (window ints i (S k))) in SR; [|unfold zlen; lia| |exact I].
  2: { rewrite Nat2Z.id. apply gop_nexts. rewrite skipn_length. lia. }
  injection SR as ->.
  exists e, r. split; [auto|]. cbn [Nat.eqb] in R. replace (Z.of_nat i + Z.of_nat (S k)) with (Z.of_nat (i + S k)) in * by lia.
  assert (PS : forall j, payload 1 (firstn j (succs ints)) = payload 2 (firstn j ints)).
  { intros j. unfold succs. rewrite firstn_map. apply payload_succs. }
  split.
  - rewrite R. do 3 f_equal. rewrite Pu. unfold hpos, gb_place. rewrite !off_payload, !PS. f_equal; f_equal; lia.
  - cbv zeta in B. rewrite !off_payload, !PS, payload_window in B. cbn [enum_new e_avail] in B. unfold reads_fit. lia.
Qed.

Lemma payload_nonneg plus xs : Forall (fun x => 0 <= x) xs -> 0 <= payload plus xs.
Proof. induction 1 as [|x xs _ _ IH]; unfold payload in *; cbn [fold_right]; [lia|]. pose proof (Z.log2_nonneg (x + plus)). lia. Qed.
Lemma payload_big xs : Forall (fun x => 0 <= x) xs -> zlen xs <= payload 2 xs.
Proof.
  induction 1 as [|x xs H _ IH]; unfold payload in *; cbn [fold_right]; [reflexivity|]. rewrite zlen_cons.
  assert (1 <= Z.log2 (x + 2)) by (apply Z.log2_le_pow2; lia). lia.
Qed.
Lemma Forall_window {A} (P : A -> Prop) l i k : Forall P l -> Forall P (window l i k).
Proof.
  intros F. unfold window. apply Forall_forall. intros x H. rewrite Forall_forall in F. apply F.
  rewrite <- (firstn_skipn i l). apply in_or_app. right. rewrite <- (firstn_skipn k (skipn i l)). apply in_or_app. auto.
Qed.
Lemma rounds_bound ints i k : Forall (fun x => 0 <= x) ints -> (i + S k <= length ints)%nat ->
  (let rounds := gv_place ints (i + S k) / 64 - (gv_place ints i + 1) / 64 in 0 <= rounds /\ 64 * rounds <= payload 1 (window ints i (S k)) + Z.of_nat (S k) + 62) /\
  (let rounds := gb_place ints (i + S k) / 64 - (gb_place ints i + 1) / 64 in 0 <= rounds /\ 64 * rounds <= payload 2 (window ints i (S k)) + 62).
Proof.
  intros F Hk. unfold gv_place, gb_place. pose proof (payload_window 1 ints i (S k)) as P1. pose proof (payload_window 2 ints i (S k)) as P2.
  pose proof (payload_nonneg 1 _ (Forall_window _ _ i (S k) F)) as N1.
  pose proof (payload_big _ (Forall_window _ _ i (S k) F)) as N2. unfold window at 1 in N2. rewrite zlen_firstn in N2. unfold zlen in N2. rewrite skipn_length in N2.
  assert (D : forall a b, b <= a -> 0 <= a / 64 - b / 64 /\ 64 * (a / 64 - b / 64) <= a - b + 63).
  { intros a b H. pose proof (Z.div_le_mono b a 64 ltac:(lia) H). pose proof (Z.div_mod a 64 ltac:(lia)). pose proof (Z.div_mod b 64 ltac:(lia)).
    pose proof (Z.mod_pos_bound a 64 ltac:(lia)). pose proof (Z.mod_pos_bound b 64 ltac:(lia)). lia. }
  split; cbv zeta.
  - destruct (D (payload 1 (firstn (i + S k) ints) + Z.of_nat (i + S k)) (payload 1 (firstn i ints) + Z.of_nat i + 1)) as (A & B); lia.
  - destruct (D (payload 2 (firstn (i + S k) ints)) (payload 2 (firstn i ints) + 1)) as (A & B); lia.
Qed.
