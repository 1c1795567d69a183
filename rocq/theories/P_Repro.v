(** What is built does not depend on how std::vector grows nor on uninitialised members. *)
From Verif Require Import Base Spec Lib M_Broadword M_BitVector M_RsBitVector M_Darray M_EliasFano M_Gamma M_Bp M_Cartesian M_Topk.
From Verif Require Import S_Repro S_BitVector S_Darray S_EliasFano P_BvLib P_BitVector P_Builder P_Limits.

Definition rsim {A B} (R : A -> B -> Prop) (m : res A) (m' : res B) : Prop :=
  match m, m' with Ok x, Ok y => R x y | Ub r, Ub r' => r = r' | _, _ => False end.
Lemma rsim_bind {A B C D} (R : A -> B -> Prop) (Q : C -> D -> Prop) m m' f f' :
  rsim R m m' -> (forall x y, R x y -> rsim Q (f x) (f' y)) -> rsim Q (bind m f) (bind m' f').
Proof. destruct m, m'; cbn; intros H K; auto; contradiction. Qed.
Lemma rsim_same {A C D} (Q : C -> D -> Prop) (m : res A) f f' : (forall x, rsim Q (f x) (f' x)) -> rsim Q (bind m f) (bind m f').
Proof. destruct m; cbn; intros H; auto. Qed.
Lemma rsim_eq {A} (m m' : res A) : rsim eq m m' -> m = m'.
Proof. destruct m, m'; cbn; intros; subst; auto; contradiction. Qed.
Lemma rsim_assert {C D} (Q : C -> D -> Prop) b m m' : rsim Q m m' -> rsim Q (assert_ b m) (assert_ b m').
Proof. destruct b; cbn; auto. Qed.

Definition cur_view (b : builder) : option (bool * Z) :=
  match b_cur b with Some (g, k) => Some (g =? b_gen b, k) | None => None end.
Definition sim (b b' : builder) : Prop := b_bits b = b_bits b' /\ b_size b = b_size b' /\ cur_view b = cur_view b'.
Lemma sim_refl b : sim b b.
Proof. repeat split. Qed.
Lemma sim_bits b b' ws : sim b b' -> sim (with_bits b ws) (with_bits b' ws).
Proof. intros (H1 & H2 & H3). repeat split; auto. Qed.
Lemma sim_size b b' n : sim b b' -> sim (with_size b n) (with_size b' n).
Proof. intros (H1 & H2 & H3). repeat split; auto. Qed.
Lemma sim_back b b' : b_bits b = b_bits b' -> b_size b = b_size b' -> sim (set_cur_back b) (set_cur_back b').
Proof. intros H1 H2. repeat split; auto. unfold cur_view, set_cur_back. cbn. rewrite H1, !Z.eqb_refl. reflexivity. Qed.
Lemma need_bits gr b n : b_bits (v_need gr b n) = b_bits b.
Proof. unfold v_need. destruct (_ <=? _); reflexivity. Qed.
Lemma need_size gr b n : b_size (v_need gr b n) = b_size b.
Proof. unfold v_need. destruct (_ <=? _); reflexivity. Qed.
Lemma push_back_sim gr gr' b b' w : b_bits b = b_bits b' -> b_size b = b_size b' -> sim (set_cur_back (v_push gr b w)) (set_cur_back (v_push gr' b' w)).
Proof. intros H1 H2. apply sim_back; unfold v_push; cbn; rewrite ?need_bits, ?need_size; congruence. Qed.
Lemma grow_sim gr gr' b b' n : b_bits b = b_bits b' -> b_size b = b_size b' ->
  b_bits (v_grow gr b n) = b_bits (v_grow gr' b' n) /\ b_size (v_grow gr b n) = b_size (v_grow gr' b' n).
Proof. intros H1 H2. unfold v_grow. cbn. rewrite !need_bits, !need_size. split; congruence. Qed.
Lemma cur_or_sim b b' x : sim b b' -> rsim sim (cur_or b x) (cur_or b' x).
Proof.
  intros H. pose proof H as (H1 & H2 & H3). unfold cur_or. unfold cur_view in H3. destruct (b_cur b) as [(g & k)|], (b_cur b') as [(g' & k')|]; try discriminate; [|reflexivity].
  injection H3 as E ->. rewrite E. destruct (g' =? b_gen b'); [|reflexivity]. rewrite H1. apply rsim_same. intros w. apply rsim_same. intros ws. cbn. apply sim_bits. exact H.
Qed.
Lemma reserve_none gr b n : b_cur b = None -> sim (reserve gr b n) b.
Proof. intros H. unfold reserve. repeat split; [apply need_bits|apply need_size|]. unfold cur_view, v_need. destruct (_ <=? _); cbn; rewrite ?H; reflexivity. Qed.

Lemma push_sim gr gr' b b' x : sim b b' -> rsim sim (push_back gr b x) (push_back gr' b' x).
Proof.
  intros H. pose proof H as (H1 & H2 & H3). unfold push_back. rewrite H2. apply rsim_same. intros w.
  apply (rsim_bind sim); [apply cur_or_sim; destruct (_ =? _); [apply push_back_sim; auto|auto]|].
  intros y y' S. cbn. pose proof S as (_ & -> & _). apply sim_size. exact S.
Qed.
Lemma bset_sim b b' pos x : sim b b' -> rsim sim (bset b pos x) (bset b' pos x).
Proof.
  intros H. pose proof H as (H1 & _). unfold bset. rewrite H1. do 4 (apply rsim_same; intros ?). cbn. apply sim_bits. exact H.
Qed.
Lemma set_bits_sim b b' pos bits len : sim b b' -> rsim sim (set_bits b pos bits len) (set_bits b' pos bits len).
Proof.
  intros H. pose proof H as (H1 & H2 & _). unfold set_bits. rewrite H1, H2. apply rsim_assert. apply rsim_same. intros ok. apply rsim_assert.
  destruct (len =? 0); [exact H|]. do 5 (apply rsim_same; intros ?). destruct (_ <? _); [|cbn; apply sim_bits; exact H].
  do 4 (apply rsim_same; intros ?). cbn. apply sim_bits. exact H.
Qed.
Lemma append_bits_sim gr gr' b b' bits len : sim b b' -> rsim sim (append_bits gr b bits len) (append_bits gr' b' bits len).
Proof.
  intros H. pose proof H as (H1 & H2 & _). unfold append_bits. rewrite H2. apply rsim_same. intros ok. apply rsim_assert.
  destruct (len =? 0); [exact H|]. destruct (_ =? 0); [cbn; apply push_back_sim; cbn; auto|].
  apply rsim_same. intros x. apply (rsim_bind sim); [apply cur_or_sim, sim_size, H|]. intros y y' (S1 & S2 & _). destruct (_ <? _).
  - apply rsim_same. intros z. cbn. apply push_back_sim; auto.
  - cbn. apply sim_back; auto.
Qed.
Lemma zero_sim gr gr' b b' n : sim b b' -> rsim sim (zero_extend gr b n) (zero_extend gr' b' n).
Proof.
  intros H. pose proof H as (H1 & H2 & _). unfold zero_extend. cbn [with_size b_size b_bits]. rewrite H1, H2. destruct (_ =? 0).
  - cbn. apply sim_size. exact H.
  - cbn. match goal with |- sim (set_cur_back (v_grow _ ?x ?k)) (set_cur_back (v_grow _ ?y _)) => destruct (grow_sim gr gr' x y k); cbn; auto end. apply sim_back; auto.
Qed.
Lemma one_loop_sim gr gr' fuel : forall b b' n, sim b b' ->
  rsim (fun p q => sim (fst p) (fst q) /\ snd p = snd q) (one_extend_loop gr fuel b n) (one_extend_loop gr' fuel b' n).
Proof.
  induction fuel as [|fuel IH]; intros b b' n H; cbn [one_extend_loop]; destruct (_ <=? _); cbn [rsim fst snd]; auto.
  apply (rsim_bind sim); [apply append_bits_sim; exact H|]. intros. apply IH. auto.
Qed.
Lemma one_sim gr gr' b b' n : sim b b' -> rsim sim (one_extend gr b n) (one_extend gr' b' n).
Proof.
  intros H. unfold one_extend. eapply rsim_bind; [apply one_loop_sim; exact H|]. intros (x & k) (y & k') (S & E). cbn in S, E. subst k'.
  destruct (_ =? 0); [exact S|]. apply rsim_same. intros z. apply append_bits_sim. exact S.
Qed.
Lemma append_sim gr gr' b b' r r' : sim b b' -> sim r r' -> rsim sim (append gr b r) (append gr' b' r').
Proof.
  intros H (R1 & R2 & _). pose proof H as (H1 & H2 & _). unfold append. cbn [with_size b_size b_bits]. rewrite H1, H2, R1, R2. destruct (_ =? 0); [exact H|].
  set (n := words_for _). set (x := if n <? _ then _ else v_grow gr _ n). set (y := if n <? _ then _ else v_grow gr' _ n).
  assert (S : b_bits x = b_bits y /\ b_size x = b_size y).
  { unfold x, y. destruct (n <? _); [cbn; split; auto|apply grow_sim; cbn; auto]. }
  clearbody x y. destruct S as (S1 & S2). rewrite S1. destruct (_ =? 0).
  - destruct (_ <=? _); cbn; auto. apply sim_back; cbn; auto.
  - apply rsim_same. intros w. apply rsim_same. intros (ws & cur). apply rsim_same. intros z. apply rsim_same. intros ws2. destruct (_ <? _).
    + apply rsim_same. intros w3. apply rsim_same. intros ws3. cbn. apply sim_back; cbn; auto.
    + cbn. apply sim_back; cbn; auto.
Qed.
Lemma reverse_sim b b' : sim b b' -> rsim sim (reverse b) (reverse b').
Proof.
  intros H. pose proof H as (H1 & H2 & _). unfold reverse. rewrite H1, H2. apply rsim_same. intros (ws & r). apply rsim_assert. cbn. apply sim_bits. exact H.
Qed.
Lemma bv_sim b b' : sim b b' -> bv_of_builder b = bv_of_builder b'.
Proof. intros (H1 & H2 & _). unfold bv_of_builder. rewrite H1, H2. reflexivity. Qed.

(** ** histories *)
Definition ssim (s s' : nat -> builder) : Prop := forall i, sim (s i) (s' i).
Lemma put_sim s s' i b b' : ssim s s' -> sim b b' -> ssim (put s i b) (put s' i b').
Proof. intros H K j. unfold put. destruct (Nat.eqb j i); auto. Qed.
Lemma step_sim gr gr' o s s' : no_reserve o = true -> ssim s s' -> rsim ssim (step gr s o) (step gr' s' o).
Proof.
  intros N H. destruct o; cbn [step] in *; try discriminate.
  - apply rsim_same. intros b. cbn. apply put_sim; [exact H|apply sim_refl].
  - apply (rsim_bind sim); [apply push_sim, H|]. intros. cbn. apply put_sim; auto.
  - apply (rsim_bind sim); [apply bset_sim, H|]. intros. cbn. apply put_sim; auto.
  - apply (rsim_bind sim); [apply set_bits_sim, H|]. intros. cbn. apply put_sim; auto.
  - apply (rsim_bind sim); [apply append_bits_sim, H|]. intros. cbn. apply put_sim; auto.
  - apply (rsim_bind sim); [apply zero_sim, H|]. intros. cbn. apply put_sim; auto.
  - apply (rsim_bind sim); [apply one_sim, H|]. intros. cbn. apply put_sim; auto.
  - apply (rsim_bind sim); [apply append_sim; apply H|]. intros. cbn. apply put_sim; auto.
  - apply (rsim_bind sim); [apply reverse_sim, H|]. intros. cbn. apply put_sim; auto.
  - cbn. apply put_sim; [apply put_sim; [exact H|]|]; [pose proof (H j) as K|pose proof (H i) as K]; destruct K as (K1 & K2 & K3); repeat split; auto.
Qed.
Lemma run_sim gr gr' os : forall s s', forallb no_reserve os = true -> ssim s s' -> rsim ssim (run gr s os) (run gr' s' os).
Proof.
  induction os as [|o os IH]; intros s s' N H; cbn [run]; [exact H|]. cbn in N. apply andb_true_iff in N. destruct N as (N1 & N2).
  apply (rsim_bind ssim); [apply step_sim; auto|]. intros. apply IH; auto.
Qed.
Lemma repro_builder gr gr' os i : forallb no_reserve os = true ->
  (do st <- run gr builders0 os; bv_of_builder (st i)) = (do st <- run gr' builders0 os; bv_of_builder (st i)).
Proof.
  intros N. pose proof (run_sim gr gr' os builders0 builders0 N (fun i => sim_refl _)) as S.
  destruct (run gr builders0 os), (run gr' builders0 os); cbn in S |- *; try contradiction; [|congruence]. apply bv_sim, S.
Qed.
Lemma repro_histories gr gr' os os' i j : legal_run seqs0 os -> legal_run seqs0 os' -> spec_run seqs0 os i = spec_run seqs0 os' j ->
  (do st <- run gr builders0 os; bv_of_builder (st i)) = (do st <- run gr' builders0 os'; bv_of_builder (st j)) /\
  (do st <- run gr builders0 os; bv_of_builder (st i)) = Ok (canonical (spec_run seqs0 os i)) /\ bv_range (spec_run seqs0 os i) = canonical (spec_run seqs0 os i).
Proof.
  intros L L' E. destruct (run_ok gr os builders0 seqs0 sinv0 L) as (st & -> & H). destruct (run_ok gr' os' builders0 seqs0 sinv0 L') as (st' & -> & H').
  cbn [bind]. rewrite (binv_bv _ _ (H i)), (binv_bv _ _ (H' j)), E, bv_range_ok. auto.
Qed.

(** ** elias_fano *)
Definition esim (b b' : ef_builder) : Prop :=
  eb_n b = eb_n b' /\ eb_m b = eb_m b' /\ eb_pos b = eb_pos b' /\ eb_last b = eb_last b' /\ eb_l b = eb_l b' /\
  sim (eb_high b) (eb_high b') /\ sim (eb_low b) (eb_low b').
Lemma ef_new_sim gr gr' n m : rsim esim (ef_builder_new gr n m) (ef_builder_new gr' n m).
Proof.
  unfold ef_builder_new. apply rsim_same. intros l. apply rsim_same. intros h. apply rsim_same. intros high.
  change (new_builder 0 false) with (Ok (mk_builder [] 0 0 0 None)). cbn [bind]. apply rsim_assert. cbn.
  assert (X : sim (reserve gr (mk_builder [] 0 0 0 None) (u64 (m * l))) (reserve gr' (mk_builder [] 0 0 0 None) (u64 (m * l)))).
  { destruct (reserve_none gr (mk_builder [] 0 0 0 None) (u64 (m * l)) eq_refl) as (A1 & A2 & A3), (reserve_none gr' (mk_builder [] 0 0 0 None) (u64 (m * l)) eq_refl) as (B1 & B2 & B3).
    repeat split; congruence. }
  repeat split; auto; apply X.
Qed.
Lemma ef_push_sim gr gr' b b' i : esim b b' -> rsim esim (ef_push gr b i) (ef_push gr' b' i).
Proof.
  intros (E1 & E2 & E3 & E4 & E5 & S1 & S2). unfold ef_push. rewrite E1, E2, E3, E4, E5. apply rsim_assert. apply rsim_same. intros m.
  apply (rsim_bind sim); [destruct (_ =? 0); [exact S2|apply append_bits_sim, S2]|]. intros low low' L. apply rsim_same. intros h.
  apply (rsim_bind sim); [apply bset_sim, S1|]. intros high high' Hh. apply rsim_assert. cbn. repeat split; auto; try apply Hh; apply L.
Qed.
Lemma ef_build_sim b b' idx : esim b b' -> ef_build b idx = ef_build b' idx.
Proof. intros (E1 & E2 & E3 & E4 & E5 & S1 & S2). unfold ef_build. rewrite E1, E5, (bv_sim _ _ S1), (bv_sim _ _ S2). reflexivity. Qed.
Lemma rsim_end {A B C} (R : A -> B -> Prop) m m' (f : A -> res C) g : rsim R m m' -> (forall x y, R x y -> f x = g y) -> bind m f = bind m' g.
Proof. destruct m, m'; cbn; intros H K; auto; try contradiction. congruence. Qed.
Lemma repro_ef gr gr' n m vs idx : ef_make gr n m vs idx = ef_make gr' n m vs idx.
Proof.
  unfold ef_make. apply (rsim_end esim); [apply ef_new_sim|]. intros b b' S. apply (rsim_end esim); [|intros; apply ef_build_sim; auto].
  revert b b' S. induction vs as [|v vs IH]; intros b b' S; cbn [ef_push_all]; [exact S|]. apply (rsim_bind esim); [apply ef_push_sim, S|]. intros. apply IH; auto.
Qed.
Lemma repro_ef_bits gr gr' b b' idx : sim b b' -> ef_of_bits gr b idx = ef_of_bits gr' b' idx.
Proof.
  intros Sb. pose proof Sb as (B1 & B2 & _). unfold ef_of_bits. rewrite B1, B2, (bv_sim _ _ Sb). destruct (bv_of_builder b') as [bv|r]; cbn [bind]; [|reflexivity].
  apply (rsim_end esim); [apply ef_new_sim|]. intros c c' S. apply (rsim_end esim); [|intros; apply ef_build_sim; auto].
  generalize (Z.to_nat (fold_left (fun m w => m + popcount w) (b_bits b') 0)) as k. generalize 0 as i. intros i k. revert i c c' S.
  induction k as [|k IH]; intros i c c' S; cbn [ef_ones_loop]; [exact S|]. apply rsim_same. intros j. apply (rsim_bind esim); [apply ef_push_sim, S|]. intros. apply IH; auto.
Qed.
Lemma repro_efl gr gr' ints : efl_build gr ints = efl_build gr' ints.
Proof.
  unfold efl_build. apply (rsim_end esim); [apply ef_new_sim|]. intros c c' S. apply (rsim_end esim); [|intros; apply ef_build_sim; auto].
  generalize 0 as s. revert c c' S. induction ints as [|x ints IH]; intros c c' S s; cbn [efl_loop]; [exact S|]. apply (rsim_bind esim); [apply ef_push_sim, S|]. intros. apply IH; auto.
Qed.
Lemma repro_efc gr gr' ints : efc_build gr ints = efc_build gr' ints.
Proof.
  unfold efc_build. destruct (code_sum ints 0) as [s|r]; cbn [bind]; [|reflexivity]. apply (rsim_end esim); [apply ef_new_sim|]. intros c c' S.
  destruct (new_builder 0 false) as [bits|r]; cbn [bind]; [|reflexivity]. apply (rsim_end esim); [apply ef_push_sim, S|]. intros e e' Se.
  apply (rsim_end (fun p q => esim (fst p) (fst q) /\ sim (snd p) (snd q))).
  - assert (Sb : sim bits bits) by apply sim_refl. revert Sb Se. generalize bits at 2 4 as bits'. revert bits e e'.
    induction ints as [|x ints IH]; intros bits e e' bits' Sb Se; cbn [efc_loop]; [cbn; auto|]. apply rsim_same. intros l. apply rsim_same. intros m.
    apply (rsim_bind sim); [apply append_bits_sim, Sb|]. intros y y' Sy. pose proof Sy as (_ & -> & _). apply (rsim_bind esim); [apply ef_push_sim, Se|]. intros. apply IH; auto.
  - intros (x & y) (x' & y') (S1 & S2). cbn in S1, S2. rewrite (ef_build_sim _ _ false S1), (bv_sim _ _ S2). reflexivity.
Qed.

(** ** darray64 and the gamma codes *)
Definition dsim (b b' : d64_builder) : Prop :=
  d64b_n b = d64b_n b' /\ sim (d64b_bits b) (d64b_bits b') /\ d64b_blocks b = d64b_blocks b' /\ d64b_subs b = d64b_subs b'.
Lemma append1_sim gr gr' b b' s : dsim b b' -> rsim dsim (append1 gr b s) (append1 gr' b' s).
Proof.
  intros (E1 & S & E2 & E3). unfold append1. rewrite E1, E2, E3. apply (rsim_bind sim); [apply append_bits_sim, S|]. intros x x' Sx.
  apply (rsim_bind sim); [apply push_sim, Sx|]. intros y y' Sy. pose proof Sy as (_ & -> & _). apply rsim_same. intros subs. cbn. repeat split; auto; apply Sy.
Qed.
Lemma d64_build_sim b b' : dsim b b' -> d64_build b = d64_build b'.
Proof. intros (E1 & S & E2 & E3). unfold d64_build. rewrite E1, E2, E3, (bv_sim _ _ S). reflexivity. Qed.
Lemma dsim_refl b : dsim b b.
Proof. repeat split. Qed.
Lemma repro_d64 gr gr' skips : (do b <- append1_all gr d64_new skips; d64_build b) = (do b <- append1_all gr' d64_new skips; d64_build b).
Proof.
  apply (rsim_end dsim); [|intros; apply d64_build_sim; auto]. assert (S : dsim d64_new d64_new) by apply dsim_refl. revert S. generalize d64_new at 1 3 as b. generalize d64_new as b'.
  induction skips as [|s skips IH]; intros b' b S; cbn [append1_all]; [exact S|]. apply (rsim_bind dsim); [apply append1_sim, S|]. intros. apply IH; auto.
Qed.
Definition psim (p q : d64_builder * builder) : Prop := dsim (fst p) (fst q) /\ sim (snd p) (snd q).
Lemma repro_gv gr gr' ints : gv_build gr ints = gv_build gr' ints.
Proof.
  unfold gv_build. destruct (new_builder 0 false) as [low|r]; cbn [bind]; [|reflexivity]. apply (rsim_end dsim); [apply append1_sim, dsim_refl|]. intros h h' Sh.
  apply (rsim_end psim).
  - assert (Sb : sim low low) by apply sim_refl. revert Sb Sh. generalize low at 2 4 as low'. revert low h h'.
    induction ints as [|x ints IH]; intros low h h' low' Sb Sh; cbn [gv_loop]; [split; auto|]. apply rsim_same. intros r. apply rsim_same. intros m.
    apply (rsim_bind sim); [apply append_bits_sim, Sb|]. intros y y' Sy. apply (rsim_bind dsim); [apply append1_sim, Sh|]. intros. apply IH; auto.
  - intros (x & y) (x' & y') (S1 & S2). cbn in S1, S2. rewrite (d64_build_sim _ _ S1), (bv_sim _ _ S2). reflexivity.
Qed.
Lemma repro_gb gr gr' ints : gb_build gr ints = gb_build gr' ints.
Proof.
  unfold gb_build. destruct (new_builder 0 false) as [low|r]; cbn [bind]; [|reflexivity]. apply (rsim_end dsim); [apply append1_sim, dsim_refl|]. intros h h' Sh.
  apply (rsim_end psim).
  - assert (Sb : sim low low) by apply sim_refl. revert Sb Sh. generalize low at 2 4 as low'. revert low h h'.
    induction ints as [|x ints IH]; intros low h h' low' Sb Sh; cbn [gb_loop]; [split; auto|]. apply rsim_same. intros r. apply rsim_assert.
    apply (rsim_bind dsim); [apply append1_sim, Sh|]. intros. apply rsim_same. intros m.
    apply (rsim_bind sim); [apply append_bits_sim, Sb|]. intros y' y'' Sy. apply IH; auto.
  - intros (x & y) (x' & y') (S1 & S2). cbn in S1, S2. rewrite (d64_build_sim _ _ S1), (bv_sim _ _ S2). reflexivity.
Qed.

(** ** cartesian_tree and topk_vector *)
Definition csim {T} (c c' : ct_builder T) : Prop := cb_stack c = cb_stack c' /\ sim (cb_bp c) (cb_bp c').
Lemma cb_new_sim {T} gr gr' e e' : rsim (@csim T) (cb_new gr e) (cb_new gr' e').
Proof.
  unfold cb_new. change (new_builder 0 false) with (Ok (mk_builder [] 0 0 0 None)). cbn [bind rsim]. split; [reflexivity|]. cbn [cb_bp].
  assert (X : forall g x, sim (if x =? 0 then mk_builder [] 0 0 0 None else reserve g (mk_builder [] 0 0 0 None) (u64 (2 * x + 2))) (mk_builder [] 0 0 0 None)).
  { intros g x. destruct (x =? 0); [apply sim_refl|apply reserve_none; reflexivity]. }
  destruct (X gr e) as (A1 & A2 & A3), (X gr' e') as (B1 & B2 & B3). repeat split; congruence.
Qed.
Lemma cb_pop_sim {T} gr gr' (comp : T -> T -> bool) val : forall st b b', sim b b' ->
  rsim (fun p q => fst p = fst q /\ sim (snd p) (snd q)) (cb_pop gr comp val st b) (cb_pop gr' comp val st b').
Proof.
  induction st as [|x st IH]; intros b b' S; cbn [cb_pop]; [split; auto|]. destruct (comp val x); [|split; auto].
  apply (rsim_bind sim); [apply push_sim, S|]. intros. apply IH; auto.
Qed.
Lemma cb_push_sim {T} gr gr' (comp : T -> T -> bool) c c' val : csim c c' -> rsim csim (cb_push gr comp c val) (cb_push gr' comp c' val).
Proof.
  intros (E & S). unfold cb_push. rewrite E. apply (rsim_bind sim); [apply push_sim, S|]. intros x x' Sx. eapply rsim_bind; [apply cb_pop_sim, Sx|].
  intros (st & y) (st' & y') (E' & Sy). cbn in E', Sy. subst. split; auto.
Qed.
Lemma cb_fin_sim {T} gr gr' (c c' : ct_builder T) : csim c c' -> rsim sim (cb_finalize gr c) (cb_finalize gr' c').
Proof.
  intros (E & S). unfold cb_finalize. rewrite E. apply (rsim_bind sim); [apply push_sim, S|]. intros x x' Sx.
  apply (rsim_bind sim).
  - clear E. revert x x' Sx. generalize (cb_stack c') as st0. intros st0. induction st0 as [|t st IH]; intros x x' Sx; cbn [cb_flush]; [exact Sx|]. apply (rsim_bind sim); [apply push_sim, Sx|]. intros. apply IH; auto.
  - intros y y' Sy. apply (rsim_bind sim); [apply push_sim, Sy|]. intros. apply reverse_sim; auto.
Qed.
Lemma cur_or_size b x b' : cur_or b x = Ok b' -> b_size b' = b_size b.
Proof.
  unfold cur_or. destruct (b_cur b) as [(g & k)|]; [|discriminate]. destruct (_ =? _); [|discriminate]. intros E. apply bind_inv in E. destruct E as (w & _ & E).
  apply bind_inv in E. destruct E as (ws & _ & E). injection E as <-. reflexivity.
Qed.
Lemma push_size gr b x b' : push_back gr b x = Ok b' -> b_size b' = b_size b + 1.
Proof.
  unfold push_back. intros E. apply bind_inv in E. destruct E as (w & _ & E). apply bind_inv in E. destruct E as (c & E & F). injection F as <-. cbn. apply cur_or_size in E.
  rewrite E. destruct (_ =? 0); [|reflexivity]. unfold v_push. cbn. rewrite need_size. reflexivity.
Qed.
Lemma pop_size {T} gr (comp : T -> T -> bool) val : forall st b st' b', cb_pop gr comp val st b = Ok (st', b') -> b_size b <= b_size b'.
Proof.
  induction st as [|x st IH]; intros b st' b' E; cbn [cb_pop] in E; [injection E as _ <-; lia|]. destruct (comp val x); [|injection E as _ <-; lia].
  apply bind_inv in E. destruct E as (c & E & F). apply push_size in E. apply IH in F. lia.
Qed.
Lemma pushes_size {T} gr (comp : T -> T -> bool) v : forall c c', cb_pushes gr comp c v = Ok c' -> b_size (cb_bp c) <= b_size (cb_bp c').
Proof.
  induction v as [|x v IH]; intros c c' E; cbn [cb_pushes] in E; [injection E as <-; lia|]. apply bind_inv in E. destruct E as (d & E & F). apply IH in F.
  unfold cb_push in E. apply bind_inv in E. destruct E as (b & E & G). apply bind_inv in G. destruct G as ((st & b2) & G & K). injection K as <-. cbn in *. apply push_size in E. apply pop_size in G. lia.
Qed.
Lemma fin_size {T} gr (c : ct_builder T) b : cb_finalize gr c = Ok b -> b_size (cb_bp c) + 1 < b_size b.
Proof.
  unfold cb_finalize. intros E. apply bind_inv in E. destruct E as (b1 & E1 & E). apply bind_inv in E. destruct E as (b2 & E2 & E). apply bind_inv in E. destruct E as (b3 & E3 & E).
  apply push_size in E1, E3. assert (b_size b = b_size b3).
  { unfold reverse in E. apply bind_inv in E. destruct E as ((ws & r) & _ & E). unfold assert_ in E. destruct (_ =? 0); [|discriminate]. injection E as <-. reflexivity. }
  assert (X : forall st b b', @cb_flush T gr st b = Ok b' -> b_size b <= b_size b').
  { induction st as [|x st IH]; intros d d' K; cbn [cb_flush] in K; [injection K as <-; lia|]. apply bind_inv in K. destruct K as (d2 & K & L). apply push_size in K. apply IH in L. lia. }
  apply X in E2. lia.
Qed.
Lemma bp_uninit_bv u v bv h h0 : bv_size bv <> 0 -> bp_build u bv h h0 = bp_build v bv h h0.
Proof.
  intros N. unfold bp_build, rs_build. destruct (build_pairs _) as [p|]; cbn [bind]; [|reflexivity].
  destruct (if h then _ else _) as [hs|]; cbn [bind]; [|reflexivity]. destruct (if h0 then _ else _) as [hs0|]; cbn [bind]; [|reflexivity].
  unfold build_min_tree. cbn [rs_bv]. replace (bv_size bv =? 0) with false by lia. reflexivity.
Qed.
Lemma repro_ct {T} (comp : T -> T -> bool) gr gr' uninit uninit' e e' v : ct_build gr uninit comp e v = ct_build gr' uninit' comp e' v.
Proof.
  assert (A : ct_build gr uninit comp e v = ct_build gr uninit' comp e v).
  { unfold ct_build. destruct (cb_new gr e) as [c|r] eqn:E1; cbn [bind]; [|reflexivity]. destruct (cb_pushes gr comp c v) as [d|r] eqn:E2; cbn [bind]; [|reflexivity].
    unfold ct_of_builder. destruct (cb_finalize gr d) as [b|r] eqn:E3; cbn [bind]; [|reflexivity]. unfold bv_of_builder, assert_. destruct (_ =? _); cbn [bind]; [|reflexivity].
    apply bp_uninit_bv. cbn [bv_size]. apply fin_size in E3. apply pushes_size in E2. assert (b_size (cb_bp c) = 0); [|lia].
    unfold cb_new in E1. cbn [bind] in E1. injection E1 as <-. cbn [cb_bp]. destruct (e =? 0); [reflexivity|]. unfold reserve. rewrite need_size. reflexivity. }
  rewrite A. unfold ct_build. apply (rsim_end csim); [apply cb_new_sim|]. intros c c' S. apply (rsim_end csim).
  - clear A. revert c c' S. induction v as [|x v IH]; intros c c' S; cbn [cb_pushes]; [exact S|]. apply (rsim_bind csim); [apply cb_push_sim, S|]. intros. apply IH; auto.
  - intros x y Sx. unfold ct_of_builder. apply (rsim_end sim); [apply cb_fin_sim, Sx|]. intros b b' Sb. rewrite (bv_sim _ _ Sb). reflexivity.
Qed.
Lemma repro_tk {T} (lt : T -> T -> bool) gr gr' uninit uninit' v : tk_build gr uninit lt v = tk_build gr' uninit' lt v.
Proof. unfold tk_build. rewrite (repro_ct _ gr gr' uninit uninit' 0 0 v). reflexivity. Qed.

Lemma repro_lists gr gr' :
  (forall n m vs idx, ef_make gr n m vs idx = ef_make gr' n m vs idx) /\ (forall b idx, ef_of_bits gr b idx = ef_of_bits gr' b idx) /\
  (forall ints, efl_build gr ints = efl_build gr' ints) /\ (forall ints, efc_build gr ints = efc_build gr' ints).
Proof. repeat split; intros; [apply repro_ef|apply repro_ef_bits, sim_refl|apply repro_efl|apply repro_efc]. Qed.
Lemma repro_gammas gr gr' :
  (forall skips, (do b <- append1_all gr d64_new skips; d64_build b) = (do b <- append1_all gr' d64_new skips; d64_build b)) /\
  (forall ints, gv_build gr ints = gv_build gr' ints) /\ (forall ints, gb_build gr ints = gb_build gr' ints).
Proof. repeat split; intros; [apply repro_d64|apply repro_gv|apply repro_gb]. Qed.
Lemma repro_trees {T} (comp : T -> T -> bool) gr gr' uninit uninit' v :
  (forall e e', ct_build gr uninit comp e v = ct_build gr' uninit' comp e' v) /\ tk_build gr uninit comp v = tk_build gr' uninit' comp v.
Proof. split; [intros; apply repro_ct|apply repro_tk]. Qed.
