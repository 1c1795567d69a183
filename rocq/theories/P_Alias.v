(** Proofs for M_Alias. *)
From Verif Require Import Base Spec Lib M_BitVector S_BitVector P_BvLib P_Builder M_Alias.

Lemma self_loop_out s : 0 < s < 64 -> forall n i ws cur, 0 <= i -> i + Z.of_nat n <= zlen ws -> 0 <= cur < zlen ws ->
  zlen ws <= cur + Z.of_nat n -> append_self_loop n i ws cur s = Ub OutOfBounds.
Proof.
  intros Hs. induction n as [|n IH]; intros i ws cur Hi Hn Hc Ho; [lia|]. cbn [append_self_loop].
  rewrite (rd_ok 0) by lia. cbn [bind]. rewrite shl_ok by lia. cbn [bind]. rewrite mod_word_ok by lia. cbn [bind].
  rewrite shr_ok by lia. cbn [bind]. destruct (Z.lt_ge_cases (cur + 1) (zlen ws)).
  - rewrite wr_ok by (rewrite zlen_upd; lia). cbn [bind]. apply IH; rewrite ?zlen_upd; lia.
  - unfold wr. rewrite zlen_upd. replace (cur + 1 <? zlen ws) with false by lia. rewrite andb_false_r. reflexivity.
Qed.

Lemma append_self_out gr b l : binv b l -> 64 <= zlen l -> append_self gr b = Ub OutOfBounds.
Proof.
  intros (H1 & (U & E & _) & _) Hl. unfold append_self. replace (b_size b =? 0) with false by lia. cbv zeta.
  cbn [b_size with_size b_bits]. set (pos := zlen (b_bits b)) in *.
  set (n := words_for (b_size b + b_size b)). assert (En : n = (2 * zlen l + 63) / 64) by (unfold n, words_for, ceil_div; f_equal; lia).
  assert (Hp : pos <= n) by (clear - En E Hl; dlia). replace (n <? pos) with false by lia.
  set (b1 := v_grow _ _ _). assert (L1 : zlen (b_bits b1) = n).
  { unfold b1. rewrite v_grow_bits, zlen_app, zlen_repeat. cbn [b_bits with_size]. fold pos. lia. }
  destruct (Z.eqb_spec (b_size b mod 64) 0) as [S0|S0].
  - replace (_ <=? _) with false by (clear - L1 E Hl; dlia). reflexivity.
  - assert (2 <= pos) by (clear - E H1 S0 Hl; dlia).
    rewrite self_loop_out; [reflexivity|clear - S0; dlia|lia|lia|lia|lia].
Qed.

Lemma append_self_small gr b l : binv b l -> zlen l <= 32 -> exists b', append_self gr b = Ok b' /\ binv b' (l ++ l).
Proof.
  intros H Hl. pose proof H as (H1 & (U & E & _) & Hc & _). destruct (append_ok gr b l b l H H) as (b' & A & I). exists b'. split; [|exact I].
  rewrite <- A. unfold append_self, append. destruct (Z.eqb_spec (b_size b) 0) as [|N]; [reflexivity|]. cbv zeta. cbn [b_size with_size b_bits].
  pose proof (zlen_nonneg l). assert (P : zlen (b_bits b) = 1) by (clear - E N H1 Hl H0; dlia). rewrite P.
  replace (words_for _) with 1 by (unfold words_for, ceil_div; clear - N H1 Hl H0; dlia).
  replace (1 <? 1) with false by lia. unfold v_grow, v_need. cbn [b_cap with_size]. replace (1 <=? b_cap b) with true by lia.
  cbn [b_bits with_size]. rewrite P. cbn [Z.sub Z.to_nat repeat]. change (Z.to_nat (1 - 1)) with 0%nat. cbn [repeat]. rewrite app_nil_r.
  cbn [b_bits with_bits]. rewrite P.
  replace (b_size b mod 64 =? 0) with false by (clear - N H1 Hl H0; dlia).
  destruct (b_bits b) as [|w [|v ws]]; [discriminate P| |rewrite !zlen_cons in P; pose proof (zlen_nonneg ws); lia].
  cbn [removelast append_loop append_self_loop bind]. change (Z.to_nat (1 - 1)) with 0%nat. cbn [append_self_loop bind]. change (1 - 1) with 0.
  change (zlen [w] - 1) with 0. rewrite (rd_ok 0) by (cbn; lia). cbn [bind]. rewrite shl_ok by (clear - N H1 Hl H0; dlia). cbn [bind].
  rewrite mod_word_ok by (cbn; lia). cbn [bind]. rewrite zlen_upd. cbn [zlen length]. reflexivity.
Qed.

Lemma append_self_history gr os st i : legal_run seqs0 os -> run gr builders0 os = Ok st ->
  let l := spec_run seqs0 os i in
  (zlen l <= 32 -> exists b, append_self gr (st i) = Ok b /\ bv_of_builder b = Ok (canonical (l ++ l))) /\
  (64 <= zlen l -> append_self gr (st i) = Ub OutOfBounds).
Proof.
  intros L R. destruct (run_ok gr os _ _ sinv0 L) as (st' & R' & I). assert (st' = st) by congruence. subst st'. specialize (I i). cbv zeta. split; intros Hl.
  - destruct (append_self_small gr _ _ I Hl) as (b & E & B). exists b. split; [exact E|]. apply binv_bv, B.
  - eapply append_self_out; eauto.
Qed.
Lemma append_self_long gr os st i : legal_run seqs0 os -> run gr builders0 os = Ok st ->
  64 <= zlen (spec_run seqs0 os i) -> append_self gr (st i) = Ub OutOfBounds.
Proof. intros L R. exact (proj2 (append_self_history gr os st i L R)). Qed.
Lemma append_self_short gr os st i : legal_run seqs0 os -> run gr builders0 os = Ok st ->
  zlen (spec_run seqs0 os i) <= 32 ->
  exists b, append_self gr (st i) = Ok b /\ bv_of_builder b = Ok (canonical (spec_run seqs0 os i ++ spec_run seqs0 os i)).
Proof. intros L R. exact (proj1 (append_self_history gr os st i L R)). Qed.
Lemma append_self_wrong : let l := repeat true 40 in let os := map (PushBack 0) l in let gr := fun c _ => 2 * c in
  exists st b, legal_run seqs0 os /\ spec_run seqs0 os 0 = l /\
  run gr builders0 os = Ok st /\ append_self gr (st 0%nat) = Ok b /\ bv_of_builder b <> Ok (canonical (l ++ l)).
Proof.
  cbv zeta. eexists. eexists. split; [vm_compute; intuition discriminate|]. split; [vm_compute; reflexivity|]. split; [vm_compute; reflexivity|].
  split; [vm_compute; reflexivity|]. vm_compute. discriminate.
Qed.
