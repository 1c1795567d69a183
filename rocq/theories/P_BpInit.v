(** Proofs for property C98: the excess tables before and after their constructor *)
From Verif Require Import Base Spec Lib M_Broadword M_BitVector M_RsBitVector M_Bp M_Cartesian M_BpInit S_BitVector S_Bp P_BvLib P_RsBuild P_BpWord P_BpBuild P_BpSpec.

(** ** After the constructor *)

Lemma after_rmq_bytes cs word : forall n i exc mbe mbi, i_rmq_bytes_loop tabs_after cs word n i exc mbe mbi = rmq_bytes_loop cs word n i exc mbe mbi.
Proof.
  induction n as [|n IH]; intros; [reflexivity|]. cbn [i_rmq_bytes_loop rmq_bytes_loop]. cbn [t_fwd_min t_fwd_exc tabs_after].
  repeat (match goal with |- bind ?m _ = bind ?m _ => destruct m; [|reflexivity] end; cbn [bind]). apply IH.
Qed.
Lemma after_rmq_word cs word exc ws me mi : i_excess_rmq_in_word tabs_after cs word exc ws me mi = excess_rmq_in_word cs word exc ws me mi.
Proof. unfold i_excess_rmq_in_word, excess_rmq_in_word. rewrite after_rmq_bytes. reflexivity. Qed.
Lemma after_close_word w bc e : i_find_close_in_word tabs_after w bc e = find_close_in_word w bc e.
Proof. reflexivity. Qed.
Lemma after_open_word w bc e : i_find_open_in_word tabs_after w bc e = find_open_in_word w bc e.
Proof. reflexivity. Qed.

Local Ltac cong IH := repeat first [ reflexivity | apply IH | match goal with
  | |- bind ?m _ = bind ?m _ => destruct m; [cbn [bind]|reflexivity]
  | |- assert_ ?c _ = assert_ ?c _ => destruct c; cbn [assert_]; [|reflexivity]
  | |- context [match ?o with Some _ => _ | None => _ end] => destruct o
  | |- context [if ?c then _ else _] => destruct c
  | |- context [let '(_, _) := ?p in _] => destruct p end ].

Lemma after_close_block words : forall n sb e, i_close_block_loop tabs_after n words sb e = close_block_loop n words sb e.
Proof. induction n as [|n IH]; intros; [reflexivity|]. cbn [i_close_block_loop close_block_loop]. change (i_find_close_in_word tabs_after) with find_close_in_word. cong IH. Qed.
Lemma after_open_block words : forall n bo e, i_open_block_loop tabs_after n words bo e = open_block_loop n words bo e.
Proof. induction n as [|n IH]; intros; [reflexivity|]. cbn [i_open_block_loop open_block_loop]. change (i_find_open_in_word tabs_after) with find_open_in_word. cong IH. Qed.
Lemma after_close_in_block words bo e s : i_find_close_in_block tabs_after words bo e s = find_close_in_block words bo e s.
Proof. unfold i_find_close_in_block, find_close_in_block. rewrite after_close_block. reflexivity. Qed.
Lemma after_open_in_block words bo e s : i_find_open_in_block tabs_after words bo e s = find_open_in_block words bo e s.
Proof. unfold i_find_open_in_block, find_open_in_block. rewrite after_open_block. reflexivity. Qed.

Local Ltac step rw := repeat first [ progress rw | match goal with
  | |- ?x = ?y => constr_eq x y; reflexivity
  | |- bind ?m _ = bind ?m _ => destruct m; [cbn [bind]|reflexivity]
  | |- assert_ ?c _ = _ => destruct c; cbn [assert_]; [|reflexivity]
  | |- match ?o with Some _ => _ | None => _ end = _ => destruct o
  | |- (if ?c then _ else _) = _ => destruct c
  | |- (let '(_, _) := ?p in _) = _ => destruct p end ].

Lemma after_find_close sp bp pos : i_find_close tabs_after sp bp pos = find_close sp bp pos.
Proof.
  unfold i_find_close, find_close. change (i_find_close_in_word tabs_after) with find_close_in_word. cbv zeta.
  step ltac:(rewrite ?after_close_in_block).
Qed.
Lemma after_find_open sp bp pos : i_find_open tabs_after sp bp pos = find_open sp bp pos.
Proof.
  unfold i_find_open, find_open. change (i_find_open_in_word tabs_after) with find_open_in_word. cbv zeta.
  step ltac:(rewrite ?after_open_in_block).
Qed.
Lemma after_enclose sp bp pos : i_enclose tabs_after sp bp pos = enclose sp bp pos.
Proof. unfold i_enclose, enclose. step ltac:(rewrite ?after_find_open). Qed.
Lemma after_rmq_words cs words : forall n w exc me mi, i_rmq_words_loop tabs_after cs n words w exc me mi = rmq_words_loop cs n words w exc me mi.
Proof.
  induction n as [|n IH]; intros; [reflexivity|]. cbn [i_rmq_words_loop rmq_words_loop]. step ltac:(rewrite ?after_rmq_word, ?IH).
Qed.
Lemma after_rmq_block cs words s e exc me mi : i_excess_rmq_in_block tabs_after cs words s e exc me mi = excess_rmq_in_block cs words s e exc me mi.
Proof. unfold i_excess_rmq_in_block, excess_rmq_in_block. rewrite after_rmq_words. reflexivity. Qed.
Lemma after_rmq_blocks cs bp ba bb me mi : i_excess_rmq_blocks tabs_after cs bp ba bb me mi = excess_rmq_blocks cs bp ba bb me mi.
Proof.
  unfold i_excess_rmq_blocks, excess_rmq_blocks. cbv zeta.
  match goal with |- bind ?m _ = bind ?m _ => destruct m as [[bme bmi]|]; [cbn [bind]|reflexivity] end. step ltac:(rewrite ?after_rmq_block).
Qed.
Lemma bind_ext {A B} (m m' : res A) (k k' : A -> res B) : m = m' -> (forall x, k x = k' x) -> bind m k = bind m' k'.
Proof. intros <- H. destruct m; [apply H|reflexivity]. Qed.
Local Ltac ext rw := repeat first [ progress rw | match goal with
  | |- ?x = ?y => constr_eq x y; reflexivity
  | |- bind _ _ = bind _ _ => apply bind_ext; [|intros ?]
  | |- assert_ ?c _ = _ => destruct c; cbn [assert_]; [|reflexivity]
  | |- match ?o with Some _ => _ | None => _ end = _ => destruct o
  | |- (if ?c then _ else _) = _ => destruct c
  | |- (let '(_, _) := ?p in _) = _ => destruct p end ].
Lemma after_rmq cs bp a b : i_excess_rmq tabs_after cs bp a b = excess_rmq cs bp a b.
Proof.
  unfold i_excess_rmq, excess_rmq. cbv zeta. ext ltac:(rewrite ?after_rmq_word, ?after_rmq_block, ?after_rmq_blocks).
Qed.
Lemma after_ct_rmq cs bp a b : i_ct_rmq tabs_after cs bp a b = ct_rmq cs bp a b.
Proof.
  unfold i_ct_rmq, ct_rmq. cbv zeta. destruct (a <=? b); cbn [assert_]; [|reflexivity]. destruct (a =? b); [reflexivity|].
  apply bind_ext; [reflexivity|intros t]. apply bind_ext; [reflexivity|intros t1]. apply bind_ext; [reflexivity|intros t2].
  destruct (t1 =? t2); cbn [assert_]; [|reflexivity].
  apply bind_ext; [reflexivity|intros t3]. apply bind_ext; [reflexivity|intros t4]. apply bind_ext; [apply after_rmq|intros [t5 t6]].
  reflexivity.
Qed.

Lemma after_all : (forall sp bp pos, i_find_close tabs_after sp bp pos = find_close sp bp pos) /\
  (forall sp bp pos, i_find_open tabs_after sp bp pos = find_open sp bp pos) /\ (forall sp bp pos, i_enclose tabs_after sp bp pos = enclose sp bp pos) /\
  (forall cs bp a b, i_excess_rmq tabs_after cs bp a b = excess_rmq cs bp a b) /\ (forall cs bp a b, i_ct_rmq tabs_after cs bp a b = ct_rmq cs bp a b).
Proof. split; [|split; [|split; [|split]]]; intros; [apply after_find_close|apply after_find_open|apply after_enclose|apply after_rmq|apply after_ct_rmq]. Qed.

(** ** Before the constructor *)

Lemma rd_zeros k x : rd (repeat 0 9) k = Ok x -> x = 0.
Proof.
  unfold rd. destruct (_ && _); [|discriminate]. destruct (nth_error _ _) eqn:E; [|discriminate]. intros H. injection H as <-.
  apply nth_error_In in E. apply repeat_spec in E. exact E.
Qed.

Lemma before_close_word w bc e r : i_find_close_in_word tabs_before w bc e <> Ok (Some r).
Proof.
  unfold i_find_close_in_word. destruct (_ && _); [cbn [assert_]|discriminate]. cbv zeta. intros H.
  apply bind_inv in H as (m & _ & H). apply bind_inv in H as ([sh|] & _ & H); [|discriminate].
  apply bind_inv in H as (w' & _ & H). apply bind_inv in H as (k & _ & H). apply bind_inv in H as (b & Hb & H).
  apply rd_zeros in Hb. subst b. discriminate.
Qed.
Lemma before_open_word w bc e r : i_find_open_in_word tabs_before w bc e <> Ok (Some r).
Proof.
  unfold i_find_open_in_word. destruct (_ && _); [cbn [assert_]|discriminate]. cbv zeta. intros H.
  apply bind_inv in H as (m & _ & H). apply bind_inv in H as ([sh|] & _ & H); [|discriminate].
  apply bind_inv in H as (w' & _ & H). apply bind_inv in H as (k & _ & H). apply bind_inv in H as (b & Hb & H).
  apply rd_zeros in Hb. subst b. discriminate.
Qed.
Local Ltac inv H := repeat first [discriminate | match type of H with
  | bind _ _ = Ok _ => let x := fresh "x" in let E := fresh "E" in apply bind_inv in H as (x & E & H)
  | assert_ ?c _ = Ok _ => destruct c; [cbn [assert_] in H|discriminate]
  | match ?o with Some _ => _ | None => _ end = Ok _ => destruct o
  | (if ?c then _ else _) = Ok _ => destruct c end].
Lemma before_close_block words r : forall n sb e, i_close_block_loop tabs_before n words sb e <> Ok (Some r).
Proof.
  induction n as [|n IH]; intros sb e H; [discriminate|]. cbn [i_close_block_loop] in H. cbv zeta in H.
  apply bind_inv in H as (w & _ & H). destruct (0 <? e); [cbn [assert_] in H|discriminate].
  apply bind_inv in H as ([q|] & E & H).
  - destruct (e <=? 64); [exact (before_close_word _ _ _ _ E)|discriminate].
  - apply bind_inv in H as (e' & _ & H). exact (IH _ _ H).
Qed.
Lemma before_open_block words bo r : forall n e, i_open_block_loop tabs_before n words bo e <> Ok (Some r).
Proof.
  induction n as [|n IH]; intros e H; [discriminate|]. cbn [i_open_block_loop] in H. cbv zeta in H.
  destruct (0 <? e); [cbn [assert_] in H|discriminate]. apply bind_inv in H as (w & _ & H).
  apply bind_inv in H as ([q|] & E & H).
  - destruct (e <=? 64); [exact (before_open_word _ _ _ _ E)|discriminate].
  - apply bind_inv in H as (e' & _ & H). exact (IH _ H).
Qed.
Lemma before_close_in_block words bo e s r : i_find_close_in_block tabs_before words bo e s <> Ok (Some r).
Proof. unfold i_find_close_in_block. destruct (_ <? _); [discriminate|]. destruct (0 <? e); [apply before_close_block|discriminate]. Qed.
Lemma before_open_in_block words bo e s r : i_find_open_in_block tabs_before words bo e s <> Ok (Some r).
Proof. unfold i_find_open_in_block. destruct (_ <? _); [discriminate|]. destruct (0 <=? e); [apply before_open_block|discriminate]. Qed.

Lemma before_find_close sp bp pos r : i_find_close tabs_before sp bp pos <> Ok r.
Proof.
  intros H. unfold i_find_close in H. cbv zeta in H.
  apply bind_inv in H as (b & _ & H). destruct b; [cbn [assert_] in H|discriminate].
  apply bind_inv in H as (w & _ & H). apply bind_inv in H as (sw & _ & H). apply bind_inv in H as (o & _ & H).
  apply bind_inv in H as ([q|] & E & H); [exact (before_close_word _ _ _ _ E)|].
  apply bind_inv in H as (e & _ & H). apply bind_inv in H as ([q|] & E1 & H); [exact (before_close_in_block _ _ _ _ _ E1)|].
  apply bind_inv in H as (x1 & _ & H). apply bind_inv in H as (x2 & _ & H). apply bind_inv in H as (x3 & _ & H). apply bind_inv in H as (x4 & _ & H).
  apply bind_inv in H as ([q|] & E2 & H); [exact (before_close_in_block _ _ _ _ _ E2)|discriminate].
Qed.
Lemma before_find_open sp bp pos r : i_find_open tabs_before sp bp pos <> Ok r.
Proof.
  intros H. unfold i_find_open in H. cbv zeta in H. destruct (negb _); [cbn [assert_] in H|discriminate].
  apply bind_inv in H as (w & _ & H). apply bind_inv in H as (sw & _ & H).
  apply bind_inv in H as ([q|] & E & H); [exact (before_open_word _ _ _ _ E)|].
  apply bind_inv in H as (x0 & _ & H). apply bind_inv in H as (e & _ & H). apply bind_inv in H as ([q|] & E1 & H); [exact (before_open_in_block _ _ _ _ _ E1)|].
  apply bind_inv in H as (x1 & _ & H). apply bind_inv in H as (x2 & _ & H). apply bind_inv in H as (x3 & _ & H). apply bind_inv in H as (x4 & _ & H).
  apply bind_inv in H as (x5 & _ & H).
  apply bind_inv in H as ([q|] & E2 & H); [exact (before_open_in_block _ _ _ _ _ E2)|discriminate].
Qed.
Lemma before_searches sp bp pos r : i_find_close tabs_before sp bp pos <> Ok r /\ i_find_open tabs_before sp bp pos <> Ok r /\ i_enclose tabs_before sp bp pos <> Ok r.
Proof.
  split; [apply before_find_close|]. split; [apply before_find_open|].
  intros H. unfold i_enclose in H. apply bind_inv in H as ([] & _ & H); [|discriminate]. exact (before_find_open _ _ _ _ H).
Qed.

Lemma before_rmq_bytes cs word exc mbe mbi : - 2 ^ 31 <= exc < 2 ^ 31 -> mbe <= exc -> forall n i, 0 <= i -> i + Z.of_nat n <= 8 ->
  i_rmq_bytes_loop tabs_before cs word n i exc mbe mbi = Ok (exc, mbe, mbi).
Proof.
  intros He Hm. induction n as [|n IH]; intros i Hi Hn; [reflexivity|]. cbn [i_rmq_bytes_loop]. cbn [t_fwd_min t_fwd_exc tabs_before bind].
  rewrite shr_ok by lia. cbn [bind]. rewrite Z.sub_0_r, Z.add_0_r, !int32_ok by lia. cbn [bind].
  replace (exc <? mbe) with false by lia. apply IH; lia.
Qed.
Lemma before_rmq_word cs word exc ws : - 2 ^ 31 <= exc < 2 ^ 31 -> i_excess_rmq_in_word tabs_before cs word exc ws exc ws = Ok (exc, exc, ws).
Proof. intros H. unfold i_excess_rmq_in_word. rewrite before_rmq_bytes by lia. cbn [bind]. rewrite Z.ltb_irrefl. reflexivity. Qed.

Lemma before_rmq cs uninit h h0 l : zlen l < 2 ^ 31 -> prefix_ok l -> exists bp, bp_build uninit (bv_range l) h h0 = Ok bp /\
  forall a b, 0 <= a <= b -> b <= zlen l -> a / 64 = (b - 1) / 64 -> i_excess_rmq tabs_before cs bp a b = Ok (a, depth l a).
Proof.
  intros Hs HP. destruct (bp_build_ok l uninit h h0 Hs (proj1 (prefix_ok_nonneg l) HP)) as (bp & Eb & HB).
  exists bp. split; [exact Eb|]. destruct HB as (HR & _). intros a b Ha Hb Hw.
  assert (Hx : excess bp a = Ok (depth l a)) by (rewrite (excess_ok l), E_depth by (auto; lia); reflexivity).
  pose proof (E_bound l a ltac:(lia)) as HE. rewrite E_depth in HE by lia.
  unfold i_excess_rmq. replace (a <=? b) with true by lia. cbn [assert_]. rewrite Hx. cbn [bind]. cbv zeta.
  destruct (a =? b) eqn:Eab; [reflexivity|]. apply Z.eqb_neq in Eab.
  assert (HW : bp_words bp = pack l) by (unfold bp_words; rewrite (proj1 HR); reflexivity).
  assert (Hrd : rd (bp_words bp) (a / 64) = Ok (nth (Z.to_nat (a / 64)) (bp_words bp) 0)).
  { apply rd_ok. rewrite HW, zlen_pack. Z.to_euclidean_division_equations; lia. }
  rewrite Hrd. cbn [bind]. pose proof (Z.mod_pos_bound a 64 ltac:(lia)). rewrite shr_ok by lia. cbn [bind].
  destruct (Z.min (64 - a mod 64) (b - a) =? 64) eqn:E64; cbn [bind].
  - rewrite before_rmq_word by lia. cbn [bind]. rewrite Hw, Z.eqb_refl. reflexivity.
  - apply Z.eqb_neq in E64. rewrite shl_ok by lia. cbn [bind]. rewrite before_rmq_word by lia. cbn [bind]. rewrite Hw, Z.eqb_refl. reflexivity.
Qed.
