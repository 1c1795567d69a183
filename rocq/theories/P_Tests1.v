(** The test oracles of test_rank_select_common.hpp and test_darray.cpp pass for every input. *)
From Verif Require Import Base Spec Lib M_Broadword M_BitVector M_RsBitVector M_Darray M_EliasFano M_Tests.
From Verif Require Import S_BitVector S_EliasFano P_BvGen P_BvLib P_BvRank P_BitVector P_BvProps P_RsBuild P_RsQuery P_Darray P_EliasFano P_EliasFano2.

Lemma nth_mid {A} (a v : list A) x : nth_error (a ++ x :: v) (length a) = Some x.
Proof. rewrite nth_error_app2, Nat.sub_diag by lia. reflexivity. Qed.
Lemma zlen_snoc {A} (a : list A) x : zlen (a ++ [x]) = zlen a + 1.
Proof. unfold zlen. rewrite app_length. cbn. lia. Qed.
Lemma app_snoc {A} (a v : list A) x : a ++ x :: v = (a ++ [x]) ++ v.
Proof. rewrite <- app_assoc. reflexivity. Qed.

(** ** bits *)
Lemma equal_bits_loop_ok get l : (forall p x, nth_error l p = Some x -> get (Z.of_nat p) = Ok x) ->
  forall v a, l = a ++ v -> equal_bits_loop get v (zlen a) = Ok true.
Proof.
  intros Hg. induction v as [|x v IH]; intros a E; cbn [equal_bits_loop]; auto.
  unfold zlen. rewrite (Hg (length a) x) by (subst l; apply nth_mid). cbn [bind]. rewrite eqb_reflx.
  fold (zlen a). rewrite <- (zlen_snoc a x). apply IH. rewrite E. apply app_snoc.
Qed.

Lemma test_equal_bits_ok get l : (forall p x, nth_error l p = Some x -> get (Z.of_nat p) = Ok x) ->
  test_equal_bits l (zlen l) get = Ok true.
Proof.
  intros Hg. unfold test_equal_bits. rewrite Z.eqb_refl.
  apply (equal_bits_loop_ok get l Hg l []). reflexivity.
Qed.

(** ** rank and select *)
(** [last] is the last position below [n] holding [one], or the sentinel *)
Definition last_ok (one : bool) (l : list bool) (n last : Z) : Prop :=
  (last = 2 ^ 64 - 1 /\ forall p, 0 <= p < n -> nth_error l (Z.to_nat p) = Some (negb one)) \/
  (0 <= last < n /\ nth_error l (Z.to_nat last) = Some one /\
   forall p, last < p < n -> nth_error l (Z.to_nat p) = Some (negb one)).

Lemma last_ok_step one l n last x : 0 <= n -> nth_error l (Z.to_nat n) = Some x -> last_ok one l n last ->
  last_ok one l (n + 1) (if eqb x one then n else last).
Proof.
  intros Hn Hx H. destruct (eqb x one) eqn:E.
  - apply eqb_prop in E. subst x. right. split; [lia|]. split; [auto|]. intros; lia.
  - assert (x = negb one) by (destruct x, one; cbn in *; congruence). subst x.
    destruct H as [[H1 H2]|(H1 & H2 & H3)].
    + left. split; auto. intros p Hp. destruct (Z.eq_dec p n) as [->|]; auto. apply H2; lia.
    + right. split; [lia|]. split; [auto|]. intros p Hp. destruct (Z.eq_dec p n) as [->|]; auto. apply H3; lia.
Qed.

Section RankSelect.
Variable one : bool.
Variables rank_f select_f pred_f succ_f : Z -> res Z.
Variable l : list bool.

Hypothesis Hrank : forall p, (p < length l)%nat -> rank_f (Z.of_nat p) = Ok (Z.of_nat (rank one l p)).
Hypothesis Hsel : forall k q, is_select one l k q -> select_f (Z.of_nat k) = Ok (Z.of_nat q).
Hypothesis Hpred : forall pos q, 0 <= q <= pos -> pos < zlen l -> nth_error l (Z.to_nat q) = Some one ->
  (forall p, q < p <= pos -> nth_error l (Z.to_nat p) = Some (negb one)) -> pred_f pos = Ok q.
Hypothesis Hsucc : forall pos q, 0 <= pos <= q -> nth_error l (Z.to_nat q) = Some one ->
  (forall p, pos <= p < q -> nth_error l (Z.to_nat p) = Some (negb one)) -> succ_f pos = Ok q.

Lemma rank_select_loop_ok : forall v a last, l = a ++ v -> last_ok one l (zlen a) last ->
  rank_select_loop one rank_f select_f pred_f v (zlen a) (Z.of_nat (rank one l (length a))) last = Ok true.
Proof.
  induction v as [|x v IH]; intros a last E L; cbn [rank_select_loop]; auto.
  assert (Hx : nth_error l (length a) = Some x) by (rewrite E; apply nth_mid).
  assert (Hx' : nth_error l (Z.to_nat (zlen a)) = Some x) by (unfold zlen; rewrite Nat2Z.id; auto).
  assert (La : (length a < length l)%nat) by (apply nth_error_Some; congruence).
  unfold zlen at 1. rewrite Hrank by lia. cbn [bind]. rewrite Z.eqb_refl.
  replace (if eqb x one then select_f (Z.of_nat (rank one l (length a))) else Ok (zlen a)) with (Ok (zlen a)).
  2:{ destruct (eqb x one) eqn:Ex; auto. apply eqb_prop in Ex. subst x.
      rewrite (Hsel _ (length a)); [reflexivity|]. split; auto. }
  cbn [bind]. rewrite Z.eqb_refl.
  pose proof (last_ok_step one l (zlen a) last x ltac:(unfold zlen; lia) Hx' L) as L'.
  set (last' := if eqb x one then zlen a else last) in *.
  assert (Er : (if eqb x one then Z.of_nat (rank one l (length a)) + 1 else Z.of_nat (rank one l (length a)))
     = Z.of_nat (rank one l (length (a ++ [x])))).
  { rewrite app_length. cbn [length]. rewrite Nat.add_1_r, (rank_S one l (length a) x Hx).
    replace (eqb one x) with (eqb x one) by (destruct x, one; reflexivity).
    destruct (eqb x one); lia. }
  assert (R : rank_select_loop one rank_f select_f pred_f v (zlen a + 1)
     (if eqb x one then Z.of_nat (rank one l (length a)) + 1 else Z.of_nat (rank one l (length a))) last' = Ok true).
  { rewrite Er, <- (zlen_snoc a x). apply IH; [rewrite E; apply app_snoc|]. rewrite zlen_snoc. exact L'. }
  destruct (Z.eqb_spec last' (2 ^ 64 - 1)) as [D|D]; [exact R|].
  destruct L' as [[L1 _]|(L1 & L2 & L3)]; [congruence|].
  rewrite (Hpred (zlen a) last'); [|lia| |auto|intros; apply L3; lia].
  - cbn [bind]. rewrite Z.eqb_refl. exact R.
  - unfold zlen. lia.
Qed.

(** the same from the other end *)
Definition next_ok (n next : Z) : Prop :=
  (next = 2 ^ 64 - 1 /\ forall p, n <= p < zlen l -> nth_error l (Z.to_nat p) = Some (negb one)) \/
  (n <= next < zlen l /\ nth_error l (Z.to_nat next) = Some one /\
   forall p, n <= p < next -> nth_error l (Z.to_nat p) = Some (negb one)).

Lemma next_ok_step n next x : 0 <= n < zlen l -> nth_error l (Z.to_nat n) = Some x -> next_ok (n + 1) next ->
  next_ok n (if eqb x one then n else next).
Proof.
  clear Hrank Hsel Hpred Hsucc rank_f select_f pred_f succ_f. intros Hn Hx H. destruct (eqb x one) eqn:E.
  - apply eqb_prop in E. subst x. right. split; [lia|]. split; [auto|]. intros; lia.
  - assert (x = negb one) by (destruct x, one; cbn in *; congruence). subst x.
    destruct H as [[H1 H2]|(H1 & H2 & H3)].
    + left. split; auto. intros p Hp. destruct (Z.eq_dec p n) as [->|]; auto. apply H2; lia.
    + right. split; [lia|]. split; [auto|]. intros p Hp. destruct (Z.eq_dec p n) as [->|]; auto. apply H3; lia.
Qed.

Lemma successor_loop_ok : forall v b last, l = rev v ++ b -> next_ok (zlen v) last ->
  successor_loop one succ_f v (zlen v - 1) last = Ok true.
Proof.
  induction v as [|x v IH]; intros b last E L; cbn [successor_loop]; auto.
  assert (Zv : zlen (x :: v) - 1 = zlen v) by (unfold zlen; cbn [length]; lia). rewrite Zv.
  cbn [rev] in E. rewrite <- app_assoc in E. cbn [app] in E.
  assert (Hx : nth_error l (Z.to_nat (zlen v)) = Some x).
  { unfold zlen. rewrite Nat2Z.id, E, <- rev_length. apply nth_mid. }
  assert (Lv : 0 <= zlen v < zlen l).
  { assert (Z.to_nat (zlen v) < length l)%nat by (apply nth_error_Some; congruence). unfold zlen in *. lia. }
  replace (zlen (x :: v)) with (zlen v + 1) in L by lia.
  pose proof (next_ok_step (zlen v) last x Lv Hx L) as L'.
  set (last' := if eqb x one then zlen v else last) in *.
  pose proof (IH (x :: b) last' E L') as R.
  destruct (Z.eqb_spec last' (2 ^ 64 - 1)); [exact R|].
  destruct L' as [[L1 _]|(L1 & L2 & L3)]; [congruence|].
  rewrite (Hsucc (zlen v) last'); [|lia|auto|auto]. cbn [bind]. rewrite Z.eqb_refl. exact R.
Qed.

Lemma test_rank_select_of_ok : test_rank_select_of one rank_f select_f pred_f succ_f l = Ok true.
Proof.
  unfold test_rank_select_of, then_.
  pose proof (rank_select_loop_ok l [] (2 ^ 64 - 1) eq_refl) as R.
  change (zlen (@nil bool)) with 0 in R. cbn [length] in R. rewrite rank_0 in R. change (Z.of_nat 0) with 0 in R.
  rewrite R by (left; split; [reflexivity|intros; lia]). cbn [bind].
  assert (Zr : zlen l = zlen (rev l)) by (unfold zlen; rewrite rev_length; auto). rewrite Zr.
  apply (successor_loop_ok (rev l) []).
  - rewrite rev_involutive, app_nil_r. reflexivity.
  - left. split; [reflexivity|]. intros; lia.
Qed.
End RankSelect.

Lemma test_rs l h h0 : exists rs, rs_build (bv_range l) h h0 = Ok rs /\
  test_equal_bits l (bv_size (rs_bv rs)) (bv_get (rs_bv rs)) = Ok true /\ test_rank_select l rs = Ok true.
Proof.
  destruct (rs_range_ok l h h0) as (rs & E & R). exists rs. split; [auto|].
  pose proof R as (Eb & _).
  destruct (rs_rank_all l h h0) as (rs' & E' & _ & _ & Hr).
  destruct (rs_select_all l h h0) as (rs'' & E'' & Hs1 & Hs0).
  rewrite E in E', E''. injection E' as <-. injection E'' as <-.
  split; [|unfold test_rank_select, then_].
  - rewrite Eb. apply test_equal_bits_ok. intros p x Hx. apply bv_get_nth. auto.
  - rewrite Eb, !test_rank_select_of_ok; auto; intros.
    + destruct (Hr (Z.of_nat p)) as [-> _]; [unfold zlen; lia|]. rewrite Nat2Z.id. reflexivity.
    + apply (predecessor_both false); auto.
    + apply (successor_both false); auto.
    + destruct (Hr (Z.of_nat p)) as [_ ->]; [unfold zlen; lia|]. rewrite Nat2Z.id. reflexivity.
    + apply (predecessor_both true); auto.
    + apply (successor_both true); auto.
Qed.

(** ** elias_fano *)
Lemma rank_gap b l : forall n p, (forall q, (p <= q < p + n)%nat -> nth_error l q = Some (negb b)) ->
  rank b l (p + n) = rank b l p.
Proof.
  induction n as [|n IH]; intros p H; [rewrite Nat.add_0_r; auto|].
  rewrite Nat.add_succ_r, (rank_S b l (p + n) (negb b)) by (apply H; lia).
  rewrite IH by (intros; apply H; lia). destruct b; cbn; lia.
Qed.
Lemma rank_gap_z b l p q : 0 <= p <= q -> (forall r, p <= r < q -> nth_error l (Z.to_nat r) = Some (negb b)) ->
  rank b l (Z.to_nat q) = rank b l (Z.to_nat p).
Proof.
  intros Hp H. replace (Z.to_nat q) with (Z.to_nat p + Z.to_nat (q - p))%nat by lia.
  apply rank_gap. intros r Hr. rewrite <- (Nat2Z.id r). apply H. lia.
Qed.

Lemma ef_pred_ok ef l : zlen l < 2 ^ 64 ->
  (forall p, (p <= length l)%nat -> ef_rank ef (Z.of_nat p) = Ok (Z.of_nat (rank true l p))) ->
  (forall k q, is_select true l k q -> ef_select ef (Z.of_nat k) = Ok (Z.of_nat q)) ->
  forall pos q, 0 <= q <= pos -> pos < zlen l -> nth_error l (Z.to_nat q) = Some true ->
  (forall p, q < p <= pos -> nth_error l (Z.to_nat p) = Some false) -> ef_predecessor1 ef pos = Ok q.
Proof.
  intros Hl Hr Hs pos q Hq Hp Hx Hg. unfold ef_predecessor1.
  rewrite u64_small by (unfold is_u64; lia). rewrite <- (Z2Nat.id (pos + 1)) by lia.
  rewrite Hr by (unfold zlen in *; lia). cbn [bind].
  rewrite (rank_gap_z true l (q + 1) (pos + 1)) by (auto; try lia; intros; apply Hg; lia).
  replace (Z.to_nat (q + 1)) with (S (Z.to_nat q)) by lia. rewrite (rank_S true l _ true Hx). cbn [eqb].
  pose proof (rank_le true l (Z.to_nat q)).
  rewrite sub64_ok by lia.
  replace (Z.of_nat (rank true l (Z.to_nat q) + 1) - 1) with (Z.of_nat (rank true l (Z.to_nat q))) by lia.
  rewrite (Hs _ (Z.to_nat q)) by (split; auto). f_equal. lia.
Qed.
Lemma ef_succ_ok ef l : zlen l < 2 ^ 64 ->
  (forall p, (p <= length l)%nat -> ef_rank ef (Z.of_nat p) = Ok (Z.of_nat (rank true l p))) ->
  (forall k q, is_select true l k q -> ef_select ef (Z.of_nat k) = Ok (Z.of_nat q)) ->
  forall pos q, 0 <= pos <= q -> nth_error l (Z.to_nat q) = Some true ->
  (forall p, pos <= p < q -> nth_error l (Z.to_nat p) = Some false) -> ef_successor1 ef pos = Ok q.
Proof.
  intros Hl Hr Hs pos q Hq Hx Hg. unfold ef_successor1.
  assert (Z.to_nat q < length l)%nat by (apply nth_error_Some; congruence).
  rewrite <- (Z2Nat.id pos) by lia. rewrite Hr by lia. cbn [bind].
  rewrite <- (rank_gap_z true l pos q) by auto.
  rewrite (Hs _ (Z.to_nat q)) by (split; auto). f_equal. lia.
Qed.

Lemma delta_loop_ok ef vs n m l H idx : ef_ok ef vs n m l H idx ->
  (forall i, 0 <= i < zlen vs -> ef_select ef i = Ok (W vs i)) -> (forall i, 0 <= i < zlen vs -> 0 <= W vs i < 2 ^ 64) ->
  (forall i, 0 < i < zlen vs -> W vs (i - 1) <= W vs i) ->
  forall k i, 0 <= i -> i + Z.of_nat k = zlen vs -> delta_loop ef k i = Ok true.
Proof.
  intros OK Hs Hw Hm. induction k as [|k IH]; intros i Hi Hk; cbn [delta_loop]; auto.
  rewrite Hs by lia. cbn [bind]. rewrite (ef_delta_ok _ _ _ _ _ _ _ OK) by lia.
  pose proof (Hw i ltac:(lia)).
  destruct (Z.eqb_spec i 0) as [E|E]; cbn [bind].
  - subst i. rewrite sub64_ok, Z.sub_0_r, Z.eqb_refl by lia. apply IH; lia.
  - rewrite Hs by lia. cbn [bind]. pose proof (Hw (i - 1) ltac:(lia)). pose proof (Hm i ltac:(lia)).
    rewrite sub64_ok, Z.eqb_refl by lia. apply IH; lia.
Qed.

Lemma select_enum_loop_ok ef vs n m l H idx b : ef_ok ef vs n m l H idx -> vs = positions b 0 ->
  forall v a e, b = a ++ v -> count true v = 0%nat \/ seinv vs l H e (Z.of_nat (count true a)) ->
  select_enum_loop ef v (zlen a) e = Ok true.
Proof.
  intros OK Ev. induction v as [|x v IH]; intros a e E I; cbn [select_enum_loop]; auto.
  destruct x.
  - destruct I as [I|I]; [discriminate|].
    assert (Sx : is_select true b (count true a) (length a)).
    { split; [rewrite E; apply nth_mid|]. rewrite E, rank_app1, rank_all; auto. }
    pose proof (positions_nth _ _ _ Sx) as P. rewrite <- Ev in P.
    destruct (W_of_nth vs _ _ P) as [Hi Hw].
    destruct (se_next_ok _ _ _ _ _ _ _ e (Z.of_nat (count true a)) OK Hi I) as (e' & -> & I'). cbn [bind].
    rewrite Hw. unfold zlen at 1. rewrite Z.eqb_refl. rewrite <- (zlen_snoc a true).
    apply IH; [rewrite E; apply app_snoc|]. right. rewrite count_app. cbn [count count_occ].
    replace (Z.of_nat (count true a + count true [true])) with (Z.of_nat (count true a) + 1); [auto|]. 
    change (count true [true]) with 1%nat. lia.
  - rewrite <- (zlen_snoc a false). apply IH; [rewrite E; apply app_snoc|].
    destruct I as [I|I]; [left; exact I|right]. rewrite count_app. change (count true [false]) with 0%nat.
    rewrite Nat.add_0_r. exact I.
Qed.

Lemma ones_positions l : Z.of_nat (count true l) = zlen (positions l 0).
Proof. rewrite zlen_positions. reflexivity. Qed.

Lemma test_ef gr b l idx : bv_of_builder b = Ok (canonical l) -> zlen l < 2 ^ 61 -> exists ef,
  ef_of_bits gr b idx = Ok ef /\ ef_num_ones ef = Z.of_nat (count true l) /\
  test_delta ef = Ok true /\ test_select_enumeration l ef = Ok true /\
  (idx = true -> test_equal_bits l (ef_size ef) (ef_get ef) = Ok true /\
    test_rank_select_of true (ef_rank ef) (ef_select ef) (ef_predecessor1 ef) (ef_successor1 ef) l = Ok true).
Proof.
  intros Hb Hl. pose proof (positions_input l Hl) as I.
  destruct (ef_make_ok gr _ _ _ idx I) as (ef & H & E & OK).
  destruct (ef_bits gr b l idx Hb Hl) as (ef' & E' & Sz & N & Hs & Hi).
  rewrite (ef_of_bits_eq gr b l idx Hb), E in E'. injection E' as <-.
  exists ef. rewrite (ef_of_bits_eq gr b l idx Hb). split; [auto|]. split; [auto|]. split; [|split].
  - unfold test_delta. rewrite N, Nat2Z.id. pose proof (ones_positions l) as O.
    eapply (delta_loop_ok _ _ _ _ _ _ _ OK); try lia.
    + intros; eapply ef_select_ok; eauto.
    + intros i Hi'. pose proof (positions_range l 0) as F. rewrite Forall_forall in F.
      specialize (F (W (positions l 0) i)). assert (In (W (positions l 0) i) (positions l 0)).
      { eapply nth_error_In. apply W_nth_error. auto. }
      specialize (F H0). lia.
    + intros i Hi'. apply positions_mono; lia.
  - unfold test_select_enumeration. destruct (count true l) as [|c] eqn:C.
    + unfold se_new. rewrite N. pose proof OK as ((L & _) & _ & El & _). rewrite El, shl_ok by lia. cbn [bind].
      change (Z.of_nat 0 =? 0) with true. cbn iota. cbn [bind].
      apply (select_enum_loop_ok _ _ _ _ _ _ _ l OK eq_refl l []); auto.
    + destruct (se_new_ok _ _ _ _ _ _ _ 0 OK) as (e & -> & I'); [rewrite <- ones_positions; lia|]. cbn [bind].
      apply (select_enum_loop_ok _ _ _ _ _ _ _ l OK eq_refl l []); auto.
  - intros J. destruct (Hi J) as [R G]. split.
    + rewrite Sz. apply test_equal_bits_ok. auto.
    + apply test_rank_select_of_ok; auto.
      * intros. apply R. lia.
      * intros. eapply ef_pred_ok; eauto. lia.
      * intros. eapply ef_succ_ok; eauto. lia.
Qed.

(** ** darray *)
Lemma darray_test_loop_ok l d1 d0 :
  (forall k q, is_select true l k q -> darray1_select d1 (canonical l) (Z.of_nat k) = Ok (Z.of_nat q)) ->
  (forall k q, is_select false l k q -> darray0_select d0 (canonical l) (Z.of_nat k) = Ok (Z.of_nat q)) ->
  forall v a, l = a ++ v ->
  darray_test_loop (canonical l) d1 d0 v (zlen a) (Z.of_nat (count true a)) (Z.of_nat (count false a)) =
  Ok (Some (Z.of_nat (count true l), Z.of_nat (count false l))).
Proof.
  intros H1 H0. induction v as [|x v IH]; intros a E; cbn [darray_test_loop].
  { rewrite E, app_nil_r. reflexivity. }
  assert (Sx : is_select x l (count x a) (length a)).
  { split; [rewrite E; apply nth_mid|]. rewrite E, rank_app1, rank_all; auto. }
  pose proof (IH (a ++ [x])) as R. rewrite zlen_snoc, !count_app in R.
  destruct x.
  - rewrite (H1 _ _ Sx). cbn [bind]. unfold zlen at 1. rewrite Z.eqb_refl.
    change (count true [true]) with 1%nat in R. change (count false [true]) with 0%nat in R.
    rewrite Nat.add_0_r in R. replace (Z.of_nat (count true a) + 1) with (Z.of_nat (count true a + 1)) by lia.
    apply R. rewrite E. apply app_snoc.
  - rewrite (H0 _ _ Sx). cbn [bind]. unfold zlen at 1. rewrite Z.eqb_refl.
    change (count true [false]) with 0%nat in R. change (count false [false]) with 1%nat in R.
    rewrite Nat.add_0_r in R. replace (Z.of_nat (count false a) + 1) with (Z.of_nat (count false a + 1)) by lia.
    apply R. rewrite E. apply app_snoc.
Qed.

Lemma sel_count b l k q : is_select b l k q -> (k < count b l)%nat.
Proof.
  intros S. pose proof (is_select_rank_lt _ _ _ _ (length l) S (is_select_bound _ _ _ _ S)) as C.
  rewrite rank_all in C by auto. auto.
Qed.

Lemma test_darray_ok l : zlen l < 2 ^ 63 -> test_darray l = Ok true.
Proof.
  intros Hl. unfold test_darray, test_darray_of. rewrite bv_range_ok.
  destruct (darray_all false l Hl) as (d1 & -> & N1 & H1). cbn [bind].
  destruct (darray_all true l Hl) as (d0 & -> & N0 & H0). cbn [bind negb] in *.
  pose proof (darray_test_loop_ok l d1 d0) as R. specialize (fun A B => R A B l [] eq_refl).
  change (zlen (@nil bool)) with 0 in R. change (Z.of_nat (count true [])) with 0 in R.
  change (Z.of_nat (count false [])) with 0 in R. rewrite R.
  - cbn [bind]. rewrite N1, N0, !Z.eqb_refl. reflexivity.
  - intros k q S. pose proof (sel_count _ _ _ _ S). destruct (H1 (Z.of_nat k)) as (q' & E & S'); [lia|].
    rewrite Nat2Z.id in S'. rewrite (is_select_unique _ _ _ _ _ S S'). exact E.
  - intros k q S. pose proof (sel_count _ _ _ _ S). destruct (H0 (Z.of_nat k)) as (q' & E & S'); [lia|].
    rewrite Nat2Z.id in S'. rewrite (is_select_unique _ _ _ _ _ S S'). exact E.
Qed.
Lemma test_ef_range gr b l idx : bv_of_builder b = Ok (bv_range l) -> zlen l < 2 ^ 61 -> exists ef,
  ef_of_bits gr b idx = Ok ef /\ ef_num_ones ef = Z.of_nat (count true l) /\ test_delta ef = Ok true /\
  test_select_enumeration l ef = Ok true /\
  (idx = true -> test_equal_bits l (ef_size ef) (ef_get ef) = Ok true /\
     test_rank_select_of true (ef_rank ef) (ef_select ef) (ef_predecessor1 ef) (ef_successor1 ef) l = Ok true).
Proof. rewrite bv_range_ok. exact (test_ef gr b l idx). Qed.
