(** Proofs for C106 *)
From Verif Require Import Base Spec Lib M_BitVector M_Bp M_Gen M_GenBits.
From Verif Require Import S_Bp P_RsBuild P_BpSpec P_Gen.

Definition listed (rs : list Z) : nat -> Z := fun i => nth i rs 0.
Lemma listed_range hi rs : 0 <= hi -> Forall (fun r => 0 <= r <= hi) rs -> forall i, 0 <= listed rs i <= hi.
Proof.
  intros H F i. unfold listed. destruct (Nat.lt_ge_cases i (length rs)) as [L|L].
  - apply (proj1 (Forall_forall _ _) F). apply nth_In, L.
  - rewrite nth_overflow by auto. lia.
Qed.

(** ** random_bit_vector *)
Lemma bits_len rm num den rnd : forall n i v, exists w, random_bits_loop rm num den rnd n i v = Ok (v ++ w) /\ length w = n.
Proof.
  induction n as [|n IH]; intros i v; cbn [random_bits_loop].
  - exists []. rewrite app_nil_r. auto.
  - unfold vpush. cbn [bind]. destruct (IH (S i) (v ++ [rnd i * den <? rm * num])) as (w & -> & L).
    eexists (_ :: w). split; [rewrite <- app_assoc; reflexivity|cbn; lia].
Qed.
Lemma bits_any rm num den rnd : 0 < num <= den -> 0 < rm -> forall v i a,
  (forall j, (j < length v)%nat -> rnd (i + j)%nat = nth j (map (fun b : bool => if b then 0 else rm) v) 0) ->
  random_bits_loop rm num den rnd (length v) i a = Ok (a ++ v).
Proof.
  intros Hd Hr. induction v as [|b v IH]; intros i a H; cbn [random_bits_loop length].
  - rewrite app_nil_r. reflexivity.
  - unfold vpush. cbn [bind]. rewrite IH.
    + rewrite <- app_assoc. cbn [app]. do 4 f_equal. specialize (H 0%nat ltac:(cbn; lia)). rewrite Nat.add_0_r in H. rewrite H. cbn [map nth].
      destruct b; nia.
    + intros j Hj. specialize (H (S j) ltac:(cbn; lia)). cbn [map nth] in H. rewrite <- H. f_equal. lia.
Qed.
Lemma all_bits rm num den v : 0 < num <= den -> 0 < rm ->
  exists rnd, (forall i, 0 <= rnd i <= rm) /\ random_bit_vector rm num den rnd (zlen v) = Ok v.
Proof.
  intros Hd Hr. exists (listed (map (fun b : bool => if b then 0 else rm) v)). split.
  - apply listed_range; [lia|]. apply Forall_forall. intros x Hx. apply in_map_iff in Hx. destruct Hx as (b & <- & _). destruct b; lia.
  - unfold random_bit_vector, zlen. rewrite Nat2Z.id. rewrite bits_any by (auto; intros; reflexivity). reflexivity.
Qed.
Lemma some_bits rm num den rnd n : 0 <= n -> exists v, random_bit_vector rm num den rnd n = Ok v /\ zlen v = n.
Proof.
  intros Hn. destruct (bits_len rm num den rnd (Z.to_nat n) 0 []) as (v & E & L). exists v. split; [exact E|]. unfold zlen. lia.
Qed.

Lemma bits_nth rm num den rnd : forall n i v w, random_bits_loop rm num den rnd n i v = Ok (v ++ w) ->
  forall j, (j < n)%nat -> nth j w false = (rnd (i + j)%nat * den <? rm * num).
Proof.
  induction n as [|n IH]; intros i v w E j Hj; [lia|]. cbn [random_bits_loop] in E. unfold vpush in E. cbn [bind] in E.
  destruct (bits_len rm num den rnd n (S i) (v ++ [rnd i * den <? rm * num])) as (w' & E' & _). rewrite E' in E. injection E as E.
  rewrite <- app_assoc in E. apply app_inv_head in E. subst w. cbn [app]. destruct j as [|j]; cbn [nth].
  - rewrite Nat.add_0_r. reflexivity.
  - rewrite (IH _ _ _ E') by lia. replace (S i + j)%nat with (i + S j)%nat by lia. reflexivity.
Qed.
Lemma bits_density rm num den rnd n v : 0 <= n -> random_bit_vector rm num den rnd n = Ok v ->
  forall i, (i < length v)%nat -> nth i v false = true <-> rnd i * den < rm * num.
Proof.
  intros Hn E i Hi. destruct (some_bits rm num den rnd n Hn) as (v' & E' & L). rewrite E' in E. injection E as ->.
  rewrite (bits_nth rm num den rnd (Z.to_nat n) 0 [] v E' i) by (unfold zlen in L; lia). apply Z.ltb_lt.
Qed.

(** ** random_binary_tree *)
Inductive ft := Lf | Nd (a b : ft).
Fixpoint enc (t : ft) : list bool := match t with Lf => [false] | Nd a b => true :: enc a ++ enc b end.
Fixpoint rands (t : ft) : list Z := match t with Lf => [] | Nd a b => (zlen (enc a) - 1) :: rands a ++ rands b end.
Lemma bal_ft u : bal u -> exists t, enc t = u ++ [false].
Proof.
  induction 1 as [|u v _ (a & Ea) _ (b & Eb)]; [exists Lf; reflexivity|]. exists (Nd a b). cbn [enc]. rewrite Ea, Eb.
  cbn [app]. repeat (rewrite <- app_assoc; cbn [app]). reflexivity.
Qed.
Lemma enc_odd t : zlen (enc t) mod 2 = 1 /\ 1 <= zlen (enc t).
Proof.
  induction t as [|a IHa b IHb]; [split; [reflexivity|change (zlen (enc Lf)) with 1; lia]|]. cbn [enc]. rewrite zlen_cons, zlen_app. split; [|lia].
  Z.div_mod_to_equations. lia.
Qed.
Lemma rands_range t : Forall (fun r => 0 <= r <= zlen (enc t) - 3) (rands t).
Proof.
  induction t as [|a IHa b IHb]; [constructor|]. cbn [rands enc]. rewrite zlen_cons, zlen_app. pose proof (enc_odd a) as [_ A]. pose proof (enc_odd b) as [_ B].
  constructor; [lia|]. apply Forall_app. split.
  - eapply Forall_impl; [|exact IHa]. cbv beta. intros; lia.
  - eapply Forall_impl; [|exact IHb]. cbv beta. intros; lia.
Qed.
Lemma helper_any rnd : forall t fuel i v, zlen (enc t) <= Z.of_nat fuel -> zlen (enc t) < 2 ^ 64 ->
  (forall j, (j < length (rands t))%nat -> rnd (i + j)%nat = nth j (rands t) 0) ->
  random_binary_tree_helper vpush rnd fuel i v (zlen (enc t)) = Ok (v ++ enc t, (i + length (rands t))%nat).
Proof.
  induction t as [|a IHa b IHb]; intros fuel i v Hf Hs H.
  - destruct fuel; [change (zlen (enc Lf)) with 1 in Hf; lia|]. cbn. rewrite Nat.add_0_r. reflexivity.
  - destruct fuel as [|fuel]; [pose proof (enc_odd (Nd a b)); lia|]. cbn [random_binary_tree_helper].
    pose proof (enc_odd (Nd a b)) as [O1 P1]. pose proof (enc_odd a) as [Oa Pa]. pose proof (enc_odd b) as [Ob Pb].
    rewrite assert_true by lia. cbn [enc rands] in *. rewrite zlen_cons, zlen_app in *.
    replace (zlen (enc a) + zlen (enc b) + 1 =? 1) with false by lia. change (vpush v true) with (Ok (v ++ [true])). cbn [bind].
    pose proof (H 0%nat ltac:(cbn; lia)) as H0. rewrite Nat.add_0_r in H0. cbn [nth] in H0. rewrite H0.
    rewrite sub64_ok by lia. rewrite (u64_small (zlen (enc a) - 1)) by lia. rewrite (Z.mod_small (zlen (enc a) - 1)) by lia.
    replace (2 * ((zlen (enc a) - 1) / 2) + 1) with (zlen (enc a)) by (Z.div_mod_to_equations; lia).
    rewrite (u64_small (zlen (enc a))) by lia. rewrite sub64_ok by lia. rewrite !assert_true by (try lia; rewrite u64_small by lia; lia).
    rewrite IHa.
    + cbn [bind]. replace (zlen (enc a) + zlen (enc b) + 1 - 1 - zlen (enc a)) with (zlen (enc b)) by lia. rewrite IHb.
      * f_equal. f_equal; [repeat (rewrite <- app_assoc; cbn [app]); reflexivity|]. cbn [length]. rewrite app_length. lia.
      * lia.
      * lia.
      * intros j Hj. specialize (H (S (length (rands a) + j)) ltac:(cbn [length]; rewrite app_length; lia)). cbn [nth] in H.
        rewrite app_nth2_plus in H. rewrite <- H. f_equal. lia.
    + lia.
    + lia.
    + intros j Hj. specialize (H (S j) ltac:(cbn [length]; rewrite app_length; lia)). cbn [nth] in H. rewrite app_nth1 in H by auto.
      rewrite <- H. f_equal. lia.
Qed.
Lemma all_trees rm u : bal u -> 0 <= rm -> zlen u - 2 <= rm -> zlen u + 2 < 2 ^ 64 ->
  exists rnd, (forall i, 0 <= rnd i <= rm) /\ random_binary_tree vpush rnd [] (zlen u + 2) = Ok (true :: u ++ [false]).
Proof.
  intros B Hr Hu Hs. destruct (bal_ft u B) as (t & E). exists (listed (rands t)).
  assert (L : zlen (enc t) = zlen u + 1) by (rewrite E, zlen_app; reflexivity). split.
  - apply listed_range; [auto|]. eapply Forall_impl; [|apply rands_range]. cbv beta. intros; lia.
  - unfold random_binary_tree. pose proof (enc_odd t) as [O _]. pose proof (zlen_nonneg u).
    rewrite assert_true by (apply andb_true_iff; split; [apply Z.eqb_eq; Z.div_mod_to_equations; lia|lia]).
    unfold vpush at 1. cbn [bind app]. replace (zlen u + 2 - 1) with (zlen (enc t)) by lia.
    rewrite helper_any by (try lia; intros; reflexivity). cbn [bind app]. rewrite E. reflexivity.
Qed.

(** the path is not produced if rand() is too small *)
Lemma bal_half u : bal u -> zlen u = 2 * Z.of_nat (count true u).
Proof.
  induction 1 as [|u v _ IHu _ IHv]; [reflexivity|]. change (true :: u ++ false :: v) with ([true] ++ u ++ [false] ++ v).
  rewrite !zlen_app, !count_app. change (count true [true]) with 1%nat. change (count true [false]) with 0%nat.
  change (zlen [true]) with 1. change (zlen [false]) with 1. lia.
Qed.
Lemma no_path rm rnd size : (forall i, 0 <= rnd i <= rm) -> size mod 2 = 0 -> rm + 4 < size < 2 ^ 64 ->
  random_binary_tree vpush rnd [] size <> Ok (repeat true (Z.to_nat (size / 2)) ++ repeat false (Z.to_nat (size / 2))).
Proof.
  intros Hr He Hs C. pose proof (Hr 0%nat) as R0. unfold random_binary_tree in C. rewrite assert_true in C by lia.
  unfold vpush at 1 in C. cbn [bind app] in C. apply bind_inv in C. destruct C as ([w i] & E & C). injection C as ->.
  destruct (Z.to_nat size) as [|fuel] eqn:Ef; [lia|]. cbn [random_binary_tree_helper] in E.
  assert (Od : (size - 1) mod 2 = 1) by (Z.div_mod_to_equations; lia).
  rewrite assert_true in E by lia. replace (size - 1 =? 1) with false in E by lia. unfold vpush at 1 in E. cbn [bind app] in E.
  rewrite (sub64_ok (size - 1)) in E by lia. set (r := u64 (rnd 0%nat) mod (size - 1 - 1)) in E.
  assert (Hr2 : 0 <= r <= rm).
  { unfold r. assert (0 <= u64 (rnd 0%nat) <= rnd 0%nat) by (unfold u64; pose proof (Z.mod_pos_bound (rnd 0%nat) (2 ^ 64)); pose proof (Z.mod_le (rnd 0%nat) (2 ^ 64)); lia).
    pose proof (Z.mod_pos_bound (u64 (rnd 0%nat)) (size - 1 - 1)). pose proof (Z.mod_le (u64 (rnd 0%nat)) (size - 1 - 1)). lia. }
  assert (Hl : 1 <= 2 * (r / 2) + 1 <= rm + 1 /\ (2 * (r / 2) + 1) mod 2 = 1) by (Z.div_mod_to_equations; lia).
  rewrite (u64_small (2 * (r / 2) + 1)) in E by lia. set (left := 2 * (r / 2) + 1) in *.
  rewrite sub64_ok in E by lia. rewrite !assert_true in E by (try lia; rewrite u64_small by lia; lia).
  apply bind_inv in E. destruct E as ([w1 i1] & E1 & E).
  destruct (helper_ok _ vpush (fun v l => v = l) (fun b l x H => vpush_ok b l x H) rnd fuel 1 [true; true] [true; true] left eq_refl ltac:(lia) ltac:(lia) ltac:(lia))
    as (w1' & i1' & u & E1' & -> & Bu & Lu). rewrite E1' in E1. injection E1 as <- <-.
  destruct (helper_ok _ vpush (fun v l => v = l) (fun b l x H => vpush_ok b l x H) rnd fuel i1' _ _ (size - 1 - 1 - left) (eq_refl ([true; true] ++ u ++ [false])) ltac:(lia) ltac:(Z.div_mod_to_equations; lia) ltac:(lia))
    as (w2' & i2' & v & E2 & -> & Bv & Lv). cbn [app] in E, E2. rewrite E2 in E. injection E as E _.
  pose proof (bal_half u Bu) as Hu. set (h := Z.to_nat (size / 2)) in *.
  assert (Hh : size = 2 * Z.of_nat h) by (unfold h; Z.div_mod_to_equations; lia).
  pose proof (f_equal (fun l => count true (firstn (length u + 3) l)) E) as K. cbv beta in K.
  change (true :: true :: (u ++ [false]) ++ v ++ [false]) with (([true; true] ++ u ++ [false]) ++ v ++ [false]) in K.
  rewrite firstn_app in K. rewrite firstn_all2 in K by (rewrite !app_length; cbn [length]; lia).
  replace (length u + 3 - length ([true; true] ++ u ++ [false]))%nat with 0%nat in K by (rewrite !app_length; cbn [length]; lia).
  cbn [firstn] in K. rewrite app_nil_r, !count_app in K. change (count true [true; true]) with 2%nat in K. change (count true [false]) with 0%nat in K.
  assert (KR : count true (firstn (length u + 3) (repeat true h ++ repeat false h)) = Nat.min (length u + 3) h).
  { rewrite firstn_app, count_app, repeat_length. 
    assert (FR : forall (b : bool) n m, firstn n (repeat b m) = repeat b (Nat.min n m)).
    { intros b n. induction n as [|n IHn]; intros m; [reflexivity|]. destruct m; [reflexivity|]. cbn [repeat firstn Nat.min]. rewrite IHn. reflexivity. }
    rewrite !FR, !count_repeat. cbn [eqb]. lia. }
  unfold zlen in Lu, Hu. rewrite KR in K. lia.
Qed.

(** ** random_bp *)
Definition step (b : bool) : Z := if b then 1 else -1.
Fixpoint stays (e : Z) (a : list bool) : Prop := match a with [] => True | b :: a => 1 <= e + step b /\ stays (e + step b) a end.
Fixpoint fin (e : Z) (a : list bool) : Z := match a with [] => e | b :: a => fin (e + step b) a end.
Lemma fin_app a : forall e b, fin e (a ++ b) = fin (fin e a) b.
Proof. induction a as [|x a IH]; intros; cbn [app fin]; auto. Qed.
Lemma stays_app a : forall e b, stays e (a ++ b) -> stays e a.
Proof. induction a as [|x a IH]; intros e b; cbn [app stays]; [auto|]. intros [H1 H2]. split; eauto. Qed.
Lemma fin_false k : forall e, fin e (repeat false k) = e - Z.of_nat k.
Proof. induction k as [|k IH]; intros e; cbn [repeat fin step]; [lia|]. rewrite IH. lia. Qed.
Lemma bal_stays u : bal u -> forall e w, 1 <= e -> (stays e w -> stays e (u ++ w)) /\ fin e (u ++ w) = fin e w.
Proof.
  induction 1 as [|u v _ IHu _ IHv]; intros e w He; [auto|]. cbn [app stays fin step]. repeat (rewrite <- app_assoc; cbn [app]).
  destruct (IHu (e + 1) (false :: v ++ w) ltac:(lia)) as [S1 F1]. cbn [stays fin step] in S1, F1.
  replace (e + 1 + -1) with e in * by lia. destruct (IHv e w He) as [S2 F2]. split; [|congruence].
  intros Hw. split; [lia|]. apply S1. auto.
Qed.
Lemma loop_any rm rnd : 0 < rm -> forall a i v e, 0 <= e -> e + zlen a < 2 ^ 31 -> stays e a ->
  (forall j, (j < length a)%nat -> rnd (i + j)%nat = nth j (map (fun b : bool => if b then rm else 0) a) 0) ->
  random_bp_loop vpush rm rnd (length a) i v e = Ok (v ++ a, fin e a).
Proof.
  intros Hr. induction a as [|b a IH]; intros i v e He Hl S H; cbn [random_bp_loop length].
  - rewrite app_nil_r. reflexivity.
  - rewrite zlen_cons in Hl. pose proof (zlen_nonneg a). cbn [stays] in S. destruct S as [S1 S2].
    pose proof (H 0%nat ltac:(cbn; lia)) as R0. rewrite Nat.add_0_r in R0. cbn [map nth] in R0. rewrite R0.
    replace (rm / 2 <? (if b then rm else 0)) with b by (destruct b; symmetry; [apply Z.ltb_lt|apply Z.ltb_ge]; Z.div_mod_to_equations; lia).
    replace (if (e <=? 1) && negb b then true else b) with b.
    2:{ destruct b; [rewrite andb_false_r; reflexivity|]. cbn [step] in S1. replace (e <=? 1) with false by lia. reflexivity. }
    change (if b then 1 else -1) with (step b). unfold int32.
    replace ((- 2 ^ 31 <=? e + step b) && (e + step b <? 2 ^ 31)) with true by (unfold step in *; destruct b; lia). cbn [bind].
    unfold vpush at 1. cbn [bind]. rewrite IH.
    + cbn [fin]. rewrite <- app_assoc. reflexivity.
    + lia.
    + unfold step in *; destruct b; lia.
    + exact S2.
    + intros j Hj. specialize (H (Datatypes.S j) ltac:(cbn; lia)). cbn [map nth] in H. rewrite <- H. f_equal. lia.
Qed.
Lemma push_false_times k : forall v, push_times vpush false k v = Ok (v ++ repeat false k).
Proof.
  induction k as [|k IH]; intros v; cbn [push_times repeat]; [rewrite app_nil_r; reflexivity|]. unfold vpush at 1. cbn [bind].
  rewrite IH, <- app_assoc. reflexivity.
Qed.
Lemma all_bps rm u a k : bal u -> 0 < rm -> true :: u ++ [false] = a ++ repeat false (S k) -> zlen a < 2 ^ 31 ->
  exists rnd, (forall i, 0 <= rnd i <= rm) /\ random_bp vpush rm rnd [] (zlen a) = Ok (true :: u ++ [false]).
Proof.
  intros B Hr E Ha. exists (listed (map (fun b : bool => if b then rm else 0) a)). split.
  { apply listed_range; [lia|]. apply Forall_forall. intros x Hx. apply in_map_iff in Hx. destruct Hx as (b & <- & _). destruct b; lia. }
  assert (E2 : true :: u = a ++ repeat false k).
  { replace (S k) with (k + 1)%nat in E by lia. rewrite repeat_app in E. cbn [repeat] in E. rewrite app_assoc in E.
    change (true :: u ++ [false]) with ((true :: u) ++ [false]) in E. apply app_inj_tail in E. tauto. }
  destruct (bal_stays u B 1 [] ltac:(lia)) as [S1 F1]. rewrite app_nil_r in *. specialize (S1 I).
  assert (S2 : stays 0 (true :: u)) by (cbn [stays step]; split; [lia|exact S1]). assert (F2 : fin 0 (true :: u) = 1) by exact F1.
  rewrite E2 in S2, F2. apply stays_app in S2. rewrite fin_app, fin_false in F2.
  unfold random_bp. unfold zlen at 1. rewrite Nat2Z.id. rewrite loop_any; [|auto|lia|lia|exact S2|intros; reflexivity].
  cbn [bind app]. replace (fin 0 a) with (Z.of_nat (S k)) by lia.
  assert (zlen a <> 0) by (intros Z0; destruct a; [destruct k; discriminate|rewrite zlen_cons in Z0; pose proof (zlen_nonneg a); lia]).
  assert (Hk : Z.of_nat (S k) <= zlen a).
  { assert (G : forall l e, fin e l <= e + zlen l).
    { induction l as [|x l IHl]; intros e; cbn [fin]; [change (zlen (@nil bool)) with 0; lia|]. rewrite zlen_cons. specialize (IHl (e + step x)). unfold step in *. destruct x; lia. }
    specialize (G a 0). lia. }
  rewrite u64_small by lia. rewrite Nat2Z.id, push_false_times. rewrite E. reflexivity.
Qed.
