(** Proofs about elias_fano: enumeration, construction from bits, the lists. *)
From Coq Require Import Sorted.
From Verif Require Import Base Spec Lib M_Broadword P_Broadword P_Broadword2 P_BvLib P_Builder P_BitVector P_BvRank
  M_BitVector S_BitVector P_BvEnum P_RsBuild M_Darray P_Darray M_EliasFano P_EliasFano S_EliasFano P_BvGen.

(** ** Enumeration *)

Definition seinv (vs : list Z) (l : Z) (H : list bool) (e : select_enum) (i : Z) : Prop :=
  se_i e = i /\ se_mask e = u64 (u64 (Z.shiftl 1 l) - 1) /\
  se_in_word e = (if l =? 0 then 0 else 64 / l) /\
  (exists u s, se_high e = Some u /\ uinv u H s /\ Z.of_nat (rank true H (ustart s)) = i) /\
  is_u64 (se_buf e) /\
  if l =? 0 then zlen vs - i <= se_avail e
  else 0 <= se_avail e /\ se_avail e * l <= 64 /\
       forall j, 0 <= j < se_avail e * l -> Z.testbit (se_buf e) j = zbit (pieces l vs) (i * l + j).

Lemma div_small_le q a l : 0 < l -> q = a / l -> q * l <= a.
Proof. intros H ->. pose proof (Z.mul_div_le a l H). lia. Qed.

Lemma se_new_ok ef vs n m l H idx i : ef_ok ef vs n m l H idx -> 0 <= i < zlen vs ->
  exists e, se_new ef i = Ok e /\ seinv vs l H e i.
Proof.
  intros OK Hi. unfold se_new. pose proof OK as ((Hl & _) & _ & El & Eh & _). rewrite El, shl_ok by lia. cbn [bind].
  rewrite (num_ones_ok _ _ _ _ _ _ _ OK). replace (zlen vs =? 0) with false by lia.
  rewrite (d1_select _ _ _ _ _ _ _ OK) by auto. cbn [bind].
  pose proof (hp_range _ _ _ _ _ _ _ OK i Hi) as R. rewrite Eh. cbn [canonical bv_words].
  destruct (unary_new_ok H (hp vs l i)) as (u & -> & U); [lia|apply block_lt; lia|]. cbn [bind].
  rewrite assert_true by lia. eexists. split; [reflexivity|].
  unfold seinv. cbn [se_i se_mask se_in_word se_high se_buf se_avail].
  split; [auto|]. split; [auto|]. split; [auto|]. split; [|split].
  - exists u, (hp vs l i, false). split; [auto|]. split; [auto|].
    destruct (hp_select _ _ _ _ _ _ _ OK i Hi) as [_ E].
    unfold ustart. cbn [fst snd Z.b2z]. rewrite Z.add_0_r, E. lia.
  - unfold is_u64. lia.
  - destruct (Z.eqb_spec l 0); [lia|]. split; [lia|]. split; [lia|]. intros; lia.
Qed.

Lemma se_next_ok ef vs n m l H idx e i : ef_ok ef vs n m l H idx -> 0 <= i < zlen vs -> seinv vs l H e i ->
  exists e', se_next ef e = Ok (W vs i, e') /\ seinv vs l H e' (i + 1).
Proof.
  intros OK Hi (E1 & E2 & E3 & (u & s & E4 & U & Ru) & Eb & Ea). unfold se_next.
  pose proof OK as ((Hl & Hn & Hv & _) & _ & El & Eh & Elow & _). rewrite E1, El.
  assert (LB : exists buf avail,
    (if se_avail e =? 0 then do w <- get_word (ef_low ef) (i * l); Ok (w, sub64 (se_in_word e) 1)
     else Ok (se_buf e, se_avail e - 1)) = Ok (buf, avail) /\ is_u64 buf /\
    if l =? 0 then zlen vs - (i + 1) <= avail
    else 0 <= avail /\ (avail + 1) * l <= 64 /\
         forall j, 0 <= j < (avail + 1) * l -> Z.testbit buf j = zbit (pieces l vs) (i * l + j)).
  { destruct (Z.eqb_spec l 0) as [E0|E0].
    - replace (se_avail e =? 0) with false by lia. exists (se_buf e), (se_avail e - 1).
      split; [auto|]. split; [auto|]. lia.
    - destruct Ea as (A1 & A2 & A3). destruct (Z.eqb_spec (se_avail e) 0) as [EA|EA].
      + rewrite Elow, get_word_bits by (rewrite zlen_pieces by lia; nia). cbn [bind]. rewrite E3.
        assert (D : 1 <= 64 / l <= 64).
        { split; [apply Z.div_le_lower_bound; lia|apply Z.div_le_upper_bound; nia]. }
        rewrite sub64_ok by lia. eexists. exists (64 / l - 1). split; [reflexivity|]. split; [apply value_window_u64|].
        pose proof (div_small_le _ 64 l ltac:(lia) eq_refl).
        split; [lia|]. replace (64 / l - 1 + 1) with (64 / l) by lia. split; [lia|].
        intros j Hj. rewrite testbit_value_z, zbit_window by lia. replace (j <? Z.of_nat 64) with true by lia.
        cbn [andb]. f_equal. lia.
      + exists (se_buf e), (se_avail e - 1). split; [auto|]. split; [auto|].
        replace (se_avail e - 1 + 1) with (se_avail e) by lia. split; [lia|]. split; auto. }
  destruct LB as (buf & avail & -> & Bb & LB). cbn [bind]. rewrite E4, Eh. cbn [canonical bv_words].
  pose proof (hp_range _ _ _ _ _ _ _ OK i Hi) as R. pose proof (hp_select _ _ _ _ _ _ _ OK i Hi) as S.
  replace (Z.to_nat i) with (rank true H (ustart s)) in S by lia.
  destruct (unary_next_ok H u s _ U S) as (u' & -> & U'). cbn [bind]. rewrite Z2Nat.id in * by lia.
  change (mk_bv (zlen H) (pack H)) with (canonical H). rewrite <- Eh.
  rewrite (d1_select _ _ _ _ _ _ _ OK) by auto. cbn [bind]. rewrite assert_true by lia.
  rewrite sub64_ok by lia. rewrite (shl_high _ _ _ _ _ _ _ OK) by auto. cbn [bind].
  rewrite shr_ok by lia. cbn [bind]. rewrite E2.
  assert (Lw : Z.land buf (u64 (u64 (Z.shiftl 1 l) - 1)) = W vs i mod 2 ^ l).
  { apply Z.bits_inj'. intros j Hj. rewrite Z.land_spec, testbit_mask by lia.
    destruct (Z.ltb_spec j l).
    - rewrite Z.mod_pow2_bits_low, andb_true_r by lia. destruct (Z.eqb_spec l 0); [lia|].
      destruct LB as (B1 & B2 & B3). rewrite B3 by nia. apply zbit_pieces; lia.
    - rewrite Z.mod_pow2_bits_high, andb_false_r by lia. auto. }
  rewrite Lw, split_value; [|specialize (Hv i Hi); lia|lia].
  eexists. split; [reflexivity|]. unfold seinv. cbn [se_i se_mask se_in_word se_high se_buf se_avail].
  split; [auto|]. split; [auto|]. split; [auto|]. split; [|split].
  - exists u', (hp vs l i, true). split; [auto|]. split; [auto|].
    destruct S as [S1 S2]. unfold ustart. cbn [fst snd Z.b2z].
    replace (Z.to_nat (hp vs l i + 1)) with (Datatypes.S (Z.to_nat (hp vs l i))) by lia.
    rewrite (rank_S _ _ _ _ S1), S2. cbn [eqb]. lia.
  - unfold is_u64 in *. apply shiftr_range64; auto; lia.
  - destruct (Z.eqb_spec l 0); [auto|]. destruct LB as (B1 & B2 & B3). split; [auto|]. split; [lia|].
    intros j Hj. rewrite Z.shiftr_spec, B3 by lia. f_equal. lia.
Qed.

Lemma skipn_nth {A} (d : A) l n : (n < length l)%nat -> skipn n l = nth n l d :: skipn (S n) l.
Proof. revert n; induction l as [|x l IH]; intros [|n] H; simpl in *; try lia; auto. apply IH. lia. Qed.

Lemma se_run_ok ef vs n m l H idx : ef_ok ef vs n m l H idx -> forall k e i, 0 <= i ->
  i + Z.of_nat k <= zlen vs -> seinv vs l H e i ->
  se_run ef e k = Ok (firstn k (skipn (Z.to_nat i) vs)).
Proof.
  intros OK. induction k as [|k IH]; intros e i Hi Hk E; [reflexivity|]. cbn [se_run].
  destruct (se_next_ok _ _ _ _ _ _ _ e i OK ltac:(lia) E) as (e' & -> & E'). cbn [bind].
  rewrite (IH e' (i + 1) ltac:(lia) ltac:(lia) E'). cbn [bind].
  assert (Hlt : (Z.to_nat i < length vs)%nat) by (unfold zlen in Hk; lia).
  pose proof (skipn_nth 0 vs (Z.to_nat i) Hlt) as Es.
  rewrite Es. cbn [firstn]. unfold W. replace (i <? 0) with false by lia.
  replace (Z.to_nat (i + 1)) with (S (Z.to_nat i)) by lia. reflexivity.
Qed.

(** ** From the specification's vocabulary *)

Lemma W_nth_error vs i : 0 <= i < zlen vs -> nth_error vs (Z.to_nat i) = Some (W vs i).
Proof.
  intros H. unfold W. replace (i <? 0) with false by lia. apply nth_error_nth'. unfold zlen in H. lia.
Qed.
Lemma W_of_nth vs i v : nth_error vs i = Some v -> 0 <= Z.of_nat i < zlen vs /\ W vs (Z.of_nat i) = v.
Proof.
  intros H. assert (i < length vs)%nat by (apply nth_error_Some; congruence).
  split; [unfold zlen; lia|]. unfold W. replace (Z.of_nat i <? 0) with false by lia.
  rewrite Nat2Z.id. apply nth_error_nth with (d := 0) in H. auto.
Qed.
Lemma In_W vs v : In v vs <-> exists i, 0 <= i < zlen vs /\ W vs i = v.
Proof.
  split.
  - intros H. apply In_nth_error in H. destruct H as (i & H). apply W_of_nth in H. eauto.
  - intros (i & H & <-). apply nth_error_In with (Z.to_nat i). apply W_nth_error; auto.
Qed.

Lemma sorted_mono vs : StronglySorted Z.le vs -> mono vs.
Proof.
  induction 1 as [|v vs S IH F]; intros i j Hij Hj; [change (zlen (@nil Z)) with 0 in Hj; lia|].
  rewrite zlen_cons in Hj. rewrite !W_cons. destruct (Z.eqb_spec j 0); [replace (i =? 0) with true by lia; lia|].
  destruct (Z.eqb_spec i 0); [|apply IH; lia].
  rewrite Forall_forall in F. apply F. apply In_W. exists (j - 1). split; [lia|auto].
Qed.

Lemma fits_simple n m : 0 <= n < 2 ^ 64 -> 0 <= m < 2 ^ 61 -> (m = 0 -> n < 2 ^ 62) -> ef_fits n m.
Proof.
  intros Hn Hm H0. split; [auto|]. split; [lia|]. unfold low_len.
  destruct (Z.eqb_spec m 0); cbn [orb]; [rewrite Z.pow_0_r, Z.div_1_r; lia|].
  pose proof (Z.div_mod n m ltac:(lia)) as DM. pose proof (Z.mod_pos_bound n m ltac:(lia)) as MB.
  destruct (Z.eqb_spec (n / m) 0) as [E|E]; [rewrite Z.pow_0_r, Z.div_1_r; nia|].
  assert (Q : 0 < n / m) by (assert (0 <= n / m) by (apply Z.div_pos; lia); lia).
  destruct (Z.log2_spec (n / m) Q) as [_ L]. rewrite Z.pow_succ_r in L by apply Z.log2_nonneg.
  assert (P : 0 < 2 ^ Z.log2 (n / m)) by (apply Z.pow_pos_nonneg; [lia|apply Z.log2_nonneg]).
  assert (n / 2 ^ Z.log2 (n / m) < 2 * m) by (apply Z.div_lt_upper_bound; nia). lia.
Qed.

Lemma push_all_ok gr n m l : forall vs b us H, ebinv b us n m l H -> zlen us + zlen vs <= m ->
  Forall (fun v => 0 <= v <= n) vs -> StronglySorted Z.le vs ->
  (forall i v, 0 <= i < zlen us -> In v vs -> W us i <= v) ->
  exists b' H', ef_push_all gr b vs = Ok b' /\ ebinv b' (us ++ vs) n m l H'.
Proof.
  induction vs as [|v vs IH]; intros b us H I Hm F S X.
  - exists b, H. rewrite app_nil_r. auto.
  - rewrite zlen_cons in Hm. pose proof (zlen_nonneg vs). inversion F; subst. inversion S; subst. cbn [ef_push_all].
    destruct (ef_push_ok gr b us n m l H v I ltac:(lia) ltac:(lia)) as (b1 & H1' & -> & I1).
    { intros i Hi. apply X; simpl; auto. }
    cbn [bind]. destruct (IH b1 (us ++ [v]) H1' I1) as (b2 & H2' & -> & I2); auto.
    + rewrite zlen_app. change (zlen [v]) with 1. lia.
    + intros i x Hi Hx. rewrite W_app. destruct (Z.ltb_spec i (zlen us)); [apply X; [lia|simpl; auto]|].
      rewrite zlen_app in Hi. change (zlen [v]) with 1 in Hi.
      replace (i - zlen us) with 0 by lia. change (W [v] 0) with v.
      match goal with [ G : Forall (Z.le v) vs |- _ ] => rewrite Forall_forall in G; apply G; auto end.
    + exists b2, H2'. rewrite <- app_assoc in I2. auto.
Qed.

Lemma ef_make_ok gr n m vs idx : ef_input n m vs ->
  exists ef H, ef_make gr n m vs idx = Ok ef /\ ef_ok ef vs n m (low_len n m) H idx.
Proof.
  intros (Hn & Hm & H0 & Hk & F & S). unfold ef_make.
  destruct (ef_builder_new_ok gr n m (fits_simple n m Hn Hm H0)) as (b & H & -> & I). cbn [bind].
  destruct (push_all_ok gr n m _ vs b [] H I) as (b' & H' & -> & I'); auto.
  { intros i v. change (zlen (@nil Z)) with 0. lia. }
  cbn [bind]. destruct (ef_build_ok b' _ n m _ H' idx I') as (ef & -> & OK). exists ef, H'. auto.
Qed.

(** rank of a sorted sequence *)
Lemma filter_rank pos : forall vs r, StronglySorted Z.le vs -> 0 <= r <= zlen vs ->
  (forall i, 0 <= i < r -> W vs i < pos) -> (forall i, r <= i < zlen vs -> pos <= W vs i) ->
  zlen (filter (fun v => v <? pos) vs) = r.
Proof.
  induction vs as [|v vs IH]; intros r S Hr A B; [change (zlen (@nil Z)) with 0 in *; change (0 = r); lia|].
  rewrite zlen_cons in *. pose proof (zlen_nonneg vs). inversion S; subst. simpl. destruct (Z.ltb_spec v pos) as [C|C].
  - rewrite zlen_cons, (IH (r - 1)); auto; try lia.
    + destruct (Z.eq_dec r 0) as [->|]; [|lia]. specialize (B 0 ltac:(lia)). rewrite W_cons in B. cbn in B. lia.
    + intros i Hi. specialize (A (i + 1) ltac:(lia)). rewrite W_cons in A.
      replace (i + 1 =? 0) with false in A by lia. replace (i + 1 - 1) with i in A by lia. auto.
    + intros i Hi. destruct (Z.eq_dec r 0) as [->|].
      { specialize (B 0 ltac:(lia)). rewrite W_cons in B. cbn in B. lia. }
      specialize (B (i + 1) ltac:(lia)). rewrite W_cons in B.
      replace (i + 1 =? 0) with false in B by lia. replace (i + 1 - 1) with i in B by lia. auto.
  - assert (r = 0).
    { destruct (Z.eq_dec r 0); auto. specialize (A 0 ltac:(lia)). rewrite W_cons in A. cbn in A. lia. }
    subst r. apply IH; auto; try (pose proof (zlen_nonneg vs); lia).
    intros i Hi. specialize (B (i + 1) ltac:(lia)). rewrite W_cons in B.
    replace (i + 1 =? 0) with false in B by lia. replace (i + 1 - 1) with i in B by lia. auto.
Qed.

(** ** From the bits of a builder *)

Lemma positions_uncons l i p rest : positions l i = p :: rest ->
  i <= p /\ zbit l (p - i) = true /\ (forall q, i <= q < p -> zbit l (q - i) = false) /\
  rest = positions (skipn (Z.to_nat (p + 1 - i)) l) (p + 1).
Proof.
  revert i; induction l as [|b l IH]; intros i E; simpl in E; [discriminate|].
  assert (Z0 : forall q, 0 < q -> zbit (b :: l) q = zbit l (q - 1)).
  { intros q Hq. change (b :: l) with ([b] ++ l). rewrite zbit_app. change (zlen [b]) with 1.
    replace (q <? 1) with false by lia. auto. }
  destruct b.
  - injection E as <- <-. split; [lia|]. rewrite Z.sub_diag. split; [reflexivity|]. split; [intros; lia|].
    replace (Z.to_nat (i + 1 - i)) with 1%nat by lia. reflexivity.
  - destruct (IH _ E) as (A & B & C & D). split; [lia|]. split.
    + rewrite Z0 by lia. rewrite <- B. f_equal. lia.
    + split.
      * intros q Hq. destruct (Z.eq_dec q i) as [->|]; [rewrite Z.sub_diag; reflexivity|].
        rewrite Z0 by lia. rewrite <- (C q) by lia. f_equal. lia.
      * replace (Z.to_nat (p + 1 - i)) with (S (Z.to_nat (p + 1 - (i + 1)))) by lia. auto.
Qed.

Lemma ones_loop_eq gr l : forall rest i b, 0 <= i -> rest = positions (skipn (Z.to_nat i) l) i ->
  ef_ones_loop gr (length rest) (canonical l) i b = ef_push_all gr b rest.
Proof.
  induction rest as [|p rest IH]; intros i b Hi E; [reflexivity|]. cbn [length ef_ones_loop ef_push_all].
  symmetry in E. destruct (positions_uncons _ _ _ _ E) as (A & B & C & D).
  rewrite zbit_skipn, Z2Nat.id in B by lia. replace (p - i + i) with p in B by lia.
  rewrite successor1_eq. rewrite (successor_ok false l i p); try lia; auto.
  - cbn [bind]. destruct (ef_push gr b p) as [b'|]; [|reflexivity]. cbn [bind]. apply IH; [lia|].
    rewrite skipn_plus in D. rewrite D. f_equal. f_equal. lia.
  - pose proof (zbit_pos _ _ _ B eq_refl). lia.
  - intros q Hq. specialize (C q Hq). rewrite zbit_skipn, Z2Nat.id in C by lia. rewrite <- C. f_equal. lia.
Qed.

Lemma popcount_sum ws : Forall is_u64 ws -> forall m,
  fold_left (fun m w => m + popcount w) ws m = m + Z.of_nat (count true (pieces 64 ws)).
Proof.
  induction 1 as [|w ws Hw F IH]; intros m; cbn [fold_left]; [change (m = m + 0); lia|].
  rewrite IH, popcount_correct by auto. unfold pieces. cbn [flat_map]. rewrite count_app.
  change (bits_of (Z.to_nat 64) w) with (word_bits w). lia.
Qed.

Lemma pieces_pack l : pieces 64 (pack l) = padded l.
Proof.
  apply zbit_ext; rewrite zlen_pieces by lia; [rewrite zlen_padded; lia|].
  intros p Hp. rewrite zbit_padded. pose proof (Z.div_mod p 64 ltac:(lia)). pose proof (Z.mod_pos_bound p 64 ltac:(lia)).
  replace p with (p / 64 * 64 + p mod 64) at 1 by lia. rewrite zbit_pieces by dlia.
  rewrite (words_ok_bit (pack l) l) by (try apply words_ok_pack; lia). reflexivity.
Qed.

Lemma count_padded l : count true (padded l) = count true l.
Proof. unfold padded. rewrite count_app, count_repeat. cbn [eqb]. lia. Qed.

Lemma builder_holds b l : bv_of_builder b = Ok (canonical l) -> b_size b = zlen l /\ b_bits b = pack l.
Proof.
  intros H. unfold bv_of_builder in H. apply assert_inv in H. destruct H as [_ H]. injection H; auto.
Qed.

Lemma ef_of_bits_eq gr b l idx : bv_of_builder b = Ok (canonical l) ->
  ef_of_bits gr b idx = ef_make gr (zlen l) (Z.of_nat (count true l)) (positions l 0) idx.
Proof.
  intros H. unfold ef_of_bits, ef_make. destruct (builder_holds _ _ H) as [-> ->].
  rewrite popcount_sum by apply words_ok_pack. rewrite pieces_pack, count_padded, Z.add_0_l, H. cbn [bind].
  destruct (ef_builder_new gr (zlen l) (Z.of_nat (count true l))) as [e|]; [|reflexivity]. cbn [bind].
  rewrite <- (zlen_positions l 0). unfold zlen at 1. rewrite Nat2Z.id.
  rewrite (ones_loop_eq gr l _ 0) by (auto; lia). reflexivity.
Qed.

Lemma positions_input l : zlen l < 2 ^ 61 -> ef_input (zlen l) (Z.of_nat (count true l)) (positions l 0).
Proof.
  intros H. pose proof (zlen_nonneg l). pose proof (count_le true l). pose proof (zlen_positions l 0).
  unfold ef_input. unfold zlen in *. split; [lia|]. split; [lia|]. split; [lia|]. split; [lia|]. split.
  - eapply Forall_impl; [|apply positions_range]. cbv beta. unfold zlen. intros; lia.
  - clear. induction (positions_sorted l 0); constructor; auto. eapply Forall_impl; [|eassumption]. cbv beta; lia.
Qed.

(** ** Lists *)

Fixpoint psums (s : Z) (xs : list Z) : list Z :=
  match xs with
  | [] => []
  | x :: xs => s + x :: psums (s + x) xs
  end.

Lemma zlen_psums s xs : zlen (psums s xs) = zlen xs.
Proof. revert s; induction xs as [|x xs IH]; intros s; [reflexivity|]. simpl. rewrite !zlen_cons, IH. auto. Qed.
Lemma sum_nonneg xs : Forall (fun x => 0 <= x) xs -> 0 <= sum xs.
Proof. induction 1; unfold sum in *; simpl; lia. Qed.
Lemma psums_range s xs : Forall (fun x => 0 <= x) xs -> Forall (fun v => s <= v <= s + sum xs) (psums s xs).
Proof.
  intros F; revert s; induction F as [|x xs Hx F IH]; intros s; simpl; constructor.
  - pose proof (sum_nonneg xs F). unfold sum in *. simpl. lia.
  - eapply Forall_impl; [|apply IH]. cbv beta. unfold sum. simpl. intros; lia.
Qed.
Lemma psums_sorted s xs : Forall (fun x => 0 <= x) xs -> StronglySorted Z.le (psums s xs).
Proof.
  intros F; revert s; induction F as [|x xs Hx F IH]; intros s; simpl; constructor; auto.
  eapply Forall_impl; [|apply psums_range; auto]. cbv beta; intros; lia.
Qed.
Lemma W_psums s xs i : 0 <= i < zlen xs -> W (psums s xs) i = s + sum (firstn (Z.to_nat i + 1) xs).
Proof.
  revert s i; induction xs as [|x xs IH]; intros s i Hi; [change (zlen (@nil Z)) with 0 in Hi; lia|].
  rewrite zlen_cons in Hi. simpl psums. rewrite W_cons. destruct (Z.eqb_spec i 0) as [->|].
  - change (s + x = s + (x + 0)); lia.
  - rewrite IH by lia. replace (Z.to_nat i + 1)%nat with (S (Z.to_nat (i - 1) + 1)) by lia.
    cbn [firstn]. unfold sum. cbn [fold_right]. lia.
Qed.
Lemma sum_firstn_S xs i : 0 <= i < zlen xs ->
  sum (firstn (Z.to_nat i + 1) xs) = sum (firstn (Z.to_nat i) xs) + W xs i.
Proof.
  revert i; induction xs as [|x xs IH]; intros i Hi; [change (zlen (@nil Z)) with 0 in Hi; lia|].
  rewrite zlen_cons in Hi. rewrite W_cons. destruct (Z.eqb_spec i 0) as [->|]; [change (x + 0 = 0 + x); lia|].
  replace (Z.to_nat i) with (S (Z.to_nat (i - 1))) by lia. cbn [firstn Nat.add].
  unfold sum in *. cbn [fold_right]. rewrite IH by lia. lia.
Qed.

Lemma fold_sum64 xs : forall s, Forall (fun x => 0 <= x) xs -> 0 <= s -> s + sum xs < 2 ^ 64 ->
  fold_left (fun s x => u64 (s + x)) xs s = s + sum xs.
Proof.
  induction xs as [|x xs IH]; intros s F Hs H; cbn [fold_left]; [cbn; lia|]. inversion F; subst.
  pose proof (sum_nonneg xs ltac:(auto)). unfold sum in *. cbn [fold_right] in *.
  rewrite u64_small by lia. rewrite IH by (auto; lia). lia.
Qed.

Lemma efl_loop_eq gr : forall ints s b, Forall (fun x => 0 <= x) ints -> 0 <= s -> s + sum ints < 2 ^ 64 ->
  efl_loop gr ints s b = ef_push_all gr b (psums s ints).
Proof.
  induction ints as [|x ints IH]; intros s b F Hs H; [reflexivity|]. inversion F; subst.
  pose proof (sum_nonneg ints ltac:(auto)). unfold sum in *. cbn [fold_right] in *.
  cbn [efl_loop psums ef_push_all]. rewrite u64_small by lia.
  destruct (ef_push gr b (s + x)) as [b'|]; [|reflexivity]. cbn [bind]. apply IH; auto; lia.
Qed.

Lemma efl_build_eq gr ints : Forall (fun x => 0 <= x) ints -> sum ints < 2 ^ 64 - 1 ->
  efl_build gr ints = ef_make gr (sum ints + 1) (zlen ints) (psums 0 ints) false.
Proof.
  intros F H. pose proof (sum_nonneg ints F). unfold efl_build, ef_make.
  rewrite fold_sum64 by (auto; lia). rewrite Z.add_0_l, u64_small by lia.
  destruct (ef_builder_new gr (sum ints + 1) (zlen ints)) as [b|]; [|reflexivity]. cbn [bind].
  rewrite efl_loop_eq by (auto; lia). reflexivity.
Qed.

Lemma efl_all gr ints : Forall (fun x => 0 <= x) ints -> sum ints < 2 ^ 64 - 1 -> zlen ints < 2 ^ 61 ->
  exists c, efl_build gr ints = Ok c /\ efl_size c = zlen ints /\ efl_sum c = sum ints /\
    forall i x, nth_error ints i = Some x -> efl_get c (Z.of_nat i) = Ok x.
Proof.
  intros F HS HL. pose proof (sum_nonneg ints F). pose proof (zlen_nonneg ints). rewrite efl_build_eq by auto.
  destruct (ef_make_ok gr (sum ints + 1) (zlen ints) (psums 0 ints) false) as (c & H' & -> & OK).
  { split; [lia|]. split; [lia|]. split.
    { intros E. destruct ints; [cbn; lia|]. rewrite zlen_cons in E. pose proof (zlen_nonneg ints). lia. }
    rewrite zlen_psums. split; [lia|]. split; [|apply psums_sorted; auto].
    eapply Forall_impl; [|apply psums_range; auto]. cbv beta; intros; lia. }
  exists c. split; [auto|]. unfold efl_size, efl_sum, efl_get.
  rewrite (num_ones_ok _ _ _ _ _ _ _ OK), zlen_psums. split; [auto|].
  pose proof OK as (_ & -> & _). rewrite sub64_ok by lia. split; [lia|].
  intros i x Hx. apply W_of_nth in Hx. destruct Hx as [Hi <-].
  rewrite (ef_delta_ok _ _ _ _ _ _ _ OK) by (rewrite zlen_psums; auto). f_equal.
  destruct (Z.eqb_spec (Z.of_nat i) 0) as [E|E].
  - rewrite E in *. rewrite W_psums, sum_firstn_S by auto.
    change (sum (firstn (Z.to_nat 0) ints)) with 0. lia.
  - rewrite !W_psums by lia. replace (Z.to_nat (Z.of_nat i - 1) + 1)%nat with (Z.to_nat (Z.of_nat i)) by lia.
    rewrite sum_firstn_S by auto. lia.
Qed.

(** *** compressed list *)

Definition code (x : Z) : list bool := bits_of (Z.to_nat (Z.log2 (x + 1))) (x + 1).
Definition codes (ints : list Z) : list bool := flat_map code ints.
Definition code_len (x : Z) : Z := Z.log2 (x + 1).

Lemma zlen_code x : zlen (code x) = code_len x.
Proof. unfold code, code_len. rewrite zlen_bits_of. pose proof (Z.log2_nonneg (x + 1)). lia. Qed.

Lemma code_len_range x : 0 <= x < 2 ^ 64 - 1 -> 0 <= code_len x <= 63.
Proof.
  intros H. unfold code_len. split; [apply Z.log2_nonneg|].
  assert (Z.log2 (x + 1) < 64) by (apply Z.log2_lt_pow2; lia). lia.
Qed.

Lemma code_lens_range ints : Forall (fun x => 0 <= x < 2 ^ 64 - 1) ints ->
  Forall (fun x => 0 <= x) (map code_len ints) /\ 0 <= sum (map code_len ints) <= 63 * zlen ints.
Proof.
  induction 1 as [|x ints Hx F [I1 I2]]; [split; [constructor|change (0 <= 0 <= 63 * 0); lia]|].
  pose proof (code_len_range x Hx). rewrite zlen_cons. unfold sum in *. cbn [map fold_right].
  split; [constructor; auto; lia|lia].
Qed.

Lemma code_sum_ok ints : Forall (fun x => 0 <= x < 2 ^ 64 - 1) ints -> forall s, 0 <= s ->
  s + sum (map code_len ints) < 2 ^ 64 -> code_sum ints s = Ok (s + sum (map code_len ints)).
Proof.
  induction 1 as [|x ints Hx F IH]; intros s Hs H; [cbn; f_equal; lia|].
  destruct (code_lens_range ints F) as [_ R]. pose proof (code_len_range x Hx).
  unfold sum in *. cbn [map fold_right code_sum] in *.
  rewrite u64_small by lia. rewrite msb_correct by (unfold is_u64; lia). cbn [bind].
  fold (code_len x). rewrite u64_small by lia. rewrite IH by lia. f_equal. lia.
Qed.

Lemma xor_top v : 0 < v -> Z.lxor v (2 ^ Z.log2 v) = v mod 2 ^ Z.log2 v.
Proof.
  intros H. apply Z.bits_inj'. intros i Hi. rewrite Z.lxor_spec, Z.pow2_bits_eqb by apply Z.log2_nonneg.
  destruct (Z.lt_trichotomy i (Z.log2 v)) as [C|[->|C]].
  - rewrite Z.mod_pow2_bits_low by lia. replace (Z.log2 v =? i) with false by lia. apply xorb_false_r.
  - rewrite Z.mod_pow2_bits_high by (pose proof (Z.log2_nonneg v); lia). rewrite Z.eqb_refl, Z.bit_log2 by auto. auto.
  - rewrite Z.mod_pow2_bits_high by (pose proof (Z.log2_nonneg v); lia). replace (Z.log2 v =? i) with false by lia.
    rewrite Z.bits_above_log2 by lia. auto.
Qed.

Lemma append_code gr bits l x : binv bits l -> 0 <= x < 2 ^ 64 - 1 ->
  exists bits', append_bits gr bits (Z.lxor (x + 1) (u64 (Z.shiftl 1 (code_len x)))) (code_len x) = Ok bits' /\
    binv bits' (l ++ code x).
Proof.
  intros B Hx. pose proof (code_len_range x Hx) as R.
  assert (P : 1 <= 2 ^ code_len x <= 2 ^ 63).
  { split; [change 1 with (2 ^ 0); apply Z.pow_le_mono_r; lia|apply Z.pow_le_mono_r; lia]. }
  rewrite Z.shiftl_1_l, u64_small by lia. unfold code_len at 1. rewrite xor_top by lia. fold (code_len x).
  destruct (append_bits_ok gr bits l ((x + 1) mod 2 ^ code_len x) (code_len x) B ltac:(lia)) as (b' & E & B').
  { apply Z.mod_pos_bound. lia. }
  exists b'. split; [auto|]. rewrite bits_of_modz in B' by lia. auto.
Qed.

Lemma efc_loop_ok gr : forall ints b bits l n m ll us H, Forall (fun x => 0 <= x < 2 ^ 64 - 1) ints ->
  binv bits l -> ebinv b us n m ll H -> zlen us + zlen ints <= m ->
  zlen l + sum (map code_len ints) <= n -> (forall i, 0 <= i < zlen us -> W us i <= zlen l) ->
  exists b' bits' H', efc_loop gr ints b bits = Ok (b', bits') /\ binv bits' (l ++ codes ints) /\
    ebinv b' (us ++ psums (zlen l) (map code_len ints)) n m ll H'.
Proof.
  induction ints as [|x ints IH]; intros b bits l n m ll us H F B I Hm Hn X.
  - exists b, bits, H. cbn. rewrite !app_nil_r. auto.
  - inversion F as [|? ? Hx F']; subst. rewrite zlen_cons in Hm. cbn [efc_loop].
    pose proof (code_len_range x Hx) as R. destruct (code_lens_range ints F') as [_ R2].
    unfold sum in Hn. cbn [map fold_right] in Hn. fold (sum (map code_len ints)) in Hn.
    rewrite u64_small by lia. rewrite msb_correct by (unfold is_u64; lia). cbn [bind]. fold (code_len x).
    rewrite shl_ok by lia. cbn [bind].
    destruct (append_code gr bits l x B Hx) as (bits1 & -> & B1). cbn [bind].
    pose proof B1 as (Sz & _). rewrite zlen_app, zlen_code in Sz. rewrite Sz.
    pose proof (zlen_nonneg ints). pose proof (zlen_nonneg l).
    destruct (ef_push_ok gr b us n m ll H (zlen l + code_len x) I) as (b1 & G1 & -> & I1); [lia|lia| |].
    { intros i Hi. specialize (X i Hi). lia. }
    cbn [bind].
    destruct (IH b1 bits1 (l ++ code x) n m ll (us ++ [zlen l + code_len x]) G1 F' B1 I1)
      as (b2 & bits2 & G2 & -> & B2 & I2).
    + rewrite zlen_app. change (zlen [zlen l + code_len x]) with 1. lia.
    + rewrite zlen_app, zlen_code. lia.
    + intros i Hi. rewrite W_app, zlen_app, zlen_code. destruct (Z.ltb_spec i (zlen us)); [specialize (X i ltac:(lia)); lia|].
      rewrite W_single. destruct (_ =? 0); lia.
    + exists b2, bits2, G2. split; [auto|]. rewrite zlen_app, zlen_code, <- !app_assoc in *. auto.
Qed.

Lemma zlen_codes ints : zlen (codes ints) = sum (map code_len ints).
Proof.
  induction ints as [|x ints IH]; [reflexivity|]. unfold codes, sum in *. cbn [flat_map map fold_right].
  rewrite zlen_app, zlen_code, IH. auto.
Qed.

Lemma window_mid (a b c : list bool) : window (a ++ b ++ c) (length a) (length b) = b.
Proof.
  unfold window. rewrite skipn_app, skipn_all, Nat.sub_diag. cbn [skipn app].
  rewrite firstn_app, firstn_all, Nat.sub_diag. cbn [firstn]. apply app_nil_r.
Qed.

Lemma window_code ints i : 0 <= i < zlen ints ->
  window (codes ints) (Z.to_nat (sum (firstn (Z.to_nat i) (map code_len ints)))) (Z.to_nat (code_len (W ints i))) =
  code (W ints i).
Proof.
  intros Hi. assert (Hlt : (Z.to_nat i < length ints)%nat) by (unfold zlen in Hi; lia).
  assert (Es : ints = firstn (Z.to_nat i) ints ++ W ints i :: skipn (S (Z.to_nat i)) ints).
  { unfold W. replace (i <? 0) with false by lia. apply split_nth; auto. }
  rewrite firstn_map, <- zlen_codes, <- zlen_code. unfold zlen. rewrite !Nat2Z.id.
  replace (codes ints) with (codes (firstn (Z.to_nat i) ints) ++ code (W ints i) ++ codes (skipn (S (Z.to_nat i)) ints)).
  - apply window_mid.
  - rewrite Es at 4. unfold codes. rewrite flat_map_app. reflexivity.
Qed.

Lemma top_value v : 0 < v -> Z.lor (2 ^ Z.log2 v) (v mod 2 ^ Z.log2 v) = v.
Proof.
  intros H. apply Z.bits_inj'. intros i Hi. rewrite Z.lor_spec, Z.pow2_bits_eqb by apply Z.log2_nonneg.
  destruct (Z.lt_trichotomy i (Z.log2 v)) as [C|[->|C]].
  - rewrite Z.mod_pow2_bits_low by lia. replace (Z.log2 v =? i) with false by lia. auto.
  - rewrite Z.eqb_refl, Z.bit_log2 by auto. auto.
  - rewrite Z.mod_pow2_bits_high by (pose proof (Z.log2_nonneg v); lia). replace (Z.log2 v =? i) with false by lia.
    rewrite Z.bits_above_log2 by lia. auto.
Qed.

Lemma efc_full gr ints : Forall (fun x => 0 <= x < 2 ^ 64 - 1) ints -> zlen ints < 2 ^ 57 ->
  exists c, efc_build gr ints = Ok c /\ ef_num_ones (efc_ef c) = zlen ints + 1 /\ efc_size c = zlen ints /\
    forall i x, nth_error ints i = Some x -> efc_get c (Z.of_nat i) = Ok x.
Proof.
  intros F HL. pose proof (zlen_nonneg ints). destruct (code_lens_range ints F) as [F2 R].
  unfold efc_build. rewrite code_sum_ok by (auto; lia). cbn [bind]. rewrite Z.add_0_l, u64_small by lia.
  set (s := sum (map code_len ints)) in *.
  destruct (ef_builder_new_ok gr (s + 1) (zlen ints + 1)) as (b & H1 & -> & I1).
  { apply fits_simple; lia. }
  cbn [bind]. destruct (new_builder_ok 0 false ltac:(lia)) as (bits & -> & B). cbn [bind].
  change (repeat false (Z.to_nat 0)) with (@nil bool) in B.
  pose proof B as (Sz & _). change (zlen (@nil bool)) with 0 in Sz. rewrite Sz.
  destruct (ef_push_ok gr b [] _ _ _ H1 0 I1) as (b1 & H2 & -> & I2).
  { change (zlen (@nil Z)) with 0. lia. } { lia. } { intros i. change (zlen (@nil Z)) with 0. lia. }
  cbn [bind app] in *.
  destruct (efc_loop_ok gr ints b1 bits [] _ _ _ [0] H2 F B I2) as (b2 & bits2 & H3 & -> & B3 & I3).
  { change (zlen [0]) with 1. lia. } { change (zlen (@nil bool)) with 0. fold s. lia. }
  { intros i Hi. change (zlen (@nil bool)) with 0. rewrite W_single. destruct (_ =? 0); lia. }
  cbn [bind app] in *. change (zlen (@nil bool)) with 0 in I3.
  destruct (ef_build_ok b2 _ _ _ _ H3 false I3) as (ef & -> & OK). cbn [bind].
  rewrite (binv_bv _ _ B3). cbn [bind]. eexists. split; [reflexivity|].
  unfold efc_size, efc_get. cbn [efc_ef efc_bits].
  set (offs := 0 :: psums 0 (map code_len ints)) in *.
  assert (Lo : zlen offs = zlen ints + 1) by (unfold offs; rewrite zlen_cons, zlen_psums, zlen_map; auto).
  assert (Wo : forall i, 0 <= i <= zlen ints -> W offs i = sum (firstn (Z.to_nat i) (map code_len ints))).
  { intros i Hi. unfold offs. rewrite W_cons. destruct (Z.eqb_spec i 0) as [->|]; [reflexivity|].
    rewrite W_psums by (rewrite zlen_map; lia). rewrite Z.add_0_l. do 2 f_equal. lia. }
  rewrite (num_ones_ok _ _ _ _ _ _ _ OK), Lo, sub64_ok by lia. split; [lia|]. split; [lia|].
  intros i x Hx. apply W_of_nth in Hx. destruct Hx as [Hi <-].
  rewrite (ef_select_range_ok _ _ _ _ _ _ _ OK) by lia. cbn [bind].
  assert (Hxi : 0 <= W ints (Z.of_nat i) < 2 ^ 64 - 1).
  { rewrite Forall_forall in F. apply F. apply In_W. eauto. }
  set (x := W ints (Z.of_nat i)) in *. pose proof (code_len_range x Hxi) as Rx.
  rewrite !Wo by lia.
  assert (Estep : sum (firstn (Z.to_nat (Z.of_nat i + 1)) (map code_len ints)) =
                  sum (firstn (Z.to_nat (Z.of_nat i)) (map code_len ints)) + code_len x).
  { replace (Z.to_nat (Z.of_nat i + 1)) with (Z.to_nat (Z.of_nat i) + 1)%nat by lia.
    rewrite sum_firstn_S by (rewrite zlen_map; auto). f_equal.
    unfold W, x, W. replace (Z.of_nat i <? 0) with false by lia.
    rewrite nth_indep with (d' := code_len 0) by (rewrite map_length; unfold zlen in Hi; lia). apply map_nth. }
  rewrite Estep. set (o := sum (firstn (Z.to_nat (Z.of_nat i)) (map code_len ints))) in *.
  assert (Ho : 0 <= o /\ o + code_len x <= zlen (codes ints)).
  { assert (N : forall k, sum (firstn k (map code_len ints)) <= sum (map code_len ints) /\
                  0 <= sum (firstn k (map code_len ints))).
    { intros k. rewrite <- (firstn_skipn k (map code_len ints)) in F2.
      apply Forall_app in F2. destruct F2 as [Fa Fb]. pose proof (sum_nonneg _ Fa). pose proof (sum_nonneg _ Fb).
      assert (Eapp : forall a c, sum (a ++ c) = sum a + sum c).
      { unfold sum. induction a; intros; simpl; [auto|]. rewrite IHa. lia. }
      rewrite <- (firstn_skipn k (map code_len ints)) at 2. rewrite Eapp. lia. }
    pose proof (N (Z.to_nat (Z.of_nat i))) as [_ N1]. pose proof (N (Z.to_nat (Z.of_nat i + 1))) as [N2 _].
    rewrite zlen_codes. rewrite Estep in N2. fold o in N1. lia. }
  rewrite zlen_codes in Ho. fold s in Ho. rewrite sub64_ok by lia. replace (o + code_len x - o) with (code_len x) by lia.
  rewrite shl_ok by lia. cbn [bind].
  rewrite get_bits_ok; try lia; [|rewrite zlen_codes; fold s; lia]. cbn [bind].
  unfold o. rewrite window_code by auto. fold x. unfold code. rewrite value_bits_mod, Z2Nat.id by apply Z.log2_nonneg.
  assert (P : 1 <= 2 ^ code_len x <= 2 ^ 63).
  { split; [change 1 with (2 ^ 0); apply Z.pow_le_mono_r; lia|apply Z.pow_le_mono_r; lia]. }
  rewrite Z.shiftl_1_l, u64_small by lia. unfold code_len. rewrite top_value by lia.
  rewrite sub64_ok by lia. f_equal. lia.
Qed.
Lemma efc_all gr ints : Forall (fun x => 0 <= x < 2 ^ 64 - 1) ints -> zlen ints < 2 ^ 57 ->
  exists c, efc_build gr ints = Ok c /\ efc_size c = zlen ints /\
    forall i x, nth_error ints i = Some x -> efc_get c (Z.of_nat i) = Ok x.
Proof. intros F L. destruct (efc_full gr ints F L) as (c & E & _ & R). exists c. auto. Qed.

(** ** The properties *)

Lemma ef_store gr n m vs idx : ef_input n m vs -> exists ef,
  ef_make gr n m vs idx = Ok ef /\ ef_size ef = n /\ ef_num_ones ef = zlen vs /\
  forall i v, nth_error vs i = Some v -> ef_select ef (Z.of_nat i) = Ok v.
Proof.
  intros I. destruct (ef_make_ok gr n m vs idx I) as (ef & H & E & OK). exists ef. split; [auto|].
  split; [apply OK|]. split; [apply (num_ones_ok _ _ _ _ _ _ _ OK)|].
  intros i v Hv. apply W_of_nth in Hv. destruct Hv as [Hi <-]. apply (ef_select_ok _ _ _ _ _ _ _ OK); auto.
Qed.

Lemma ef_ranks gr n m vs : ef_input n m vs -> exists ef, ef_make gr n m vs true = Ok ef /\
  (forall pos, 0 <= pos <= n -> (pos = n -> ~ In n vs) ->
     ef_rank ef pos = Ok (zlen (filter (fun v => v <? pos) vs))) /\
  (forall pos, 0 <= pos < n -> exists b, ef_get ef pos = Ok b /\ (b = true <-> In pos vs)) /\
  (forall pos v, 0 <= pos < n -> (pos + 1 = n -> ~ In n vs) ->
     In v vs -> v <= pos -> (forall w, In w vs -> w <= pos -> w <= v) -> ef_predecessor1 ef pos = Ok v) /\
  (forall pos v, 0 <= pos <= n -> (pos = n -> ~ In n vs) ->
     In v vs -> pos <= v -> (forall w, In w vs -> pos <= w -> v <= w) -> ef_successor1 ef pos = Ok v).
Proof.
  intros I. destruct (ef_make_ok gr n m vs true I) as (ef & H & E & OK). exists ef. split; [auto|].
  destruct I as (_ & _ & _ & _ & F & S). rewrite Forall_forall in F.
  assert (L : ~ In n vs -> forall i, 0 <= i < zlen vs -> W vs i < n).
  { intros N i Hi. assert (G : In (W vs i) vs) by (apply In_W; eauto). pose proof (F _ G).
    destruct (Z.eq_dec (W vs i) n) as [Eq|]; [rewrite Eq in G; tauto|lia]. }
  split; [|split; [|split]].
  - intros pos Hp Hlast. destruct (ef_rank_ok _ _ _ _ _ _ _ OK eq_refl pos Hp) as (r & -> & R1 & R2 & R3); [auto|].
    rewrite (filter_rank pos vs r); auto.
  - intros pos Hp. destruct (ef_get_ok _ _ _ _ _ _ _ OK eq_refl pos Hp) as (b & -> & Hb). exists b.
    split; [auto|]. rewrite Hb, <- In_W. tauto.
  - intros pos v Hp Hlast Hv Hle Hmax.
    destruct (ef_rank_ok _ _ _ _ _ _ _ OK eq_refl (pos + 1) ltac:(lia)) as (r & _ & R1 & R2 & R3); [auto|].
    apply In_W in Hv. destruct Hv as (j & Hj & Ej).
    assert (Hjr : j < r). { destruct (Z.lt_ge_cases j r) as [|C]; auto. specialize (R3 j ltac:(lia)). lia. }
    assert (Er : W vs (r - 1) = v).
    { assert (v <= W vs (r - 1)) by (rewrite <- Ej; apply sorted_mono; auto; lia).
      assert (W vs (r - 1) <= v); [|lia]. apply Hmax; [apply In_W; exists (r - 1); split; [lia|auto]|].
      specialize (R2 (r - 1) ltac:(lia)). lia. }
    rewrite (ef_predecessor1_ok _ _ _ _ _ _ _ OK eq_refl pos (r - 1)); try lia; auto.
    + f_equal. auto.
    + replace (r - 1 + 1) with r by lia. intros C. specialize (R3 r ltac:(lia)). lia.
  - intros pos v Hp Hlast Hv Hge Hmin.
    destruct (ef_rank_ok _ _ _ _ _ _ _ OK eq_refl pos ltac:(lia)) as (r & _ & R1 & R2 & R3); [auto|].
    apply In_W in Hv. destruct Hv as (j & Hj & Ej).
    assert (Hjr : r <= j). { destruct (Z.lt_ge_cases j r) as [C|]; auto. specialize (R2 j ltac:(lia)). lia. }
    assert (Er : W vs r = v).
    { assert (W vs r <= v) by (rewrite <- Ej; apply sorted_mono; auto; lia).
      assert (v <= W vs r); [|lia]. apply Hmin; [apply In_W; exists r; split; [lia|auto]|].
      specialize (R3 r ltac:(lia)). lia. }
    rewrite (ef_successor1_ok _ _ _ _ _ _ _ OK eq_refl pos r); try lia; auto.
    + f_equal. auto.
    + intros C. specialize (R2 (r - 1) ltac:(lia)). lia.
Qed.

Lemma ef_deltas gr n m vs idx : ef_input n m vs -> exists ef, ef_make gr n m vs idx = Ok ef /\
  (forall v, nth_error vs 0 = Some v -> ef_delta ef 0 = Ok v) /\
  (forall i v w, nth_error vs i = Some v -> nth_error vs (i + 1) = Some w ->
     ef_delta ef (Z.of_nat i + 1) = Ok (w - v) /\ ef_select_range ef (Z.of_nat i) = Ok (v, w)).
Proof.
  intros I. destruct (ef_make_ok gr n m vs idx I) as (ef & H & E & OK). exists ef. split; [auto|]. split.
  - intros v Hv. apply W_of_nth in Hv. destruct Hv as [Hi <-]. apply (ef_delta_ok _ _ _ _ _ _ _ OK 0 Hi).
  - intros i v w Hv Hw. apply W_of_nth in Hv, Hw. destruct Hv as [Hi <-], Hw as [Hj <-].
    replace (Z.of_nat (i + 1)) with (Z.of_nat i + 1) in * by lia. split.
    + rewrite (ef_delta_ok _ _ _ _ _ _ _ OK) by lia. replace (Z.of_nat i + 1 =? 0) with false by lia.
      do 3 f_equal. lia.
    + apply (ef_select_range_ok _ _ _ _ _ _ _ OK); lia.
Qed.

Lemma ef_enum gr n m vs idx : ef_input n m vs -> exists ef, ef_make gr n m vs idx = Ok ef /\
  forall i, (i < length vs)%nat -> exists e, se_new ef (Z.of_nat i) = Ok e /\
  forall k, (i + k <= length vs)%nat -> se_run ef e k = Ok (window vs i k).
Proof.
  intros I. destruct (ef_make_ok gr n m vs idx I) as (ef & H & E & OK). exists ef. split; [auto|].
  intros i Hi. destruct (se_new_ok _ _ _ _ _ _ _ (Z.of_nat i) OK) as (e & -> & J); [unfold zlen; lia|].
  exists e. split; [auto|]. intros k Hk.
  rewrite (se_run_ok _ _ _ _ _ _ _ OK k e (Z.of_nat i)); auto; try (unfold zlen; lia).
  rewrite Nat2Z.id. reflexivity.
Qed.

(** the positions of the ones, in the vocabulary of select *)
Lemma positions_nth l i q : is_select true l i q -> nth_error (positions l 0) i = Some (Z.of_nat q).
Proof.
  intros S. assert (C : (i < count true l)%nat).
  { pose proof (is_select_rank_lt _ _ _ _ (length l) S (is_select_bound _ _ _ _ S)) as C.
    rewrite rank_all in C by auto. auto. }
  pose proof (zlen_positions l 0) as L.
  destruct (positions_select l 0 (Z.of_nat i)) as (q' & E & S'); [lia|]. rewrite Nat2Z.id in S'.
  rewrite (is_select_unique _ _ _ _ _ S S'). rewrite <- (Nat2Z.id i), W_nth_error by lia. f_equal. lia.
Qed.

Lemma positions_filter l p : 0 <= p <= zlen l ->
  zlen (filter (fun v => v <? p) (positions l 0)) = Z.of_nat (rank true l (Z.to_nat p)).
Proof.
  intros Hp. rewrite <- (firstn_skipn (Z.to_nat p) l) at 1. rewrite positions_app, filter_app, zlen_app.
  rewrite filter_all, filter_none, zlen_positions; [change (zlen (@nil Z)) with 0; unfold rank; lia| |].
  - eapply Forall_impl; [|apply positions_range]. cbv beta. intros a Ha. rewrite zlen_firstn in Ha. lia.
  - eapply Forall_impl; [|apply positions_range]. cbv beta. intros a Ha. rewrite zlen_firstn in Ha. lia.
Qed.

Lemma ef_bits gr b l idx : bv_of_builder b = Ok (canonical l) -> zlen l < 2 ^ 61 -> exists ef,
  ef_of_bits gr b idx = Ok ef /\ ef_size ef = zlen l /\ ef_num_ones ef = Z.of_nat (count true l) /\
  (forall i q, is_select true l i q -> ef_select ef (Z.of_nat i) = Ok (Z.of_nat q)) /\
  (idx = true ->
     (forall p, (p <= length l)%nat -> ef_rank ef (Z.of_nat p) = Ok (Z.of_nat (rank true l p))) /\
     (forall p x, nth_error l p = Some x -> ef_get ef (Z.of_nat p) = Ok x)).
Proof.
  intros Hb HL. rewrite (ef_of_bits_eq gr b l idx Hb). pose proof (positions_input l HL) as I.
  destruct (ef_store gr _ _ _ idx I) as (ef & E & E1 & E2 & E3). exists ef.
  split; [auto|]. split; [auto|]. split; [rewrite E2; apply zlen_positions|].
  split; [intros i q Hq; apply E3, positions_nth; auto|].
  intros ->. destruct (ef_ranks gr _ _ _ I) as (ef' & E' & R1 & R2 & _).
  rewrite E in E'. injection E' as <-. split.
  - intros p Hp. rewrite R1; [rewrite positions_filter, Nat2Z.id by (unfold zlen; lia); auto|unfold zlen; lia|].
    intros _ C. pose proof (positions_range l 0) as F. rewrite Forall_forall in F. specialize (F _ C). lia.
  - intros p x Hx. assert (Hp : (p < length l)%nat) by (apply nth_error_Some; congruence).
    destruct (R2 (Z.of_nat p)) as (x' & -> & Hx'); [unfold zlen; lia|]. f_equal.
    rewrite positions_In, Z.sub_0_r, zbit_nth in Hx'. apply nth_error_nth with (d := false) in Hx. rewrite Hx in Hx'.
    destruct x, x'; auto.
    + apply Hx'. split; [lia|auto].
    + destruct (proj1 Hx' eq_refl). congruence.
Qed.

Lemma rank_at_size_false :
  ~ (forall gr n m vs ef, ef_input n m vs -> ef_make gr n m vs true = Ok ef ->
     ef_rank ef n = Ok (zlen (filter (fun v => v <? n) vs))).
Proof.
  intros A.
  assert (I : ef_input 4 2 [1; 4]).
  { repeat split; try (intros; discriminate); repeat constructor; discriminate. }
  destruct (ef_make_ok (fun c _ => 2 * c) 4 2 [1; 4] true I) as (ef & H & E & OK).
  specialize (A _ 4 2 [1; 4] ef I E).
  revert A. unfold ef_rank. pose proof OK as (_ & -> & _). rewrite assert_true by reflexivity.
  rewrite assert_true by apply (d0_nonzero _ _ _ _ _ _ _ OK eq_refl).
  rewrite Z.eqb_refl, (num_ones_ok _ _ _ _ _ _ _ OK). discriminate.
Qed.
