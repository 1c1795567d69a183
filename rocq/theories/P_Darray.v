(** Proofs about darray and darray64. *)
From Verif Require Import Base Spec Lib M_Broadword P_Broadword P_Broadword2 P_BvLib P_Builder P_BvRank
  M_BitVector S_BitVector P_BvGen P_BvEnum P_RsBuild M_Darray S_Darray.

(** ** The scan from a sub-block start *)

Lemma darray_loop_skip neg ws fuel : forall kk sk pos w sk' pos' w',
  uskip_loop neg fuel ws kk sk pos w = Ok (sk', pos', w') ->
  darray_loop neg fuel ws (pos / 64) w (kk - sk) = Ok (pos' / 64, w', kk - sk').
Proof.
  induction fuel as [|fuel IH]; intros kk sk pos w sk' pos' w'; cbn [uskip_loop darray_loop];
    destruct (Z.leb_spec (sk + popcount w) kk) as [C|C].
  - discriminate.
  - intros [= <- <- <-]. replace (kk - sk <? popcount w) with true by lia. reflexivity.
  - intros E. replace (kk - sk <? popcount w) with false by lia.
    replace ((pos + 64) / 64) with (pos / 64 + 1) in E by dlia.
    destruct (getw neg ws (pos / 64 + 1)) as [b|]; [|discriminate]. cbn [bind] in *.
    apply IH in E. replace ((pos + 64) / 64) with (pos / 64 + 1) in E by dlia.
    rewrite <- E. f_equal. lia.
  - intros [= <- <- <-]. replace (kk - sk <? popcount w) with true by lia. reflexivity.
Qed.

Lemma darray_scan_ok neg l s r p q : 0 <= r ->
  is_select (negb neg) l s p -> is_select (negb neg) l (s + Z.to_nat r) q ->
  darray_scan neg (pack l) (Z.of_nat p) r = Ok (Z.of_nat q).
Proof.
  intros Hr Hp Hq. unfold darray_scan. destruct (Z.eqb_spec r 0) as [->|Hr0].
  { rewrite Nat.add_0_r in Hq. rewrite (is_select_unique _ _ _ _ _ Hp Hq). reflexivity. }
  pose proof (is_select_bound _ _ _ _ Hp) as Bp.
  apply is_select_padded, is_select_flip in Hp. apply is_select_padded, is_select_flip in Hq.
  set (m := flip neg (padded l)) in *. set (P := Z.of_nat p).
  assert (B : 0 <= P / 64 < zlen (pack l)).
  { rewrite zlen_pack. unfold P, zlen. clear - Bp. dlia. }
  destruct (getw_masked neg l (P / 64) B) as (w & E & M). fold m in M. rewrite E. cbn [bind].
  rewrite shl_ok by (apply Z.mod_pos_bound; lia). cbn [bind].
  assert (Rm : 0 <= P mod 64 < 64) by (apply Z.mod_pos_bound; lia).
  pose proof (masked_above _ _ _ _ (P mod 64) M ltac:(lia) Rm) as M'.
  set (w1 := Z.land w (u64 (Z.shiftl (2 ^ 64 - 1) (P mod 64)))) in *.
  assert (S0 : 64 * (P / 64) + P mod 64 = P) by (pose proof (Z.div_mod P 64 ltac:(lia)); lia).
  assert (Rk : rank true m (Z.to_nat (64 * (P / 64) + P mod 64)) = s).
  { rewrite S0. unfold P. rewrite Nat2Z.id. apply Hp. }
  destruct (skip_search neg l P w1 (P mod 64) r q) as (sk & pos' & w' & lo' & E' & _ & _ & S & _ & _ & _);
    auto; try lia.
  { fold m. rewrite Rk. auto. }
  apply darray_loop_skip in E'. rewrite Z.sub_0_r in E'. rewrite E'. cbn [bind].
  rewrite S. cbn [bind]. f_equal. lia.
Qed.

(** ** Positions of the chosen bit *)

Fixpoint positions (l : list bool) (i : Z) : list Z :=
  match l with
  | [] => []
  | b :: l => if b then i :: positions l (i + 1) else positions l (i + 1)
  end.

Lemma positions_app l m i : positions (l ++ m) i = positions l i ++ positions m (i + zlen l).
Proof.
  revert i; induction l as [|b l IH]; intros i; simpl.
  - f_equal. change (zlen (@nil bool)) with 0. lia.
  - rewrite IH, zlen_cons. destruct b; simpl; [f_equal|]; do 2 f_equal; lia.
Qed.

Lemma positions_false n i : positions (repeat false n) i = [].
Proof. revert i; induction n; simpl; auto. Qed.

Lemma zlen_positions l i : zlen (positions l i) = Z.of_nat (count true l).
Proof.
  revert i; induction l as [|b l IH]; intros i; [reflexivity|].
  simpl. rewrite count_cons. destruct b; cbn [eqb]; rewrite ?zlen_cons, IH; lia.
Qed.

Lemma positions_range l i : Forall (fun p => i <= p < i + zlen l) (positions l i).
Proof.
  revert i; induction l as [|b l IH]; intros i; simpl; [constructor|].
  rewrite zlen_cons. pose proof (zlen_nonneg l).
  assert (F : Forall (fun p => i <= p < i + (zlen l + 1)) (positions l (i + 1))).
  { eapply Forall_impl; [|apply IH]. cbv beta. intros. lia. }
  destruct b; auto. constructor; auto. lia.
Qed.

Lemma positions_select l i k : 0 <= k < zlen (positions l i) ->
  exists q, W (positions l i) k = i + Z.of_nat q /\ is_select true l (Z.to_nat k) q.
Proof.
  revert i k; induction l as [|b l IH]; intros i k; simpl.
  - change (zlen (@nil Z)) with 0. lia.
  - destruct b.
    + rewrite zlen_cons, W_cons. intros Hk. destruct (Z.eqb_spec k 0) as [->|].
      * exists 0%nat. split; [lia|]. split; reflexivity.
      * destruct (IH (i + 1) (k - 1) ltac:(lia)) as (q & E & [S1 S2]).
        exists (S q). split; [lia|]. split; [exact S1|].
        unfold rank in *. rewrite firstn_cons, count_cons. cbn [eqb]. lia.
    + intros Hk. destruct (IH (i + 1) k Hk) as (q & E & [S1 S2]).
      exists (S q). split; [lia|]. split; [exact S1|].
      unfold rank in *. rewrite firstn_cons, count_cons. cbn [eqb]. lia.
Qed.

Lemma is_select_lt b l j k p q : is_select b l j p -> is_select b l k q -> (j < k)%nat -> (p < q)%nat.
Proof.
  intros Hp Hq H. destruct (Nat.lt_ge_cases p q); auto. exfalso.
  pose proof (is_select_rank_ge _ _ _ _ _ Hp H0). destruct Hq. lia.
Qed.

Lemma positions_mono l i j k : 0 <= j <= k -> k < zlen (positions l i) ->
  i <= W (positions l i) j <= W (positions l i) k.
Proof.
  intros H1 H2. destruct (positions_select l i j ltac:(lia)) as (p & -> & Hp).
  destruct (positions_select l i k ltac:(lia)) as (q & -> & Hq).
  destruct (Z.eq_dec j k) as [->|].
  - rewrite (is_select_unique _ _ _ _ _ Hp Hq). lia.
  - pose proof (is_select_lt _ _ _ _ _ _ Hp Hq ltac:(lia)). lia.
Qed.

(** ** The constructor visits exactly these positions *)

Fixpoint add_all (st : dstate) (ps : list Z) : res dstate :=
  match ps with
  | [] => Ok st
  | p :: ps => do st <- add_position st p; add_all st ps
  end.

Lemma add_all_app st ps qs : add_all st (ps ++ qs) = do st <- add_all st ps; add_all st qs.
Proof.
  revert st; induction ps as [|p ps IH]; intros st; [reflexivity|]. simpl.
  destruct (add_position st p); cbn [bind]; auto.
Qed.

Lemma value_lead c u : value (repeat false c ++ u) = 2 ^ Z.of_nat c * value u.
Proof.
  induction c; [simpl; lia|]. cbn [repeat app value Z.b2z]. rewrite IHc.
  replace (Z.of_nat (S c)) with (Z.of_nat c + 1) by lia. rewrite Z.pow_add_r by lia. lia.
Qed.

Lemma split_lead u : (exists n, u = repeat false n) \/ exists c v, u = repeat false c ++ true :: v.
Proof.
  induction u as [|[] u [[n ->]|(c & v & ->)]].
  - left. exists 0%nat. reflexivity.
  - right. exists 0%nat. eexists. reflexivity.
  - right. exists 0%nat. eexists. reflexivity.
  - left. exists (S n). reflexivity.
  - right. exists (S c), v. reflexivity.
Qed.

Lemma dword_loop_ok size : forall fuel u p st, (length u <= fuel)%nat -> (length u <= 64)%nat ->
  dword_loop fuel size p (value u) st = add_all st (filter (fun q => q <? size) (positions u p)).
Proof.
  induction fuel as [|fuel IH]; intros u p st Hf H64.
  { destruct u; [|simpl in Hf; lia]. reflexivity. }
  destruct (split_lead u) as [[n ->]|(c & v & ->)].
  - rewrite positions_false. cbn [filter add_all dword_loop].
    replace (value (repeat false n)) with 0.
    + rewrite lsb_opt_zero. reflexivity.
    + rewrite <- (app_nil_r (repeat false n)), value_lead. simpl. lia.
  - rewrite app_length, repeat_length in *. cbn [length] in *.
    rewrite value_lead. cbn [value Z.b2z]. cbn [dword_loop].
    pose proof (value_range v) as V. assert (Zv : zlen v < 64) by (unfold zlen; lia).
    assert (P2 : 2 ^ zlen v <= 2 ^ 63) by (apply Z.pow_le_mono_r; lia).
    rewrite (lsb_opt_correct _ (Z.of_nat c)).
    + cbn [bind]. rewrite shr_ok by lia. cbn [bind].
      rewrite Z.shiftr_div_pow2 by lia. rewrite Z.mul_comm, Z.div_mul by (apply Z.pow_nonzero; lia).
      rewrite positions_app, positions_false, zlen_repeat. cbn [app positions filter].
      destruct (Z.leb_spec size (p + Z.of_nat c)).
      * replace (p + Z.of_nat c <? size) with false by lia.
        assert (F : forall ps, Forall (fun q => p + Z.of_nat c + 1 <= q < p + Z.of_nat c + 1 + zlen v) ps ->
                    filter (fun q => q <? size) ps = []).
        { induction 1; simpl; auto. replace (x <? size) with false by lia. auto. }
        rewrite F by apply positions_range. reflexivity.
      * replace (p + Z.of_nat c <? size) with true by lia. cbn [add_all].
        destruct (add_position st (p + Z.of_nat c)) as [st'|]; cbn [bind]; auto.
        rewrite shr_ok by lia. cbn [bind]. rewrite Z.shiftr_div_pow2 by lia.
        replace ((1 + 2 * value v) / 2 ^ 1) with (value v) by (change (2 ^ 1) with 2; dlia).
        apply IH; lia.
    + pose proof (value_range (repeat false c ++ true :: v)) as R. rewrite value_lead in R.
      cbn [value Z.b2z] in R. unfold is_u64. split; [lia|].
      eapply Z.lt_le_trans; [apply R|]. apply Z.pow_le_mono_r; [lia|].
      unfold zlen. rewrite app_length, repeat_length. cbn [length]. lia.
    + replace (1 + 2 * value v) with (2 * value v + 1) by lia. apply lowest_bit_bits. lia.
Qed.

(** the word the constructor sees *)
Lemma masked_value w m k : masked w m k 0 -> 0 <= k -> 64 * (k + 1) <= zlen m ->
  w = value (window m (Z.to_nat (64 * k)) 64).
Proof.
  intros M Hk Hm. pose proof (masked_bits _ _ _ _ M Hk ltac:(lia) Hm) as B.
  rewrite Z.add_0_r in B. change (repeat false (Z.to_nat 0)) with (@nil bool) in B. cbn [app] in B.
  change (Z.to_nat (64 - 0)) with 64%nat in B. rewrite <- B. unfold word_bits.
  symmetry. apply value_bits_of. apply M.
Qed.

Lemma skipn_plus {A} a b (l : list A) : skipn a (skipn b l) = skipn (b + a) l.
Proof. revert l; induction b; intros [|x l]; simpl; auto. apply skipn_nil. Qed.

Lemma skipn_window (m : list bool) k : 0 <= k ->
  skipn (Z.to_nat (64 * k)) m = window m (Z.to_nat (64 * k)) 64 ++ skipn (Z.to_nat (64 * (k + 1))) m.
Proof.
  intros. unfold window. rewrite <- (firstn_skipn 64 (skipn (Z.to_nat (64 * k)) m)) at 1. f_equal.
  rewrite skipn_plus. f_equal. lia.
Qed.

Lemma dwords_loop_ok neg l : forall n k st, 0 <= k -> k + Z.of_nat n = zlen (pack l) ->
  dwords_loop neg n (pack l) (zlen l) k st =
  add_all st (filter (fun q => q <? zlen l)
                (positions (skipn (Z.to_nat (64 * k)) (flip neg (padded l))) (64 * k))).
Proof.
  set (m := flip neg (padded l)).
  assert (Lm : zlen m = 64 * zlen (pack l)) by (unfold m; rewrite zlen_flip, zlen_padded; auto).
  induction n as [|n IH]; intros k st Hk Hn; cbn [dwords_loop].
  - rewrite skipn_all2; [reflexivity|]. unfold zlen in *. lia.
  - destruct (getw_masked neg l k ltac:(lia)) as (w & -> & M). fold m in M. cbn [bind].
    rewrite (masked_value w m k M) by lia.
    rewrite dword_loop_ok.
    + rewrite (skipn_window m k Hk), positions_app, filter_app, add_all_app.
      replace (k * 64) with (64 * k) by lia.
      destruct (add_all st _) as [st'|]; cbn [bind]; auto.
      rewrite IH by lia. do 3 f_equal.
      unfold zlen. rewrite window_length; [lia|]. unfold zlen in *. lia.
    + unfold window. rewrite firstn_length. lia.
    + unfold window. rewrite firstn_length. lia.
Qed.

Lemma filter_all {A} (f : A -> bool) l : Forall (fun x => f x = true) l -> filter f l = l.
Proof. induction 1; simpl; auto. rewrite H. f_equal; auto. Qed.
Lemma filter_none {A} (f : A -> bool) l : Forall (fun x => f x = false) l -> filter f l = [].
Proof. induction 1; simpl; auto. rewrite H. auto. Qed.

Definition pos_of (neg : bool) (l : list bool) : list Z := positions (flip neg l) 0.

Lemma visited neg l :
  filter (fun q => q <? zlen l) (positions (flip neg (padded l)) 0) = pos_of neg l.
Proof.
  assert (E : exists r, flip neg (padded l) = flip neg l ++ r).
  { unfold padded. destruct neg; cbn [flip]; [rewrite map_app|]; eauto. }
  destruct E as [r ->]. rewrite positions_app, filter_app, zlen_flip.
  rewrite filter_all, filter_none, app_nil_r; [reflexivity|..].
  - eapply Forall_impl; [|apply positions_range]. cbv beta. intros. lia.
  - eapply Forall_impl; [|apply positions_range]. cbv beta. rewrite zlen_flip. intros. lia.
Qed.

Lemma dwords_all neg l st :
  dwords_loop neg (length (pack l)) (pack l) (zlen l) 0 st = add_all st (pos_of neg l).
Proof.
  rewrite dwords_loop_ok by (unfold zlen; lia). change (Z.to_nat (64 * 0)) with 0%nat.
  cbn [skipn]. change (64 * 0) with 0. rewrite visited. reflexivity.
Qed.

Lemma pos_count neg l : zlen (pos_of neg l) = Z.of_nat (count (negb neg) l).
Proof. unfold pos_of. rewrite zlen_positions. destruct neg; cbn [flip negb]; auto. rewrite count_map_negb. auto. Qed.

Lemma pos_select neg l k : 0 <= k < zlen (pos_of neg l) ->
  exists q, W (pos_of neg l) k = Z.of_nat q /\ is_select (negb neg) l (Z.to_nat k) q.
Proof.
  intros H. destruct (positions_select _ _ _ H) as (q & E & S). exists q. split; [exact E|].
  apply is_select_flip; auto.
Qed.
Lemma pos_mono neg l j k : 0 <= j <= k -> k < zlen (pos_of neg l) ->
  0 <= W (pos_of neg l) j <= W (pos_of neg l) k.
Proof. intros. apply positions_mono; auto. Qed.
Lemma pos_lt neg l k : 0 <= k < zlen (pos_of neg l) -> 0 <= W (pos_of neg l) k < zlen l.
Proof.
  intros H. destruct (pos_select neg l k H) as (q & -> & S).
  apply is_select_bound in S. unfold zlen. lia.
Qed.

(** ** The inventories *)

(** every 32nd entry of the current block *)
Lemma sub_loop_ok ovf cur front : forall fuel s subs, 0 <= s ->
  zlen cur < 32 * (s + Z.of_nat fuel) ->
  exists add, sub_loop fuel ovf cur front (32 * s) subs = Ok (subs ++ add) /\
    zlen add = Z.max 0 ((zlen cur + 31) / 32 - s) /\
    (ovf = false -> forall j, s <= j -> 32 * j < zlen cur -> W add (j - s) = u16 (W cur (32 * j) - front)).
Proof.
  induction fuel as [|fuel IH]; intros s subs Hs Hf; cbn [sub_loop].
  - replace (32 * s <? zlen cur) with false by lia. exists []. rewrite app_nil_r.
    split; auto. split; [change (zlen (@nil Z)) with 0; dlia|]. intros. lia.
  - destruct (Z.ltb_spec (32 * s) (zlen cur)) as [C|C].
    + assert (X : exists x, (if ovf then Ok (u16 (-1)) else do p <- rd cur (32 * s); Ok (u16 (p - front))) = Ok x
                    /\ (ovf = false -> x = u16 (W cur (32 * s) - front))).
      { destruct ovf; [eexists; split; [reflexivity|discriminate]|].
        rewrite W_rd by lia. cbn [bind]. eauto. }
      destruct X as (x & -> & Hx). cbn [bind]. unfold d_subblock_size.
      replace (32 * s + 32) with (32 * (s + 1)) by lia.
      destruct (IH (s + 1) (subs ++ [x])) as (add & E & L & V); [lia..|].
      exists (x :: add). rewrite E, <- app_assoc. split; [reflexivity|].
      split; [rewrite zlen_cons, L; dlia|].
      intros O j Hj1 Hj2. rewrite W_cons. destruct (Z.eqb_spec (j - s) 0).
      * replace j with s by lia. auto.
      * replace (j - s - 1) with (j - (s + 1)) by lia. apply V; auto; lia.
    + exists []. rewrite app_nil_r.
      split; auto. split; [change (zlen (@nil Z)) with 0; dlia|]. intros. lia.
Qed.

(** block [j] of the position list [ps], holding [len] positions, is recorded *)
Definition block_ok (ps : list Z) (j len : Z) (blocks subs ovf : list Z) : Prop :=
  let f := 1024 * j in
  j < zlen blocks /\
  (0 <= W blocks j /\
   (forall s, 0 <= s -> 32 * s < len -> 32 * j + s < zlen subs /\
      W blocks j + W subs (32 * j + s) = W ps (f + 32 * s)) \/
   W blocks j < 0 /\ - 2 ^ 63 <= W blocks j /\
   (forall i, 0 <= i < len -> - W blocks j - 1 + i < zlen ovf /\ W ovf (- W blocks j - 1 + i) = W ps (f + i))).

Lemma block_ok_app ps j len blocks subs ovf b s o : 0 <= j ->
  block_ok ps j len blocks subs ovf -> block_ok ps j len (blocks ++ b) (subs ++ s) (ovf ++ o).
Proof.
  intros Hj (H1 & H). pose proof (zlen_nonneg b). pose proof (zlen_nonneg s). pose proof (zlen_nonneg o).
  split; [rewrite zlen_app; lia|].
  rewrite W_app. replace (j <? zlen blocks) with true by lia.
  destruct H as [[B2 B3]|[B2 [B3 B4]]]; [left|right].
  - split; auto. intros k Hk1 Hk2. destruct (B3 k Hk1 Hk2) as [G1 G2].
    rewrite zlen_app, W_app. replace (32 * j + k <? zlen subs) with true by lia. split; [lia|auto].
  - split; [auto|]. split; [auto|]. intros i Hi. destruct (B4 i Hi) as [G1 G2].
    rewrite zlen_app, W_app. replace (_ <? zlen ovf) with true by lia. split; [lia|auto].
Qed.

Lemma block_ok_ext ps qs j len blocks subs ovf : 
  (forall i, 0 <= i < len -> W ps (1024 * j + i) = W qs (1024 * j + i)) ->
  block_ok ps j len blocks subs ovf -> block_ok qs j len blocks subs ovf.
Proof.
  intros E (H1 & H). split; auto. destruct H as [[H2 H3]|[H2 [H3 H4]]]; [left|right].
  - split; auto. intros k Hk1 Hk2. rewrite <- E by lia. auto.
  - split; [auto|]. split; [auto|]. intros i Hi. rewrite <- E by lia. auto.
Qed.

(** flushing the block [skipn (1024 * j) ps] *)
Lemma flush_ok ps j blocks subs ovf n : 0 <= j -> 1024 * j < zlen ps <= 1024 * j + 1024 ->
  (forall i k, 0 <= i <= k -> k < zlen ps -> 0 <= W ps i <= W ps k) ->
  (forall i, 0 <= i < zlen ps -> W ps i < 2 ^ 63) ->
  zlen blocks = j -> zlen subs = 32 * j -> zlen ovf <= 1024 * j -> zlen ps < 2 ^ 63 ->
  exists b s o,
    flush_cur_block (mk_dstate (skipn (Z.to_nat (1024 * j)) ps) blocks subs ovf n) =
      Ok (mk_dstate [] (blocks ++ [b]) (subs ++ s) (ovf ++ o) n) /\
    zlen s = (zlen ps - 1024 * j + 31) / 32 /\ zlen (ovf ++ o) <= zlen ps /\
    block_ok ps j (zlen ps - 1024 * j) (blocks ++ [b]) (subs ++ s) (ovf ++ o).
Proof.
  intros Hj Hl Mono Bd Lb Ls Lo HN. set (cur := skipn (Z.to_nat (1024 * j)) ps).
  assert (Lc : zlen cur = zlen ps - 1024 * j) by (unfold cur; rewrite zlen_skipn; lia).
  assert (Wc : forall i, 0 <= i -> W cur i = W ps (1024 * j + i)).
  { intros. unfold cur. rewrite W_skipn by lia. f_equal. lia. }
  unfold flush_cur_block. cbn [d_cur d_blocks d_subs d_ovf d_n].
  rewrite !W_rd by lia. cbn [bind]. rewrite (Wc 0), (Wc (zlen cur - 1)) by lia.
  rewrite Z.add_0_r. set (f := W ps (1024 * j)). set (e := W ps (1024 * j + (zlen cur - 1))).
  assert (Hfe : 0 <= f <= e) by (apply Mono; lia).
  assert (Hf : f < 2 ^ 63) by (apply Bd; lia).
  rewrite sub64_ok by lia. unfold max_in_block_distance.
  pose proof (zlen_nonneg ovf) as No.
  destruct (Z.ltb_spec (e - f) (2 ^ 16)) as [C|C].
  - destruct (sub_loop_ok false cur f (S (length cur)) 0 subs) as (add & E & L & V); [lia|unfold zlen; lia|].
    change (32 * 0) with 0 in E. rewrite E. cbn [bind].
    exists (i64 f), add, []. rewrite app_nil_r.
    split; [reflexivity|]. split; [rewrite L, Lc; dlia|]. split; [lia|].
    rewrite i64_small by lia. split.
    { rewrite zlen_app. change (zlen [f]) with 1. lia. }
    rewrite W_app, Lb. replace (j <? j) with false by lia. rewrite Z.sub_diag.
    change (W [f] 0) with f. left. split; [lia|]. intros s Hs1 Hs2.
    rewrite zlen_app, W_app. replace (32 * j + s <? zlen subs) with false by lia.
    rewrite Ls. replace (32 * j + s - 32 * j) with s by lia.
    split; [rewrite L; dlia|].
    specialize (V eq_refl s Hs1 ltac:(lia)). rewrite Z.sub_0_r in V. rewrite V, Wc by lia.
    assert (f <= W ps (1024 * j + 32 * s) <= e).
    { split; [apply (Mono (1024 * j) (1024 * j + 32 * s)); lia|].
      apply (Mono (1024 * j + 32 * s) (1024 * j + (zlen cur - 1))); lia. }
    rewrite u16_small by lia. lia.
  - destruct (sub_loop_ok true cur f (S (length cur)) 0 subs) as (add & E & L & _); [lia|unfold zlen; lia|].
    change (32 * 0) with 0 in E. rewrite E. cbn [bind].
    exists (- i64 (zlen ovf) - 1), add, cur. rewrite i64_small by lia.
    split; [reflexivity|]. split; [rewrite L, Lc; dlia|]. split; [rewrite zlen_app; lia|]. split.
    { rewrite zlen_app. change (zlen [_]) with 1. lia. }
    rewrite W_app, Lb. replace (j <? j) with false by lia. rewrite Z.sub_diag.
    change (W [- zlen ovf - 1] 0) with (- zlen ovf - 1). right. split; [lia|]. split; [lia|].
    intros i Hi. rewrite zlen_app, W_app.
    replace (- (- zlen ovf - 1) - 1 + i) with (zlen ovf + i) by lia.
    replace (zlen ovf + i <? zlen ovf) with false by lia.
    replace (zlen ovf + i - zlen ovf) with i by lia. rewrite Wc by lia. split; [lia|auto].
Qed.

(** the state after the positions [ps] *)
Definition dinv (ps : list Z) (st : dstate) : Prop :=
  let j := zlen ps / 1024 in
  d_cur st = skipn (Z.to_nat (1024 * j)) ps /\ d_n st = zlen ps /\
  zlen (d_blocks st) = j /\ zlen (d_subs st) = 32 * j /\ zlen (d_ovf st) <= 1024 * j /\
  forall i, 0 <= i < j -> block_ok ps i 1024 (d_blocks st) (d_subs st) (d_ovf st).

Definition good (ps : list Z) : Prop :=
  (forall i k, 0 <= i <= k -> k < zlen ps -> 0 <= W ps i <= W ps k) /\
  (forall i, 0 <= i < zlen ps -> W ps i < 2 ^ 63) /\ zlen ps < 2 ^ 63.

Lemma good_firstn ps qs : good (ps ++ qs) -> good ps.
Proof.
  intros (H1 & H2 & H3). pose proof (zlen_nonneg qs) as N. rewrite zlen_app in *.
  split; [|split]; [| |lia].
  - intros i k Hi Hk. specialize (H1 i k Hi ltac:(lia)). rewrite !W_app in H1.
    replace (i <? zlen ps) with true in H1 by lia. replace (k <? zlen ps) with true in H1 by lia. auto.
  - intros i Hi. specialize (H2 i ltac:(lia)). rewrite W_app in H2.
    replace (i <? zlen ps) with true in H2 by lia. auto.
Qed.

Lemma add_position_ok ps p st : dinv ps st -> good (ps ++ [p]) ->
  exists st', add_position st p = Ok st' /\ dinv (ps ++ [p]) st'.
Proof.
  intros (I1 & I2 & I3 & I4 & I5 & I6) G. set (j := zlen ps / 1024) in *.
  pose proof (zlen_nonneg ps) as N.
  assert (Hj : 0 <= j /\ 1024 * j <= zlen ps < 1024 * j + 1024) by (unfold j; dlia).
  assert (Lp : zlen (ps ++ [p]) = zlen ps + 1) by (rewrite zlen_app; reflexivity).
  assert (Ec : d_cur st ++ [p] = skipn (Z.to_nat (1024 * j)) (ps ++ [p])).
  { rewrite I1, skipn_app. f_equal.
    replace (Z.to_nat (1024 * j) - length ps)%nat with 0%nat by (unfold zlen in *; lia). reflexivity. }
  assert (Lc : zlen (d_cur st ++ [p]) = zlen ps + 1 - 1024 * j).
  { rewrite Ec, zlen_skipn. lia. }
  assert (Keep : forall i, 0 <= i < j -> block_ok (ps ++ [p]) i 1024 (d_blocks st) (d_subs st) (d_ovf st)).
  { intros i Hi. eapply block_ok_ext; [|apply I6; auto]. intros k Hk. rewrite W_app.
    replace (1024 * i + k <? zlen ps) with true by lia. reflexivity. }
  unfold add_position. cbn [d_cur d_blocks d_subs d_ovf d_n]. rewrite Lc. unfold d_block_size.
  destruct (Z.eqb_spec (zlen ps + 1 - 1024 * j) 1024) as [C|C].
  - rewrite Ec. destruct G as (G1 & G2 & G3).
    destruct (flush_ok (ps ++ [p]) j (d_blocks st) (d_subs st) (d_ovf st) (d_n st))
      as (b & s & o & E & Ls & Lo & B); auto; try lia.
    rewrite E. cbn [bind d_cur d_blocks d_subs d_ovf d_n]. eexists. split; [reflexivity|].
    assert (Ej : zlen (ps ++ [p]) / 1024 = j + 1) by (clear - C Lp; dlia).
    unfold dinv. rewrite Ej. cbn [d_cur d_blocks d_subs d_ovf d_n].
    split; [|split; [|split; [|split; [|split]]]].
    + rewrite skipn_all2; auto. unfold zlen in *. lia.
    + lia.
    + rewrite zlen_app. change (zlen [b]) with 1. lia.
    + rewrite zlen_app, Ls. clear - C I4 Lp. rewrite I4. dlia.
    + lia.
    + intros i Hi. destruct (Z.eq_dec i j) as [->|].
      * replace 1024 with (zlen (ps ++ [p]) - 1024 * j) by lia. auto.
      * apply block_ok_app; [lia|]. apply Keep. lia.
  - cbn [bind d_cur d_blocks d_subs d_ovf d_n]. eexists. split; [reflexivity|].
    assert (Ej : zlen (ps ++ [p]) / 1024 = j) by (clear - C Lp Hj; dlia).
    unfold dinv. rewrite Ej. cbn [d_cur d_blocks d_subs d_ovf d_n].
    split; [auto|]. split; [lia|]. split; [auto|]. split; [auto|]. split; [auto|]. exact Keep.
Qed.

Lemma add_all_ok qs : forall ps st, dinv ps st -> good (ps ++ qs) ->
  exists st', add_all st qs = Ok st' /\ dinv (ps ++ qs) st'.
Proof.
  induction qs as [|q qs IH]; intros ps st I G.
  - rewrite app_nil_r. exists st. auto.
  - replace (ps ++ q :: qs) with ((ps ++ [q]) ++ qs) in * by (rewrite <- app_assoc; auto).
    destruct (add_position_ok ps q st I (good_firstn _ _ G)) as (st1 & E & I1).
    cbn [add_all]. rewrite E. cbn [bind]. apply IH; auto.
Qed.

Lemma pos_good neg l : zlen l < 2 ^ 63 -> good (pos_of neg l).
Proof.
  intros H. assert (C : zlen (pos_of neg l) <= zlen l).
  { rewrite pos_count. unfold zlen. pose proof (count_le (negb neg) l). lia. }
  split; [|split]; [| |lia].
  - intros. apply pos_mono; auto.
  - intros. pose proof (pos_lt neg l i H0). lia.
Qed.

(** what the finished structure records *)
Definition darray_ok (neg : bool) (l : list bool) (d : darray) : Prop :=
  let ps := pos_of neg l in
  da_positions d = zlen ps /\
  forall i, 0 <= i < zlen ps ->
    exists len, i mod 1024 < len /\ block_ok ps (i / 1024) len (da_blocks d) (da_subs d) (da_ovf d).

Lemma darray_build_ok neg l : zlen l < 2 ^ 63 ->
  exists d, darray_build neg (canonical l) = Ok d /\ darray_ok neg l d.
Proof.
  intros H. pose proof (pos_good neg l H) as G. set (ps := pos_of neg l) in *.
  unfold darray_build, canonical. cbn [bv_words bv_size]. rewrite dwords_all. fold ps.
  assert (I0 : dinv [] (mk_dstate [] [] [] [] 0)).
  { unfold dinv. change (zlen (@nil Z) / 1024) with 0. cbn [d_cur d_blocks d_subs d_ovf d_n].
    change (zlen (@nil Z)) with 0. split; [reflexivity|]. repeat (split; [lia|]). intros. lia. }
  destruct (add_all_ok ps [] _ I0 G) as (st & E & I1 & I2 & I3 & I4 & I5 & I6).
  cbn [app] in *. rewrite E. cbn [bind]. clear E I0.
  pose proof (zlen_nonneg ps) as N. set (j := zlen ps / 1024) in *.
  assert (Hj : 0 <= j /\ 1024 * j <= zlen ps < 1024 * j + 1024) by (unfold j; dlia).
  assert (Lc : zlen (d_cur st) = zlen ps - 1024 * j) by (rewrite I1, zlen_skipn; lia).
  rewrite Lc. destruct (Z.eqb_spec (zlen ps - 1024 * j) 0) as [C|C].
  - cbn [bind]. eexists. split; [reflexivity|]. split; [exact I2|]. cbn [da_blocks da_subs da_ovf].
    fold ps. intros i Hi. exists 1024. split; [apply Z.mod_pos_bound; lia|]. apply I6. dlia.
  - destruct G as (G1 & G2 & G3).
    destruct (flush_ok ps j (d_blocks st) (d_subs st) (d_ovf st) (d_n st))
      as (b & s & o & E & Ls & Lo & B); auto; try lia.
    destruct st as [cu bl su ov n]. cbn [d_cur d_blocks d_subs d_ovf d_n] in *. subst cu.
    rewrite E. cbn [bind d_cur d_blocks d_subs d_ovf d_n]. eexists. split; [reflexivity|].
    split; [exact I2|]. cbn [da_blocks da_subs da_ovf]. fold ps. intros i Hi.
    pose proof (Z.div_mod i 1024 ltac:(lia)) as Di. pose proof (Z.mod_pos_bound i 1024 ltac:(lia)) as Mi.
    destruct (Z.eq_dec (i / 1024) j) as [Ei|].
    + rewrite Ei in *. exists (zlen ps - 1024 * j). split; [|auto]. clear - Di Hi. lia.
    + exists 1024. split; [apply Z.mod_pos_bound; lia|]. apply block_ok_app; [clear - Di Mi Hi; lia|].
      apply I6. clear - n0 Di Mi Hi Hj. lia.
Qed.

Lemma darray_select_ok neg l d i : darray_ok neg l d -> 0 <= i < Z.of_nat (count (negb neg) l) ->
  exists q, darray_select neg d (canonical l) i = Ok (Z.of_nat q) /\ is_select (negb neg) l (Z.to_nat i) q.
Proof.
  intros (D1 & D2) Hi. rewrite <- pos_count in Hi. set (ps := pos_of neg l) in *.
  destruct (pos_select neg l i Hi) as (q & Eq & Hq). exists q. split; [|auto]. fold ps in Eq.
  unfold darray_select. rewrite assert_true by lia. unfold d_block_size, d_subblock_size.
  destruct (D2 i Hi) as (len & Hlen & B1 & B).
  pose proof (Z.div_mod i 1024 ltac:(lia)) as Dj. pose proof (Z.mod_pos_bound i 1024 ltac:(lia)) as Mj.
  assert (Pj : 0 <= i / 1024) by (apply Z.div_pos; lia).
  rewrite W_rd by lia. cbn [bind].
  destruct B as [[B2 B3]|[B2 [B3 B4]]].
  - replace (W (da_blocks d) (i / 1024) <? 0) with false by lia.
    pose proof (Z.div_mod i 32 ltac:(lia)) as Ds. pose proof (Z.mod_pos_bound i 32 ltac:(lia)) as Ms.
    set (j := i / 1024) in *. set (s := i / 32) in *.
    destruct (B3 (s - 32 * j)) as [B4 B5].
    { clear - Dj Mj Ds Ms. lia. }
    { clear - Dj Mj Ds Ms Hlen. lia. }
    replace (32 * j + (s - 32 * j)) with s in * by lia.
    replace (1024 * j + 32 * (s - 32 * j)) with (32 * s) in * by lia.
    rewrite W_rd by lia. cbn [bind]. rewrite B5.
    destruct (pos_select neg l (32 * s)) as (p & Ep & Hp); [fold ps; lia|]. fold ps in Ep. rewrite Ep.
    apply (darray_scan_ok neg l (Z.to_nat (32 * s))); auto; [lia|].
    replace (Z.to_nat (32 * s) + Z.to_nat (i mod 32))%nat with (Z.to_nat i) by lia. auto.
  - replace (W (da_blocks d) (i / 1024) <? 0) with true by lia.
    destruct (B4 (i mod 1024) ltac:(lia)) as [B5 B6].
    rewrite u64_small by lia. rewrite W_rd by lia. rewrite B6, <- Dj. f_equal. auto.
Qed.

Lemma darray_all neg l : zlen l < 2 ^ 63 -> exists d,
  darray_build neg (canonical l) = Ok d /\
  da_positions d = Z.of_nat (count (negb neg) l) /\
  forall i, 0 <= i < Z.of_nat (count (negb neg) l) ->
    exists q, darray_select neg d (canonical l) i = Ok (Z.of_nat q) /\ is_select (negb neg) l (Z.to_nat i) q.
Proof.
  intros H. destruct (darray_build_ok neg l H) as (d & E & D). exists d. split; auto.
  split; [rewrite <- pos_count; apply D|]. intros i Hi. apply darray_select_ok; auto.
Qed.

Lemma darray_classes l : zlen l < 2 ^ 63 -> exists d1 d0,
  darray_build false (canonical l) = Ok d1 /\ darray_build true (canonical l) = Ok d0 /\
  (forall i, 0 <= i < Z.of_nat (count true l) -> exists q, darray1_select d1 (canonical l) i = Ok (Z.of_nat q) /\ is_select true l (Z.to_nat i) q) /\
  (forall i, 0 <= i < Z.of_nat (count false l) -> exists q, darray0_select d0 (canonical l) i = Ok (Z.of_nat q) /\ is_select false l (Z.to_nat i) q).
Proof.
  intros H. destruct (darray_all false l H) as (d1 & E1 & _ & S1). destruct (darray_all true l H) as (d0 & E0 & _ & S0).
  exists d1, d0. split; [exact E1|]. split; [exact E0|]. split; [exact S1|exact S0].
Qed.

(** ** darray64 *)

Lemma bits_of_0 n : bits_of n 0 = repeat false n.
Proof.
  apply nth_ext_bool; rewrite bits_of_length, ?repeat_length; auto. intros i Hi.
  rewrite nth_bits_of, Z.testbit_0_l by auto.
  assert (R : forall n i, nth i (repeat false n) false = false).
  { induction n0; destruct i0; simpl; auto. }
  symmetry; apply R.
Qed.

(** [ps]: the positions of the ones so far; consecutive ones are at most 65 apart *)
Definition d64_inv (b : d64_builder) (l : list bool) : Prop :=
  let ps := positions l 0 in
  binv (d64b_bits b) l /\ d64b_n b = zlen ps /\
  zlen (d64b_blocks b) = (zlen ps + 1023) / 1024 /\ zlen (d64b_subs b) = (zlen ps + 63) / 64 /\
  (forall j, 0 <= j -> 1024 * j < zlen ps -> W (d64b_blocks b) j = W ps (1024 * j)) /\
  (forall s, 0 <= s -> 64 * s < zlen ps ->
     W (d64b_blocks b) (s / 16) + W (d64b_subs b) s = W ps (64 * s)) /\
  (forall i, 0 <= i -> i + 1 < zlen ps -> W ps (i + 1) - W ps i <= 65) /\
  (zlen ps = 0 -> l = []) /\ (0 < zlen ps -> W ps (zlen ps - 1) = zlen l - 1).

Lemma d64_gap ps k : (forall i, 0 <= i -> i + 1 < zlen ps -> W ps (i + 1) - W ps i <= 65) ->
  forall i, 0 <= i -> i + Z.of_nat k < zlen ps -> W ps (i + Z.of_nat k) - W ps i <= 65 * Z.of_nat k.
Proof.
  intros H. induction k; intros i Hi Hk.
  - rewrite Z.add_0_r. lia.
  - specialize (IHk i Hi ltac:(lia)). specialize (H (i + Z.of_nat k) ltac:(lia) ltac:(lia)).
    replace (i + Z.of_nat (S k)) with (i + Z.of_nat k + 1) by lia. lia.
Qed.

Lemma append1_ok gr b l s : d64_inv b l -> 0 <= s <= 64 ->
  exists b', append1 gr b s = Ok b' /\ d64_inv b' (l ++ repeat false (Z.to_nat s) ++ [true]).
Proof.
  intros (I1 & I2 & I3 & I4 & I5 & I6 & I7 & I8 & I9) Hs. unfold append1.
  destruct (append_bits_ok gr (d64b_bits b) l 0 s I1 Hs) as (b1 & E1 & B1).
  { split; [lia|]. apply Z.pow_pos_nonneg; lia. }
  rewrite E1. cbn [bind]. rewrite bits_of_0 in B1.
  destruct (push_back_ok gr b1 _ true B1) as (b2 & E2 & B2). rewrite E2. cbn [bind]. clear E1 E2 B1.
  rewrite <- app_assoc in B2. set (l' := l ++ repeat false (Z.to_nat s) ++ [true]) in *.
  assert (Sz : b_size b2 = zlen l + s + 1).
  { destruct B2 as (-> & _). unfold l'. rewrite !zlen_app, zlen_repeat. change (zlen [true]) with 1. lia. }
  set (ps := positions l 0) in *. set (p := zlen l + s).
  assert (Eps : positions l' 0 = ps ++ [p]).
  { unfold l'. rewrite !positions_app, positions_false, zlen_repeat. cbn [app positions].
    unfold ps, p. do 2 f_equal. lia. }
  pose proof (zlen_nonneg ps) as N. pose proof (zlen_nonneg l) as Nl.
  rewrite sub64_ok by lia. rewrite Sz, I2. replace (zlen l + s + 1 - 1) with p by (unfold p; lia).
  unfold d64_block_size, d64_subblock_size. set (n := zlen ps) in *.
  set (blocks := if n mod 1024 =? 0 then d64b_blocks b ++ [p] else d64b_blocks b).
  assert (Lb : zlen blocks = (n + 1 + 1023) / 1024).
  { unfold blocks. destruct (Z.eqb_spec (n mod 1024) 0); rewrite ?zlen_app, I3; change (zlen [p]) with 1; dlia. }
  assert (Wb : forall j, 0 <= j -> 1024 * j < n + 1 -> W blocks j = W (ps ++ [p]) (1024 * j)).
  { intros j Hj1 Hj2. rewrite W_app. fold n. unfold blocks.
    destruct (Z.eqb_spec (n mod 1024) 0).
    - rewrite W_app, I3. destruct (Z.ltb_spec (1024 * j) n).
      + replace (j <? (n + 1023) / 1024) with true by dlia. auto.
      + replace (j <? (n + 1023) / 1024) with false by dlia.
        replace (j - (n + 1023) / 1024) with 0 by dlia. replace (1024 * j - n) with 0 by dlia. reflexivity.
    - destruct (Z.ltb_spec (1024 * j) n); [auto|]. exfalso. clear - n0 H Hj2. dlia. }
  assert (Wbold : forall j, 0 <= j -> 1024 * j < n -> W blocks j = W (d64b_blocks b) j).
  { intros j Hj1 Hj2. rewrite Wb, I5 by lia. rewrite W_app. fold n. replace (1024 * j <? n) with true by lia. auto. }
  assert (Gap : forall i, 0 <= i -> i + 1 < n + 1 -> W (ps ++ [p]) (i + 1) - W (ps ++ [p]) i <= 65).
  { intros i Hi1 Hi2. rewrite !W_app. fold n. replace (i <? n) with true by lia.
    destruct (Z.ltb_spec (i + 1) n); [auto|].
    replace (i + 1 - n) with 0 by lia. change (W [p] 0) with p. specialize (I9 ltac:(lia)).
    replace (n - 1) with i in I9 by lia. unfold p. lia. }
  assert (Ln : zlen (ps ++ [p]) = n + 1) by (rewrite zlen_app; reflexivity).
  assert (Sub : exists subs, (if n mod 64 =? 0 then
                do q <- rd blocks (n / 1024); Ok (d64b_subs b ++ [u16 (p - q)])
              else Ok (d64b_subs b)) = Ok subs /\ zlen subs = (n + 1 + 63) / 64 /\
      forall s, 0 <= s -> 64 * s < n + 1 -> W blocks (s / 16) + W subs s = W (ps ++ [p]) (64 * s)).
  { assert (Old : forall t, 0 <= t -> 64 * t < n -> W blocks (t / 16) + W (d64b_subs b) t = W (ps ++ [p]) (64 * t)).
    { intros t Ht1 Ht2. rewrite Wbold by (clear - Ht1 Ht2; dlia). rewrite I6 by lia.
      rewrite W_app. fold n. replace (64 * t <? n) with true by lia. auto. }
    destruct (Z.eqb_spec (n mod 64) 0) as [C|C].
    - rewrite W_rd by (rewrite Lb; clear - N; dlia). cbn [bind].
      eexists. split; [reflexivity|]. split; [rewrite zlen_app, I4; change (zlen [_]) with 1; clear - C N; dlia|].
      intros t Ht1 Ht2. rewrite (W_app (d64b_subs b)), I4.
      destruct (Z.ltb_spec t ((n + 63) / 64)) as [D|D].
      + apply Old; auto. clear - C D. dlia.
      + assert (Et : 64 * t = n) by (clear - C D Ht2; dlia).
        replace (t - (n + 63) / 64) with 0 by (clear - Et C; dlia).
        change (W [u16 (p - W blocks (n / 1024))] 0) with (u16 (p - W blocks (n / 1024))).
        assert (Ep : W (ps ++ [p]) (64 * t) = p).
        { rewrite W_app. fold n. replace (64 * t <? n) with false by lia. replace (64 * t - n) with 0 by lia. reflexivity. }
        rewrite Ep. replace (t / 16) with (n / 1024) by (clear - Et; dlia).
        set (j := n / 1024). assert (Hj : 0 <= 1024 * j <= n /\ n - 1024 * j <= 960) by (unfold j; clear - N C; dlia).
        rewrite (Wb j) by lia. set (f := W (ps ++ [p]) (1024 * j)).
        assert (R : 0 <= p - f <= 65 * (n - 1024 * j)).
        { pose proof (d64_gap (ps ++ [p]) (Z.to_nat (n - 1024 * j))) as D1. rewrite Ln in D1.
          specialize (D1 Gap (1024 * j) ltac:(lia) ltac:(lia)).
          replace (1024 * j + Z.of_nat (Z.to_nat (n - 1024 * j))) with n in D1 by lia.
          replace (64 * t) with n in Ep by lia. rewrite Ep in D1. fold f in D1.
          split; [|lia]. pose proof (positions_mono l' 0 (1024 * j) n) as M. rewrite Eps in M.
          rewrite Ln in M. specialize (M ltac:(lia) ltac:(lia)). rewrite Ep in M. fold f in M. lia. }
        rewrite u16_small by lia. lia.
    - eexists. split; [reflexivity|]. split; [rewrite I4; clear - C N; dlia|].
      intros t Ht1 Ht2. apply Old; auto. clear - C Ht2. dlia. }
  destruct Sub as (subs & -> & Ls & Ws). cbn [bind]. eexists. split; [reflexivity|].
  unfold d64_inv. rewrite Eps, Ln. cbn [d64b_bits d64b_n d64b_blocks d64b_subs].
  split; [auto|]. split; [lia|]. split; [auto|]. split; [auto|]. split; [auto|]. split; [auto|].
  split; [auto|]. split; [lia|]. intros _. rewrite W_app. fold n.
  replace (n + 1 - 1 <? n) with false by lia. replace (n + 1 - 1 - n) with 0 by lia.
  change (W [p] 0) with p. unfold l', p. rewrite !zlen_app, zlen_repeat. change (zlen [true]) with 1. lia.
Qed.

Lemma append1_all_ok gr skips : forall b l, d64_inv b l -> Forall (fun s => 0 <= s <= 64) skips ->
  exists b', append1_all gr b skips = Ok b' /\ d64_inv b' (l ++ d64_seq skips).
Proof.
  induction skips as [|s skips IH]; intros b l I F.
  - exists b. cbn. rewrite app_nil_r. auto.
  - inversion F; subst. destruct (append1_ok gr b l s I H1) as (b1 & E & I1).
    cbn [append1_all]. rewrite E. cbn [bind].
    destruct (IH b1 _ I1 H2) as (b2 & E2 & I2). exists b2. split; auto.
    rewrite <- app_assoc in I2. exact I2.
Qed.

Lemma d64_new_ok : d64_inv d64_new [].
Proof.
  unfold d64_inv. cbn [positions]. change (zlen (@nil Z)) with 0.
  split.
  { split; [reflexivity|]. split; [apply words_ok_nil|]. split; [apply Z.le_refl|].
    intros H; exfalso; apply H; reflexivity. }
  split; [reflexivity|]. split; [reflexivity|]. split; [reflexivity|].
  split; [intros; lia|]. split; [intros; lia|]. split; [intros; lia|]. split; [auto|intros; lia].
Qed.

Lemma d64_all gr skips : Forall (fun s => 0 <= s <= 64) skips -> exists b d,
  append1_all gr d64_new skips = Ok b /\ d64_build b = Ok d /\
  d64_bits d = canonical (d64_seq skips) /\ d64_num_ones d = zlen skips /\
  forall i, 0 <= i < zlen skips ->
    exists q, d64_select d i = Ok (Z.of_nat q) /\ is_select true (d64_seq skips) (Z.to_nat i) q.
Proof.
  intros F. destruct (append1_all_ok gr skips _ _ d64_new_ok F) as (b & E & I). cbn [app] in I.
  exists b. set (l := d64_seq skips) in *. destruct I as (I1 & I2 & I3 & I4 & I5 & I6 & I7 & I8 & I9).
  set (ps := positions l 0) in *.
  assert (Lps : zlen ps = zlen skips).
  { unfold ps. rewrite zlen_positions. unfold l. clear. unfold zlen. f_equal.
    induction skips as [|s skips IH]; [reflexivity|]. cbn [d64_seq flat_map].
    rewrite !count_app, count_repeat. cbn [eqb]. change (count true [true]) with 1%nat.
    unfold d64_seq in IH. rewrite IH. reflexivity. }
  unfold d64_build. rewrite (binv_bv _ _ I1). cbn [bind]. eexists. split; [auto|]. split; [reflexivity|].
  cbn [d64_bits d64_num_ones]. split; [auto|]. split; [lia|]. intros i Hi.
  unfold d64_select. cbn [d64_num_ones d64_blocks d64_subs d64_bits canonical bv_words].
  rewrite assert_true by lia. unfold d64_block_size, d64_subblock_size.
  rewrite W_rd by (rewrite I3; clear - Hi Lps; dlia). cbn [bind].
  rewrite W_rd by (rewrite I4; clear - Hi Lps; dlia). cbn [bind].
  destruct (positions_select l 0 i) as (q & Eq & Hq); [fold ps; lia|].
  exists q. split; [|auto].
  pose proof (Z.div_mod i 64 ltac:(lia)) as Ds. pose proof (Z.mod_pos_bound i 64 ltac:(lia)) as Ms.
  assert (Es : i / 1024 = i / 64 / 16) by (rewrite Z.div_div by lia; reflexivity). rewrite Es.
  set (s := i / 64) in *. rewrite I6 by lia.
  destruct (positions_select l 0 (64 * s)) as (p & Ep & Hp); [fold ps; lia|]. fold ps in Ep. rewrite Ep.
  apply (darray_scan_ok false l (Z.to_nat (64 * s))); auto; [lia|].
  replace (Z.to_nat (64 * s) + Z.to_nat (i mod 64))%nat with (Z.to_nat i) by lia. auto.
Qed.
