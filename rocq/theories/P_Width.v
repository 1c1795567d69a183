(** Proofs for C92 *)
From Verif Require Import Base Spec Lib S_BitVector P_BvLib P_RsBuild M_BitVector M_Mapper S_Mapper P_Mapper M_Width S_Width.

Lemma width8 : bv_layout 8 = layout_of bv_map /\ rs_layout 8 = layout_of rs_map /\ bp_layout 8 = layout_of bp_map /\ ct_layout 8 = layout_of ct_map /\
  da_layout 8 = layout_of da_map /\ d64_layout 8 = layout_of d64_map /\ ef_layout 8 = layout_of ef_map /\ efl_layout 8 = layout_of efl_map /\
  efc_layout 8 = layout_of efc_map /\ gamma_layout 8 = layout_of gamma_map /\ nv_layout 8 = layout_of nv_map /\ tk_layout 8 = layout_of tk_map.
Proof. repeat split. Qed.

Ltac wide := intros x w; cbn -[Z.mul Z.add Z.sub]; lia.
Lemma widths : shrinks bv_layout bv_map 1 /\ shrinks rs_layout rs_map 1 /\ shrinks bp_layout bp_map 1 /\ shrinks ct_layout ct_map 1 /\
  shrinks da_layout da_map 1 /\ shrinks d64_layout d64_map 2 /\ shrinks ef_layout ef_map 4 /\ shrinks efl_layout efl_map 4 /\
  shrinks efc_layout efc_map 5 /\ shrinks gamma_layout gamma_map 3 /\ shrinks nv_layout nv_map 1 /\ shrinks tk_layout tk_map 1.
Proof. repeat split; wide. Qed.

Lemma width_roundtrip l d flags addr pre post : typed l d -> 8 + frozen_size l d < 2 ^ 64 -> 0 <= flags < 2 ^ 64 ->
  exists bytes, freeze l d flags = (bytes, 8 + frozen_size l d) /\ zlen bytes = 8 + frozen_size l d /\
  map_at false addr (pre ++ bytes ++ post) l (zlen pre) = Ok (d, 8 + frozen_size l d).
Proof.
  intros H Hb Hf. destruct (freeze_map_gen false addr l d flags pre post H Hb Hf) as (E1 & E2 & E3). cbn [negb orb] in E3.
  destruct (freeze l d flags) as [b n] eqn:E. cbn [fst snd] in *. exists b. rewrite <- E2. split; [reflexivity|]. split; [congruence|]. exact E3.
Qed.

(** ** halves of words *)
Lemma to_bytes_app n m : forall x, to_bytes (n + m) x = to_bytes n x ++ to_bytes m (x / 2 ^ (8 * Z.of_nat n)).
Proof.
  induction n as [|n IH]; intros x.
  - cbn. rewrite Z.div_1_r. reflexivity.
  - cbn [to_bytes Nat.add app]. rewrite IH. f_equal. f_equal. f_equal. replace (8 * Z.of_nat (S n)) with (8 + 8 * Z.of_nat n) by lia.
    rewrite Z.pow_add_r by lia. rewrite Z.div_div by (try apply Z.pow_pos_nonneg; lia). reflexivity.
Qed.
Lemma to_bytes_mod n : forall x y, to_bytes n (x + 2 ^ (8 * Z.of_nat n) * y) = to_bytes n x.
Proof.
  induction n as [|n IH]; intros x y; [reflexivity|]. cbn [to_bytes].
  replace (8 * Z.of_nat (S n)) with (8 + 8 * Z.of_nat n) by lia. rewrite Z.pow_add_r by lia. change (2 ^ 8) with 256.
  replace (x + 256 * 2 ^ (8 * Z.of_nat n) * y) with (x + 2 ^ (8 * Z.of_nat n) * y * 256) by ring.
  rewrite Z.mod_add, Z.div_add by lia. rewrite IH. reflexivity.
Qed.
Lemma split8 x : to_bytes 8 x = to_bytes 4 x ++ to_bytes 4 (x / 2 ^ 32).
Proof. exact (to_bytes_app 4 4 x). Qed.
Lemma join8 a b : 0 <= a < 2 ^ 32 -> to_bytes 4 a ++ to_bytes 4 b = to_bytes 8 (a + 2 ^ 32 * b).
Proof.
  intros H. rewrite split8. pose proof (to_bytes_mod 4 a b) as E. change (8 * Z.of_nat 4) with 32 in E. rewrite E. f_equal. f_equal.
  rewrite (Z.mul_comm (2 ^ 32)), Z.div_add by lia. rewrite Z.div_small by lia. lia.
Qed.

(** ** reading too much *)
Lemma elems_beyond addr mem size signed : 0 < size -> forall n cur, 0 <= cur <= zlen mem -> zlen mem < cur + size * Z.of_nat n ->
  read_elems false addr mem size signed n cur = Ub OutOfBounds.
Proof.
  intros Hs. induction n as [|n IH]; intros cur Hc H; [lia|]. cbn [read_elems]. unfold read_as. cbn [andb negb].
  destruct ((0 <=? cur) && (cur + size <=? zlen mem)) eqn:E; [|reflexivity]. cbn [bind]. rewrite IH by lia. reflexivity.
Qed.
Lemma vec_beyond addr pre post n : 0 <= n < 2 ^ 64 -> zlen post < 8 * n ->
  map_vec false addr (pre ++ to_bytes 8 n ++ post) 8 false (zlen pre) = Ub OutOfBounds.
Proof.
  intros Hn Hp. unfold map_vec, map_pod. change 8%nat with (Z.to_nat 8). rewrite read_ok by (try apply in_u64; lia). cbn [bind negb orb].
  pose proof (zlen_nonneg pre). pose proof (zlen_nonneg post). rewrite elems_beyond; [reflexivity|lia| |];
  rewrite !zlen_app, zlen_to_bytes; lia.
Qed.
Lemma vec_none addr pre post : map_vec false addr (pre ++ to_bytes 8 0 ++ post) 8 false (zlen pre) = Ok ([], zlen pre + 8).
Proof.
  unfold map_vec, map_pod. change 8%nat with (Z.to_nat 8). rewrite read_ok by (try apply in_u64; lia). cbn [bind negb orb].
  change (Z.to_nat 0) with 0%nat. change (u64 (0 * 8)) with 0. cbn [read_elems bind]. rewrite Z.add_0_r. reflexivity.
Qed.

(** ** the files of a bit_vector *)
Lemma pack_small l : zlen l < 2 ^ 32 -> 0 <= zlen (pack l) < 2 ^ 27 /\ (0 < zlen l -> 0 < zlen (pack l)).
Proof.
  intros H. rewrite zlen_pack. pose proof (zlen_nonneg l). pose proof (Z.div_mod (zlen l + 63) 64). pose proof (Z.mod_pos_bound (zlen l + 63) 64). lia.
Qed.
Lemma bv_typed_w w l : w = 4 \/ w = 8 -> zlen l < 2 ^ 32 ->
  typed (bv_layout w) (data_of bv_map (canonical l)) /\ frozen_size (bv_layout w) (data_of bv_map (canonical l)) = w + 8 + 8 * zlen (pack l).
Proof.
  intros Hw H. pose proof (zlen_nonneg l). split.
  - cbn -[Z.mul Z.pow]. destruct Hw as [-> | ->]; cbn -[Z.pow]; repeat split; try lia; exact (proj1 (words_ok_pack l)).
  - cbn -[Z.mul Z.add]. lia.
Qed.
Lemma bv_file w l flags : w = 4 \/ w = 8 -> zlen l < 2 ^ 32 ->
  fst (freeze (bv_layout w) (data_of bv_map (canonical l)) flags) =
  to_bytes 8 flags ++ to_bytes (Z.to_nat w) (zlen l) ++ to_bytes 8 (zlen (pack l)) ++ flat_map (to_bytes 8) (pack l).
Proof.
  intros Hw H. destruct (bv_typed_w w l Hw H) as (T & F). destruct (pack_small l H) as (S & _). unfold freeze.
  rewrite (proj1 freeze_ok) by (auto; cbn [freeze_pod snd]; rewrite ?F; change (u64 (0 + 8)) with 8; lia).
  cbn [freeze_pod fst app]. change (Z.to_nat 8) with 8%nat. f_equal. cbn -[to_bytes Z.to_nat]. change (Z.to_nat 8) with 8%nat. rewrite app_nil_r. reflexivity.
Qed.
Lemma elems8 xs : zlen (flat_map (to_bytes 8) xs) = 8 * zlen xs.
Proof. exact (elems_len 8 xs ltac:(lia)). Qed.

Lemma map_bv w addr mem : map_at false addr mem (bv_layout w) 0 =
  do (_, cur) <- map_pod false addr mem 8 false 0; do (m, cur) <- map_pod false addr mem w false cur;
  do (ws, cur) <- map_vec false addr mem 8 false cur; Ok (data_of bv_map (mk_bv m ws), cur - 0).
Proof.
  unfold map_at. destruct (map_pod false addr mem 8 false 0) as [(f & c)|]; cbn [bind]; [|reflexivity]. cbn [bv_layout bv_members_w map_visit map_members].
  destruct (map_pod false addr mem w false c) as [(m & c1)|]; cbn [bind]; [|reflexivity].
  destruct (map_vec false addr mem 8 false c1) as [(ws & c2)|]; cbn [bind]; reflexivity.
Qed.
Lemma pod_at addr pre post size x : 0 < size -> 0 <= x < 2 ^ (8 * size) ->
  map_pod false addr (pre ++ to_bytes (Z.to_nat size) x ++ post) size false (zlen pre) = Ok (x, zlen pre + size).
Proof. intros Hs Hx. unfold map_pod. rewrite read_ok by auto. reflexivity. Qed.

(** a 64-bit file mapped by a 32-bit build *)
Lemma narrow l flags addr : 0 <= flags < 2 ^ 64 -> zlen l < 2 ^ 32 ->
  map_at false addr (fst (freeze (bv_layout 8) (data_of bv_map (canonical l)) flags)) (bv_layout 4) 0 =
  if zlen l =? 0 then Ok (data_of bv_map (canonical l), 20) else Ub OutOfBounds.
Proof.
  intros Hf H. rewrite bv_file by auto. destruct (pack_small l H) as (S & S1). pose proof (zlen_nonneg l). rewrite map_bv.
  change (Z.to_nat 8) with 8%nat. rewrite (split8 (zlen l)). rewrite (Z.div_small (zlen l)) by lia. rewrite (split8 (zlen (pack l))), (Z.div_small (zlen (pack l))) by lia.
  rewrite <- !app_assoc. rewrite (app_assoc (to_bytes 4 0)). rewrite join8, Z.add_0_l by lia.
  set (post := to_bytes 4 0 ++ flat_map (to_bytes 8) (pack l)). set (n := 2 ^ 32 * zlen (pack l)).
  pose proof (pod_at addr [] (to_bytes 4 (zlen l) ++ to_bytes 8 n ++ post) 8 flags ltac:(lia) Hf) as E. cbn [app] in E. change (zlen (@nil Z)) with 0 in E.
  change (Z.to_nat 8) with 8%nat in E. rewrite E. clear E. cbn [bind]. change (0 + 8) with 8.
  pose proof (pod_at addr (to_bytes 8 flags) (to_bytes 8 n ++ post) 4 (zlen l) ltac:(lia) ltac:(lia)) as E. rewrite zlen_to_bytes in E.
  change (Z.of_nat 8) with 8 in E. change (Z.to_nat 4) with 4%nat in E. rewrite E. clear E. cbn [bind]. change (8 + 4) with 12.
  rewrite app_assoc. replace 12 with (zlen (to_bytes 8 flags ++ to_bytes 4 (zlen l))) by (rewrite zlen_app, !zlen_to_bytes; reflexivity).
  destruct (Z.eqb_spec (zlen l) 0) as [E|E].
  - apply length_zero_iff_nil in E || (destruct l; [|rewrite zlen_cons in E; pose proof (zlen_nonneg l); lia]).
    subst. reflexivity.
  - rewrite vec_beyond; [reflexivity|unfold n; lia|]. unfold post, n. rewrite zlen_app, zlen_to_bytes, elems8. lia.
Qed.

(** a 32-bit file mapped by a 64-bit build *)
Lemma widen l flags addr : 0 <= flags < 2 ^ 64 -> zlen l < 2 ^ 32 ->
  map_at false addr (fst (freeze (bv_layout 4) (data_of bv_map (canonical l)) flags)) (bv_layout 8) 0 =
  if (0 <? zlen l) && (hd 0 (pack l) mod 2 ^ 32 =? 0) then Ok (data_of bv_map (mk_bv (zlen l + 2 ^ 32 * zlen (pack l)) []), 24) else Ub OutOfBounds.
Proof.
  intros Hf H. rewrite bv_file by auto. destruct (pack_small l H) as (S & S1). pose proof (zlen_nonneg l). rewrite map_bv.
  change (Z.to_nat 4) with 4%nat. rewrite (split8 (zlen (pack l))), (Z.div_small (zlen (pack l))) by lia.
  rewrite <- !app_assoc. rewrite (app_assoc (to_bytes 4 (zlen l))). rewrite join8 by lia.
  set (m := zlen l + 2 ^ 32 * zlen (pack l)).
  pose proof (pod_at addr [] (to_bytes 8 m ++ to_bytes 4 0 ++ flat_map (to_bytes 8) (pack l)) 8 flags ltac:(lia) Hf) as E. cbn [app] in E.
  change (zlen (@nil Z)) with 0 in E. change (Z.to_nat 8) with 8%nat in E. rewrite E. clear E. cbn [bind]. change (0 + 8) with 8.
  pose proof (pod_at addr (to_bytes 8 flags) (to_bytes 4 0 ++ flat_map (to_bytes 8) (pack l)) 8 m ltac:(lia) ltac:(unfold m; lia)) as E. rewrite zlen_to_bytes in E.
  change (Z.of_nat 8) with 8 in E. change (Z.to_nat 8) with 8%nat in E. rewrite E. clear E. cbn [bind]. change (8 + 8) with 16.
  rewrite app_assoc. assert (L : 16 = zlen (to_bytes 8 flags ++ to_bytes 8 m)) by (rewrite zlen_app, !zlen_to_bytes; reflexivity).
  pose proof (proj1 (words_ok_pack l)) as W. destruct (pack l) as [|x ws] eqn:P.
  - assert (zlen l = 0) as -> by (change (zlen (@nil Z)) with 0 in *; lia). cbn [Z.ltb Z.compare andb]. unfold map_vec, map_pod, read_as.
    cbn [flat_map]. rewrite app_nil_r, !zlen_app, !zlen_to_bytes. reflexivity.
  - inversion W as [|? ? Wx Wr]; subst. cbn [flat_map hd]. replace (0 <? zlen l) with true. 2:{ symmetry. apply Z.ltb_lt.
      destruct (Z.eq_dec (zlen l) 0) as [E|]; [|lia]. destruct l; [discriminate P|rewrite zlen_cons in E; pose proof (zlen_nonneg l); lia]. }
    cbn [andb]. rewrite (split8 x). rewrite <- !app_assoc. rewrite (app_assoc (to_bytes 4 0)). 
    set (h := to_bytes 4 (x / 2 ^ 32) ++ flat_map (to_bytes 8) ws).
    assert (X : to_bytes 4 0 ++ to_bytes 4 x = to_bytes 8 (2 ^ 32 * (x mod 2 ^ 32))).
    { rewrite <- (Z.add_0_l (2 ^ 32 * _)). rewrite <- join8 by lia. f_equal. rewrite (Z.div_mod x (2 ^ 32)) at 1 by lia. rewrite Z.add_comm. exact (to_bytes_mod 4 _ _). }
    rewrite X. rewrite L. rewrite (app_assoc (to_bytes 8 flags)). pose proof (Z.mod_pos_bound x (2 ^ 32) ltac:(lia)).
    destruct (Z.eqb_spec (x mod 2 ^ 32) 0) as [E|E].
    + rewrite E. change (2 ^ 32 * 0) with 0. rewrite vec_none. cbn [bind]. rewrite <- L. reflexivity.
    + rewrite vec_beyond; [reflexivity|lia|]. unfold h. rewrite zlen_app, zlen_to_bytes, elems8. rewrite zlen_cons in S. lia.
Qed.

Lemma never_right l flags addr n : 0 <= flags < 2 ^ 64 -> 0 < zlen l < 2 ^ 32 -> forall w w', (w = 4 /\ w' = 8) \/ (w = 8 /\ w' = 4) ->
  map_at false addr (fst (freeze (bv_layout w) (data_of bv_map (canonical l)) flags)) (bv_layout w') 0 <> Ok (data_of bv_map (canonical l), n).
Proof.
  intros Hf H w w' [(-> & ->)|(-> & ->)].
  - rewrite widen by lia. destruct (_ && _); [|discriminate]. intros E. injection E as E1 E2. destruct (pack_small l) as (_ & S); [lia|]. lia.
  - rewrite narrow by lia. replace (zlen l =? 0) with false by lia. discriminate.
Qed.
