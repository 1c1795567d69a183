(** What map accepts *)
From Verif Require Import Base Spec Lib M_BitVector M_RsBitVector M_Darray M_EliasFano M_Gamma M_Util M_Bp M_Topk M_Mapper S_BitVector S_Mapper S_AnyFile P_BvLib P_BitVector P_RsBuild P_Darray P_Mapper.
From Coq Require Import ZifyBool ZifyNat.

Definition isbyte (x : Z) : Prop := 0 <= x < 256.

Lemma to_bytes_shift n : forall x k, to_bytes n (x + k * 2 ^ (8 * Z.of_nat n)) = to_bytes n x.
Proof.
  induction n as [|n IH]; intros x k; [reflexivity|]. cbn [to_bytes]. replace (8 * Z.of_nat (S n)) with (8 + 8 * Z.of_nat n) by lia.
  rewrite Z.pow_add_r by lia. change (2 ^ 8) with 256. replace (x + k * (256 * 2 ^ (8 * Z.of_nat n))) with (x + k * 2 ^ (8 * Z.of_nat n) * 256) by lia.
  rewrite Z_mod_plus_full, Z_div_plus_full by lia. rewrite IH. reflexivity.
Qed.
Lemma to_of_bytes bs : Forall isbyte bs -> to_bytes (length bs) (of_bytes bs) = bs /\ 0 <= of_bytes bs < 2 ^ (8 * zlen bs).
Proof.
  induction 1 as [|b bs Hb _ [IH1 IH2]]; [split; [reflexivity|split; [discriminate|reflexivity]]|]. cbn [length to_bytes of_bytes]. unfold isbyte in Hb.
  rewrite (Z.mul_comm 256), Z_mod_plus_full, Z_div_plus_full by lia. rewrite Z.mod_small, Z.div_small, Z.add_0_l, IH1 by lia. split; [reflexivity|].
  rewrite zlen_cons. replace (8 * (zlen bs + 1)) with (8 + 8 * zlen bs) by lia. pose proof (zlen_nonneg bs). rewrite Z.pow_add_r by lia. change (2 ^ 8) with 256. lia.
Qed.
Lemma to_of_bytes_as sg size bs : 0 < size -> zlen bs = size -> Forall isbyte bs ->
  to_bytes (Z.to_nat size) (of_bytes_as sg size bs) = bs /\ in_type size sg (of_bytes_as sg size bs).
Proof.
  intros Hs HL HB. destruct (to_of_bytes bs HB) as [T R]. rewrite HL in R. unfold of_bytes_as, in_type.
  assert (Ln : length bs = Z.to_nat size) by (unfold zlen in HL; lia). rewrite Ln in T.
  assert (P : 2 ^ (8 * size) = 2 * 2 ^ (8 * size - 1)) by (rewrite <- Z.pow_succ_r by lia; f_equal; lia).
  destruct sg; cbn [andb]; [|split; [exact T|lia]].
  destruct (Z.leb_spec (2 ^ (8 * size - 1)) (of_bytes bs)).
  - split; [|lia]. pose proof (to_bytes_shift (Z.to_nat size) (of_bytes bs) (-1)) as X. rewrite Z2Nat.id in X by lia.
    replace (of_bytes bs - 2 ^ (8 * size)) with (of_bytes bs + -1 * 2 ^ (8 * size)) by lia. rewrite X. exact T.
  - split; [exact T|lia].
Qed.

Lemma section_len f pos n : 0 <= pos -> 0 <= n -> pos + n <= zlen f -> zlen (section f pos n) = n.
Proof. intros. unfold section, window, zlen in *. rewrite firstn_length, skipn_length. lia. Qed.
Lemma firstn_plus {A} a b : forall l : list A, firstn (a + b) l = firstn a l ++ firstn b (skipn a l).
Proof. induction a as [|a IH]; intros [|x l]; cbn; try reflexivity; [destruct b; reflexivity|]. f_equal. apply IH. Qed.
Lemma section_app f pos m n : 0 <= pos -> 0 <= m -> 0 <= n -> section f pos (m + n) = section f pos m ++ section f (pos + m) n.
Proof. intros. unfold section, window. rewrite !Z2Nat.inj_add by lia. rewrite firstn_plus, skipn_plus. reflexivity. Qed.
Lemma section_0 f pos : section f pos 0 = [].
Proof. reflexivity. Qed.
Lemma section_bytes f pos n : Forall isbyte f -> Forall isbyte (section f pos n).
Proof.
  intros H. rewrite Forall_forall in *. intros x Hx. apply H. unfold section, window in Hx.
  rewrite <- (firstn_skipn (Z.to_nat pos) f). apply in_or_app. right. rewrite <- (firstn_skipn (Z.to_nat n) (skipn (Z.to_nat pos) f)). apply in_or_app. left. exact Hx.
Qed.

Section Inv.
Context (strict : bool) (addr : Z) (mem : list Z) (HM : Forall isbyte mem) (HS : zlen mem < 2 ^ 64).

Lemma read_inv size sg cur x : 0 < size -> read_as strict addr mem size sg cur = Ok x ->
  0 <= cur /\ cur + size <= zlen mem /\ in_type size sg x /\ to_bytes (Z.to_nat size) x = section mem cur size.
Proof.
  intros Hs. unfold read_as. destruct (strict && _); [discriminate|]. destruct ((0 <=? cur) && (cur + size <=? zlen mem)) eqn:C; [|discriminate].
  intros H. assert (of_bytes_as sg size (section mem cur size) = x) as <- by (injection H; auto). apply andb_prop in C. destruct C as [C1 C2].
  split; [lia|]. split; [lia|]. destruct (to_of_bytes_as sg size (section mem cur size)); auto; [apply section_len; lia|apply section_bytes; exact HM].
Qed.

Lemma elems_inv size sg : 0 < size -> forall n cur xs, 0 <= cur <= zlen mem -> read_elems strict addr mem size sg n cur = Ok xs ->
  length xs = n /\ cur + size * zlen xs <= zlen mem /\ Forall (in_type size sg) xs /\
  flat_map (to_bytes (Z.to_nat size)) xs = section mem cur (size * zlen xs).
Proof.
  intros Hs. induction n as [|n IH]; intros cur xs Hc H; cbn [read_elems] in H.
  - injection H as <-. change (zlen (@nil Z)) with 0. rewrite Z.mul_0_r. repeat split; [lia|constructor].
  - apply bind_inv in H. destruct H as (x & Hx & H). apply bind_inv in H. destruct H as (ys & Hy & H). injection H as <-.
    destruct (read_inv _ _ _ _ Hs Hx) as (R1 & R2 & R3 & R4). destruct (IH (cur + size) ys ltac:(lia) Hy) as (I1 & I2 & I3 & I4).
    cbn [length flat_map]. rewrite zlen_cons, R4, I4. pose proof (zlen_nonneg ys).
    split; [congruence|]. split; [lia|]. split; [constructor; auto|].
    replace (size * (zlen ys + 1)) with (size + size * zlen ys) by lia. rewrite section_app; [reflexivity|lia|lia|]. apply Z.mul_nonneg_nonneg; lia.
Qed.

Lemma visit_inv :
  (forall l, sized_layout l -> forall cur d cur', 0 <= cur <= zlen mem -> map_visit strict addr mem l cur = Ok (d, cur') ->
     typed l d /\ cur' = cur + frozen_size l d /\ cur' <= zlen mem /\ image l d = section mem cur (frozen_size l d)) /\
  (forall ms, sized_members ms -> forall cur ds cur', 0 <= cur <= zlen mem -> map_members strict addr mem ms cur = Ok (ds, cur') ->
     typed_members ms ds /\ cur' = cur + frozen_sizes ms ds /\ cur' <= zlen mem /\ images ms ds = section mem cur (frozen_sizes ms ds)).
Proof.
  apply layout_members_ind.
  - intros size sg Hs cur d cur' Hc H. cbn [map_visit sized_layout] in *. unfold map_pod in H. apply bind_inv in H. destruct H as ([x c] & Hx & H).
    apply bind_inv in Hx. destruct Hx as (y & Hy & Hx). injection Hx as <- <-. injection H as <- <-.
    destruct (read_inv _ _ _ _ Hs Hy) as (R1 & R2 & R3 & R4). cbn [typed frozen_size image]. auto.
  - intros size sg Hs cur d cur' Hc H. cbn [map_visit sized_layout] in *. apply bind_inv in H. destruct H as ([xs c] & Hx & H). injection H as <- <-.
    unfold map_vec, map_pod in Hx. apply bind_inv in Hx. destruct Hx as ([n c1] & Hn & Hx).
    apply bind_inv in Hn. destruct Hn as (m & Hm & Hn). injection Hn as <- <-.
    apply bind_inv in Hx. destruct Hx as (ys & Hy & Hx). injection Hx as <- <-.
    destruct (read_inv 8 false _ _ ltac:(lia) Hm) as (R1 & R2 & R3 & R4). unfold in_type in R3.
    destruct (elems_inv size sg Hs (Z.to_nat m) (cur + 8) ys ltac:(lia) Hy) as (I1 & I2 & I3 & I4). pose proof (zlen_nonneg ys).
    assert (m = zlen ys) as -> by (unfold zlen; lia). assert (0 <= size * zlen ys) by (apply Z.mul_nonneg_nonneg; lia).
    cbn [typed frozen_size image]. rewrite u64_small by lia. split; [auto|]. split; [lia|]. split; [lia|].
    rewrite section_app by lia. f_equal; [exact R4|exact I4].
  - intros ms IH Hs cur d cur' Hc H. cbn [map_visit sized_layout] in *. apply bind_inv in H. destruct H as ([ds c] & Hx & H). injection H as <- <-.
    cbn [typed frozen_size image]. eapply IH; eauto.
  - intros _ cur ds cur' Hc H. cbn [map_members] in H. injection H as <- <-. cbn [typed_members frozen_sizes images]. repeat split; lia.
  - intros nm l IHl ms IHms [Hl Hms] cur ds cur' Hc H. cbn [map_members] in H. apply bind_inv in H. destruct H as ([d c] & Hd & H).
    apply bind_inv in H. destruct H as ([ds' c'] & Hds & H). injection H as <- <-.
    destruct (IHl Hl _ _ _ Hc Hd) as (A1 & A2 & A3 & A4). pose proof (proj1 frozen_nonneg l d A1).
    destruct (IHms Hms c ds' c' ltac:(lia) Hds) as (B1 & B2 & B3 & B4). pose proof (proj2 frozen_nonneg ms ds' B1).
    cbn [typed_members frozen_sizes images]. split; [auto|]. split; [lia|]. split; [lia|]. rewrite section_app, A4, B4 by lia. rewrite A2. reflexivity.
Qed.
End Inv.

Lemma any_file strict addr mem l base d n : sized_layout l -> Forall (fun x => 0 <= x < 256) mem -> zlen mem < 2 ^ 64 ->
  map_at strict addr mem l base = Ok (d, n) ->
  typed l d /\ n = 8 + frozen_size l d /\ 0 <= base /\ base + n <= zlen mem /\
  exists flags, 0 <= flags < 2 ^ 64 /\ freeze l d flags = (section mem base n, n).
Proof.
  intros HL HM HS H. unfold map_at, map_pod in H. apply bind_inv in H. destruct H as ([flags c] & Hf & H). apply bind_inv in Hf. destruct Hf as (x & Hx & Hf).
  injection Hf as <- <-. apply bind_inv in H. destruct H as ([d' c'] & Hd & H). injection H as <- <-.
  destruct (read_inv strict addr mem HM 8 false _ _ ltac:(lia) Hx) as (R1 & R2 & R3 & R4).
  destruct (proj1 (visit_inv strict addr mem HM HS) l HL (base + 8) d' c' ltac:(lia) Hd) as (A1 & A2 & A3 & A4). pose proof (proj1 frozen_nonneg l d' A1).
  split; [exact A1|]. split; [lia|]. split; [lia|]. split; [lia|]. exists x. split; [exact R3|].
  unfold freeze, freeze_pod. cbn [fst snd app]. change (u64 (0 + 8)) with 8. rewrite (proj1 freeze_ok) by (auto; cbn [snd]; lia). cbn [fst snd].
  replace (c' - base) with (8 + frozen_size l d') by lia. rewrite section_app by lia. rewrite A4, R4. reflexivity.
Qed.

(** ** the structures read *)
Ltac onto_tac := let d := fresh in let H := fresh in intros d H; unfold layout_of, data_of in *; cbn in *;
  repeat match goal with
  | H : context [match ?d with DPod _ => _ | DVec _ => _ | DObj _ => _ end] |- _ => destruct d; cbn in H; try (exfalso; clear -H; tauto)
  | H : context [match ?d with DNil => _ | DCons _ _ => _ end] |- _ => destruct d; cbn in H; try (exfalso; clear -H; tauto)
  end.
Lemma all_onto : (forall size signed, onto (vec_map size signed)) /\
  onto bv_map /\ onto rs_map /\ onto bp_map /\ onto ct_map /\ onto da_map /\ onto d64_map /\ onto ef_map /\ onto efl_map /\
  onto efc_map /\ onto gamma_map /\ onto nv_map /\ onto tk_map.
Proof.
  split; [intros size sg; onto_tac; eexists; reflexivity|].
  split; [onto_tac; eexists (mk_bv _ _); reflexivity|].
  split; [onto_tac; eexists (mk_rs (mk_bv _ _) _ _ _); reflexivity|].
  split; [onto_tac; eexists (mk_bp (mk_rs (mk_bv _ _) _ _ _) _ _ _); reflexivity|].
  split; [onto_tac; eexists (mk_bp (mk_rs (mk_bv _ _) _ _ _) _ _ _); reflexivity|].
  split; [onto_tac; eexists (mk_darray _ _ _ _); reflexivity|].
  split; [onto_tac; eexists (mk_d64 _ (mk_bv _ _) _ _); reflexivity|].
  split; [onto_tac; eexists (mk_ef _ (mk_bv _ _) (mk_darray _ _ _ _) (mk_darray _ _ _ _) (mk_bv _ _) _); reflexivity|].
  split; [onto_tac; eexists (mk_ef _ (mk_bv _ _) (mk_darray _ _ _ _) (mk_darray _ _ _ _) (mk_bv _ _) _); reflexivity|].
  split; [onto_tac; eexists (mk_efc (mk_ef _ (mk_bv _ _) (mk_darray _ _ _ _) (mk_darray _ _ _ _) (mk_bv _ _) _) (mk_bv _ _)); reflexivity|].
  split; [onto_tac; eexists (mk_gamma (mk_d64 _ (mk_bv _ _) _ _) (mk_bv _ _)); reflexivity|].
  split; [onto_tac; eexists (mk_nv _ _); reflexivity|].
  onto_tac; eexists (mk_tk _ (mk_bp (mk_rs (mk_bv _ _) _ _ _) _ _ _)); reflexivity.
Qed.

(** ** what follows for the bytes *)
Lemma app_inj_len {A} (a : list A) : forall b c d, a ++ c = b ++ d -> length a = length b -> a = b /\ c = d.
Proof.
  induction a as [|x a IH]; intros [|y b] c d H L; cbn in *; try discriminate; [auto|]. injection H as -> H. injection L as L.
  destruct (IH _ _ _ H L) as [-> ->]. auto.
Qed.
Lemma only_these_bytes strict addr mem l base d n addr' pre post : sized_layout l -> Forall (fun x => 0 <= x < 256) mem -> zlen mem < 2 ^ 64 ->
  map_at strict addr mem l base = Ok (d, n) -> map_at false addr' (pre ++ section mem base n ++ post) l (zlen pre) = Ok (d, n).
Proof.
  intros HL HM HS H. destruct (any_file _ _ _ _ _ _ _ HL HM HS H) as (T & N & B0 & B1 & flags & Hf & Ef).
  destruct (freeze_map_gen false addr' l d flags pre post T ltac:(lia) Hf) as (_ & _ & E). rewrite Ef in E. cbn [fst snd negb orb] in E. exact E.
Qed.
Lemma same_bytes strict addr mem base strict' addr' mem' base' l d n n' : sized_layout l ->
  Forall (fun x => 0 <= x < 256) mem -> zlen mem < 2 ^ 64 -> Forall (fun x => 0 <= x < 256) mem' -> zlen mem' < 2 ^ 64 ->
  map_at strict addr mem l base = Ok (d, n) -> map_at strict' addr' mem' l base' = Ok (d, n') ->
  n = n' /\ section mem (base + 8) (n - 8) = section mem' (base' + 8) (n - 8).
Proof.
  intros HL HM HS HM' HS' H H'. destruct (any_file _ _ _ _ _ _ _ HL HM HS H) as (T & N & B0 & B1 & f & Hf & Ef).
  destruct (any_file _ _ _ _ _ _ _ HL HM' HS' H') as (_ & N' & B0' & B1' & f' & Hf' & Ef').
  pose proof (proj1 frozen_nonneg l d T). split; [lia|].
  unfold freeze, freeze_pod in Ef, Ef'. cbn [fst snd app] in Ef, Ef'. change (u64 (0 + 8)) with 8 in Ef, Ef'.
  rewrite (proj1 freeze_ok) in Ef by (auto; cbn [snd]; lia). rewrite (proj1 freeze_ok) in Ef' by (auto; cbn [snd]; lia). cbn [fst snd] in Ef, Ef'.
  apply (f_equal fst) in Ef, Ef'. cbn [fst] in Ef, Ef'.
  assert (X : forall m b g, 0 <= b -> b + n <= zlen m -> to_bytes (Z.to_nat 8) g ++ image l d = section m b n -> section m (b + 8) (n - 8) = image l d).
  { intros m b g Hb Hn E. replace n with (8 + (n - 8)) in E at 1 by lia. rewrite section_app in E by lia.
    assert (zlen (to_bytes (Z.to_nat 8) g) = zlen (section m b 8)) by (rewrite section_len by lia; reflexivity).
    apply app_inj_len in E; [symmetry; apply E|]. unfold zlen in *. lia. }
  rewrite (X mem base f) by (auto; lia). assert (En : n' = n) by lia. rewrite En in Ef', B1'. rewrite (X mem' base' f' B0' B1' Ef'). reflexivity.
Qed.

(** ** one wrong byte *)
Lemma to_bytes_snoc n : forall x, to_bytes (S n) x = to_bytes n x ++ [(x / 2 ^ (8 * Z.of_nat n)) mod 256].
Proof.
  induction n as [|n IH]; intros x; [cbn [to_bytes app]; rewrite Z.div_1_r; reflexivity|].
  change (to_bytes (S (S n)) x) with (x mod 256 :: to_bytes (S n) (x / 256)). rewrite IH. cbn [to_bytes app]. do 4 f_equal.
  rewrite Z.div_div by (try lia; apply Z.pow_pos_nonneg; lia). f_equal. replace (8 * Z.of_nat (S n)) with (8 + 8 * Z.of_nat n) by lia. rewrite Z.pow_add_r by lia. reflexivity.
Qed.

Lemma corrupt l flags addr : zlen l < 2 ^ 56 -> 0 <= flags < 2 ^ 64 ->
  exists file bv n pos, one_byte_apart (fst (freeze (layout_of bv_map) (data_of bv_map (canonical l)) flags)) file /\
    map_at false addr file (layout_of bv_map) 0 = Ok (data_of bv_map bv, n) /\ n = zlen file /\
    0 <= pos < bv_size bv /\ bv_get bv pos = Ub AssertFailed.
Proof.
  intros HL HF. pose proof (zlen_nonneg l). destruct (canonical_typed l ltac:(lia)) as [T B].
  set (bv := mk_bv (zlen l + 2 ^ 56) (pack l)).
  assert (T' : typed (layout_of bv_map) (data_of bv_map bv)).
  { cbn [bv_map layout_of data_of typed typed_members bv_members bv_datas canonical bv_size bv_words in_type bv] in T |- *. unfold in_type in *. change (8 * 8) with 64 in *.
    unfold bv. cbn [bv_size bv_words]. intuition lia. }
  assert (B' : 8 + frozen_size (layout_of bv_map) (data_of bv_map bv) < 2 ^ 64) by (rewrite bv_frozen in *; exact B).
  destruct (freeze_map_gen false addr (layout_of bv_map) (data_of bv_map bv) flags [] [] T' B' HF) as (E1 & E2 & E3). rewrite app_nil_r in E3. cbn [app negb orb] in E3.
  change (zlen (@nil Z)) with 0 in E3.
  exists (fst (freeze (layout_of bv_map) (data_of bv_map bv) flags)), bv. eexists. exists (64 * zlen (pack l)).
  split; [|split; [exact E3|split; [exact E1|]]].
  - unfold freeze, freeze_pod. cbn [fst snd app]. change (u64 (0 + 8)) with 8.
    pose proof (proj1 frozen_nonneg _ _ T). pose proof (proj1 frozen_nonneg _ _ T').
    rewrite !(proj1 freeze_ok) by (auto; cbn [snd]; lia). cbn [fst].
    cbn [bv_map layout_of data_of image images bv_members bv_datas canonical bv_size bv_words bv]. unfold bv. cbn [bv_size bv_words].
    change (Z.to_nat 8) with (S 7). rewrite !(to_bytes_snoc 7 (zlen l)), !(to_bytes_snoc 7 (zlen l + 2 ^ 56)).
    change (8 * Z.of_nat 7) with 56. replace (zlen l + 2 ^ 56) with (zlen l + 1 * 2 ^ (8 * Z.of_nat 7)) at 1 by reflexivity. rewrite to_bytes_shift.
    rewrite (Z.div_small (zlen l)) by lia. replace ((zlen l + 2 ^ 56) / 2 ^ 56) with 1 by (rewrite <- (Z.mul_1_l (2 ^ 56)) at 1; rewrite Z_div_plus_full, Z.div_small by lia; reflexivity).
    exists (to_bytes 8 flags ++ to_bytes 7 (zlen l)), (0 mod 256), (1 mod 256). eexists.
    split; [rewrite <- !app_assoc; reflexivity|]. split; [rewrite <- !app_assoc; reflexivity|]. split; [discriminate|]. split; [discriminate|reflexivity].
  - unfold bv. cbn [bv_size]. rewrite zlen_pack. pose proof (Z.div_mod (zlen l + 63) 64). pose proof (Z.mod_pos_bound (zlen l + 63) 64).
    split; [lia|]. unfold bv_get. cbn [bv_size bv_words]. replace (_ <? _) with true by lia. unfold assert_ at 1. cbv iota.
    rewrite (Z.mul_comm 64), Z.div_mul, <- zlen_pack, Z.ltb_irrefl by lia. reflexivity.
Qed.
