(** Proofs for C107 *)
From Verif Require Import Base Spec Lib M_Broadword M_BitVector M_Darray M_EliasFano M_Gamma M_Util S_EliasFano P_EliasFano P_EliasFano2 P_Gamma
  M_Ranges S_Ranges.

Lemma u64_u64_add x k : u64 (u64 x + k) = u64 (x + k).
Proof. unfold u64. rewrite Zplus_mod_idemp_l. reflexivity. Qed.
Lemma u64_add_u64 x k : u64 (x + u64 k) = u64 (x + k).
Proof. unfold u64. rewrite Zplus_mod_idemp_r. reflexivity. Qed.

Lemma plus_ok t k x : integer_type t -> value_of t x -> 0 <= k < 4 -> adds t k x -> plus_const t x k = Ok (u64 (x + k)).
Proof.
  unfold integer_type, value_of, adds, plus_const, promoted. destruct t as [b s]. cbn [it_bits it_signed].
  intros T V Hk A. destruct (Z.ltb_spec b 32) as [B|B]; cbn [it_bits it_signed].
  - assert (- 2 ^ 15 <= x < 2 ^ 16) by (destruct s, T as [->|[->|[->| ->]]]; cbn in V; lia).
    change (32 - 1) with 31. replace ((- 2 ^ 31 <=? x + k) && (x + k <? 2 ^ 31)) with true by lia. reflexivity.
  - destruct T as [T|[T|[->| ->]]]; try lia; destruct s; cbn [Z.sub Z.add Z.opp Z.pos_sub Pos.pred_double] in V.
    + change (32 - 1) with 31 in *. destruct A as [A|A]; [lia|]. replace ((- 2 ^ 31 <=? x + k) && (x + k <? 2 ^ 31)) with true by lia. reflexivity.
    + destruct A as [A|A]; [congruence|]. rewrite Z.mod_small by lia. rewrite u64_small by lia. reflexivity.
    + change (64 - 1) with 63 in *. destruct A as [A|A]; [lia|]. replace ((- 2 ^ 63 <=? x + k) && (x + k <? 2 ^ 63)) with true by lia. reflexivity.
    + reflexivity.
Qed.

Section Exact.
Variable t : ity.
Hypothesis T : integer_type t.
Definition good (k x : Z) : Prop := value_of t x /\ adds t k x.

Lemma gv_loop_exact gr : forall ints, Forall (good 1) ints -> forall h l, gv_loop_t gr t ints h l = gv_loop gr (map u64 ints) h l.
Proof.
  induction 1 as [|x ints (V & A) _ IH]; intros h l; [reflexivity|]. cbn [gv_loop_t gv_loop map].
  rewrite (plus_ok t 1 x T V ltac:(lia) A). cbn [bind]. cbv zeta. rewrite u64_u64_add.
  destruct (msb _) as [r|]; [|reflexivity]. cbn [bind]. destruct (shl _ _) as [m|]; [|reflexivity]. cbn [bind].
  destruct (append_bits _ _ _ _) as [l'|]; [|reflexivity]. cbn [bind]. destruct (append1 _ _ _) as [h'|]; [|reflexivity]. cbn [bind]. apply IH.
Qed.
Lemma gv_exact gr ints : Forall (good 1) ints -> gv_build_t gr t ints = gv_build gr (map u64 ints).
Proof.
  intros F. unfold gv_build_t, gv_build. destruct (new_builder 0 false) as [l|]; [|reflexivity]. cbn [bind].
  destruct (append1 gr d64_new 0) as [h|]; [|reflexivity]. cbn [bind]. rewrite gv_loop_exact by auto. reflexivity.
Qed.
Lemma gb_loop_exact gr : forall ints, Forall (good 2) ints -> forall h l, gb_loop_t gr t ints h l = gb_loop gr (map u64 ints) h l.
Proof.
  induction 1 as [|x ints (V & A) _ IH]; intros h l; [reflexivity|]. cbn [gb_loop_t gb_loop map].
  rewrite (plus_ok t 2 x T V ltac:(lia) A). cbn [bind]. cbv zeta. rewrite u64_u64_add.
  destruct (msb _) as [r|]; [|reflexivity]. cbn [bind]. unfold assert_. destruct (0 <? u8 r); [|reflexivity].
  destruct (append1 _ _ _) as [h'|]; [|reflexivity]. cbn [bind]. destruct (shl _ _) as [m|]; [|reflexivity]. cbn [bind].
  destruct (append_bits _ _ _ _) as [l'|]; [|reflexivity]. cbn [bind]. apply IH.
Qed.
Lemma gb_exact gr ints : Forall (good 2) ints -> gb_build_t gr t ints = gb_build gr (map u64 ints).
Proof.
  intros F. unfold gb_build_t, gb_build. destruct (new_builder 0 false) as [l|]; [|reflexivity]. cbn [bind].
  destruct (append1 gr d64_new 0) as [h|]; [|reflexivity]. cbn [bind]. rewrite gb_loop_exact by auto. reflexivity.
Qed.
Lemma code_sum_exact : forall ints, Forall (good 1) ints -> forall s, code_sum_t t ints s = code_sum (map u64 ints) s.
Proof.
  induction 1 as [|x ints (V & A) _ IH]; intros s; [reflexivity|]. cbn [code_sum_t code_sum map].
  rewrite (plus_ok t 1 x T V ltac:(lia) A). cbn [bind]. rewrite u64_u64_add. destruct (msb _) as [r|]; [|reflexivity]. cbn [bind]. apply IH.
Qed.
Lemma efc_loop_exact gr : forall ints, Forall (good 1) ints -> forall b l, efc_loop_t gr t ints b l = efc_loop gr (map u64 ints) b l.
Proof.
  induction 1 as [|x ints (V & A) _ IH]; intros b l; [reflexivity|]. cbn [efc_loop_t efc_loop map].
  rewrite (plus_ok t 1 x T V ltac:(lia) A). cbn [bind]. cbv zeta. rewrite u64_u64_add.
  destruct (msb _) as [r|]; [|reflexivity]. cbn [bind]. destruct (shl _ _) as [m|]; [|reflexivity]. cbn [bind].
  destruct (append_bits _ _ _ _) as [l'|]; [|reflexivity]. cbn [bind]. destruct (ef_push _ _ _) as [b'|]; [|reflexivity]. cbn [bind]. apply IH.
Qed.
Lemma efc_exact gr ints : Forall (good 1) ints -> efc_build_t gr t ints = efc_build gr (map u64 ints).
Proof.
  intros F. unfold efc_build_t, efc_build. rewrite code_sum_exact by auto. destruct (code_sum _ 0) as [s|]; [|reflexivity]. cbn [bind].
  unfold zlen. rewrite map_length. destruct (ef_builder_new _ _ _) as [b|]; [|reflexivity]. cbn [bind].
  destruct (new_builder 0 false) as [l|]; [|reflexivity]. cbn [bind]. destruct (ef_push _ _ _) as [b'|]; [|reflexivity]. cbn [bind].
  rewrite efc_loop_exact by auto. reflexivity.
Qed.
End Exact.

Lemma efl_loop_exact gr : forall ints c b, efl_loop_t gr ints c b = efl_loop gr (map u64 ints) c b.
Proof.
  induction ints as [|x ints IH]; intros c b; [reflexivity|]. cbn [efl_loop_t efl_loop map]. cbv zeta.
  destruct (ef_push _ _ _); [|reflexivity]. cbn [bind]. apply IH.
Qed.
Lemma efl_exact gr ints : efl_build_t gr ints = efl_build gr (map u64 ints).
Proof.
  unfold efl_build_t, efl_build. cbv zeta.
  assert (F : forall l s, fold_left (fun s x => u64 (s + u64 x)) l s = fold_left (fun s x => u64 (s + x)) (map u64 l) s)
    by (induction l as [|x l IH]; intros s; [reflexivity|]; cbn [fold_left map]; apply IH).
  rewrite F. unfold zlen. rewrite map_length. destruct (ef_builder_new _ _ _) as [b|]; [|reflexivity]. cbn [bind].
  rewrite efl_loop_exact. reflexivity.
Qed.

Lemma lists_exact t gr ints : integer_type t -> Forall (value_of t) ints ->
  (Forall (adds t 1) ints -> gv_build_t gr t ints = gv_build gr (map u64 ints) /\ efc_build_t gr t ints = efc_build gr (map u64 ints)) /\
  (Forall (adds t 2) ints -> gb_build_t gr t ints = gb_build gr (map u64 ints)) /\
  efl_build_t gr ints = efl_build gr (map u64 ints).
Proof.
  intros T V. assert (G : forall k, Forall (adds t k) ints -> Forall (good t k) ints).
  { intros k A. apply Forall_forall. intros x Hx. split; [apply (proj1 (Forall_forall _ _) V x Hx)|apply (proj1 (Forall_forall _ _) A x Hx)]. }
  split; [|split].
  - intros A. split; [apply gv_exact|apply efc_exact]; auto.
  - intros A. apply gb_exact; auto.
  - apply efl_exact.
Qed.

(** types for which it always holds, and what the conversion to 64 bits does *)
Lemma adds_always t k x : integer_type t -> it_bits t < 32 \/ (it_bits t = 64 /\ it_signed t = false) -> adds t k x.
Proof. unfold adds. destruct t as [b s]; cbn [it_bits it_signed]. intros _ [H|[-> ->]]; [destruct s; [auto|left; lia]|left; lia]. Qed.
Lemma u64_nonneg t ints : integer_type t -> Forall (value_of t) ints -> Forall (fun x => 0 <= x) ints -> map u64 ints = ints.
Proof.
  intros T V N. induction ints as [|x ints IH]; [reflexivity|]. inversion V as [|? ? V1 V2]; subst. inversion N as [|? ? N1 N2]; subst.
  cbn [map]. rewrite IH by auto. f_equal. apply u64_small. unfold value_of in V1. unfold integer_type in T.
  destruct t as [b s]; cbn [it_bits it_signed] in *. destruct s, T as [->|[->|[->| ->]]]; cbn in V1; lia.
Qed.

(** ** the elements that cannot be added to *)
Lemma gv_loop_app gr t : forall a b h l, gv_loop_t gr t (a ++ b) h l = (do (h, l) <- gv_loop_t gr t a h l; gv_loop_t gr t b h l).
Proof.
  induction a as [|x a IH]; intros b h l; [reflexivity|]. cbn [app gv_loop_t].
  destruct (plus_const _ _ _) as [v|]; [|reflexivity]. cbn [bind]. destruct (msb _) as [r|]; [|reflexivity]. cbn [bind].
  destruct (shl _ _) as [m|]; [|reflexivity]. cbn [bind]. destruct (append_bits _ _ _ _) as [l'|]; [|reflexivity]. cbn [bind].
  destruct (append1 _ _ _) as [h'|]; [|reflexivity]. cbn [bind]. apply IH.
Qed.
Lemma gb_loop_app gr t : forall a b h l, gb_loop_t gr t (a ++ b) h l = (do (h, l) <- gb_loop_t gr t a h l; gb_loop_t gr t b h l).
Proof.
  induction a as [|x a IH]; intros b h l; [reflexivity|]. cbn [app gb_loop_t].
  destruct (plus_const _ _ _) as [v|]; [|reflexivity]. cbn [bind]. destruct (msb _) as [r|]; [|reflexivity]. cbn [bind].
  unfold assert_. destruct (0 <? u8 r); [|reflexivity].
  destruct (append1 _ _ _) as [h'|]; [|reflexivity]. cbn [bind].
  destruct (shl _ _) as [m|]; [|reflexivity]. cbn [bind]. destruct (append_bits _ _ _ _) as [l'|]; [|reflexivity]. cbn [bind]. apply IH.
Qed.
Lemma code_sum_app t : forall a b s, code_sum_t t (a ++ b) s = (do s <- code_sum_t t a s; code_sum_t t b s).
Proof.
  induction a as [|x a IH]; intros b s; [reflexivity|]. cbn [app code_sum_t].
  destruct (plus_const _ _ _) as [v|]; [|reflexivity]. cbn [bind]. destruct (msb _) as [r|]; [|reflexivity]. cbn [bind]. apply IH.
Qed.

(** the first element that fails decides *)
Lemma gv_stops gr t pre x post u g : gv_build_t gr t pre = Ok g -> (do v <- plus_const t x 1; msb v) = Ub u -> gv_build_t gr t (pre ++ x :: post) = Ub u.
Proof.
  unfold gv_build_t. destruct (new_builder 0 false) as [l|]; [|discriminate]. cbn [bind]. destruct (append1 gr d64_new 0) as [h|]; [|discriminate]. cbn [bind].
  rewrite gv_loop_app. destruct (gv_loop_t gr t pre h l) as [[h' l']|]; [|discriminate]. cbn [bind gv_loop_t]. intros _ E.
  destruct (plus_const t x 1) as [v|]; cbn [bind] in *; [|injection E as ->; reflexivity].
  destruct (msb v); [discriminate|]. injection E as ->. reflexivity.
Qed.
Lemma gb_stops gr t pre x post u g : gb_build_t gr t pre = Ok g -> (do v <- plus_const t x 2; do r <- msb v; assert! (0 <? u8 r); Ok r) = Ub u ->
  gb_build_t gr t (pre ++ x :: post) = Ub u.
Proof.
  unfold gb_build_t. destruct (new_builder 0 false) as [l|]; [|discriminate]. cbn [bind]. destruct (append1 gr d64_new 0) as [h|]; [|discriminate]. cbn [bind].
  rewrite gb_loop_app. destruct (gb_loop_t gr t pre h l) as [[h' l']|]; [|discriminate]. cbn [bind gb_loop_t]. intros _ E.
  destruct (plus_const t x 2) as [v|]; cbn [bind] in *; [|injection E as ->; reflexivity].
  destruct (msb v) as [r|]; cbn [bind] in *; [|injection E as ->; reflexivity]. unfold assert_ in *.
  destruct (0 <? u8 r); [discriminate|]. injection E as <-. reflexivity.
Qed.
Lemma efc_stops gr t pre x post u c : efc_build_t gr t pre = Ok c -> (do v <- plus_const t x 1; msb v) = Ub u -> efc_build_t gr t (pre ++ x :: post) = Ub u.
Proof.
  unfold efc_build_t. rewrite code_sum_app. destruct (code_sum_t t pre 0) as [s|]; [|discriminate]. cbn [bind code_sum_t]. intros _ E.
  destruct (plus_const t x 1) as [v|]; cbn [bind] in *; [|injection E as ->; reflexivity].
  destruct (msb v); [discriminate|]. injection E as ->. reflexivity.
Qed.


Lemma fits_64 t k x : integer_type t -> value_of t x -> adds t k x -> it_bits t <= 32 \/ it_signed t = true -> 0 <= x -> 0 <= k < 4 -> 0 <= x < 2 ^ 64 - k.
Proof.
  unfold integer_type, value_of, adds. destruct t as [b s]; cbn [it_bits it_signed]. intros T V _ B P K.
  destruct s, T as [->|[->|[->| ->]]]; cbn in V; destruct B as [B|B]; try discriminate; lia.
Qed.

(** elements of narrow or signed types that fit are stored *)
Lemma prefix_ok t pre k : integer_type t -> it_bits t <= 32 \/ it_signed t = true -> 0 <= k < 4 ->
  Forall (fun x => 0 <= x /\ value_of t x /\ adds t k x) pre -> Forall (fun x => 0 <= x < 2 ^ 64 - k) pre /\ Forall (good t k) pre /\ map u64 pre = pre.
Proof.
  intros T B K F. split; [|split].
  - eapply Forall_impl; [|exact F]. cbv beta. intros x (P & V & A). eapply fits_64; eauto.
  - eapply Forall_impl; [|exact F]. cbv beta. intros x (P & V & A). split; auto.
  - apply (u64_nonneg t); auto; eapply Forall_impl; try exact F; cbv beta; tauto.
Qed.

Lemma stops_all t gr pre post u : integer_type t -> it_bits t <= 32 \/ it_signed t = true -> zlen pre < 2 ^ 57 ->
  (Forall (fun x => 0 <= x /\ value_of t x /\ adds t 1 x) pre ->
     forall x, (do v <- plus_const t x 1; msb v) = Ub u -> gv_build_t gr t (pre ++ x :: post) = Ub u /\ efc_build_t gr t (pre ++ x :: post) = Ub u) /\
  (Forall (fun x => 0 <= x /\ value_of t x /\ adds t 2 x) pre ->
     forall x, (do v <- plus_const t x 2; do r <- msb v; assert! (0 <? u8 r); Ok r) = Ub u -> gb_build_t gr t (pre ++ x :: post) = Ub u).
Proof.
  intros T B L. split; intros F.
  - destruct (prefix_ok t pre 1 T B ltac:(lia) F) as (F1 & F2 & E). intros x H. split.
    + destruct (gv_all gr pre F1 L) as (g & G & _). eapply gv_stops; [|exact H]. rewrite (gv_exact t T gr pre F2), E. exact G.
    + destruct (efc_all gr pre F1 L) as (c & C & _). eapply efc_stops; [|exact H]. rewrite (efc_exact t T gr pre F2), E. exact C.
  - destruct (prefix_ok t pre 2 T B ltac:(lia) F) as (F1 & F2 & E). intros x H.
    destruct (gb_all gr pre F1 L) as (g & G & _). eapply gb_stops; [|exact H]. rewrite (gb_exact t T gr pre F2), E. exact G.
Qed.

Lemma uint32_last gr pre post : zlen pre < 2 ^ 57 ->
  (Forall (fun x => 0 <= x < 2 ^ 32 - 1) pre ->
     gv_build_t gr uint32 (pre ++ (2 ^ 32 - 1) :: post) = Ub AssertFailed /\ efc_build_t gr uint32 (pre ++ (2 ^ 32 - 1) :: post) = Ub AssertFailed) /\
  (Forall (fun x => 0 <= x < 2 ^ 32 - 2) pre ->
     gb_build_t gr uint32 (pre ++ (2 ^ 32 - 2) :: post) = Ub AssertFailed /\ gb_build_t gr uint32 (pre ++ (2 ^ 32 - 1) :: post) = Ub AssertFailed).
Proof.
  intros L. assert (T : integer_type uint32) by (right; right; left; reflexivity).
  destruct (stops_all uint32 gr pre post AssertFailed T (or_introl (Z.le_refl 32)) L) as (A & B). split; intros F.
  - apply A; [|reflexivity]. eapply Forall_impl; [|exact F]. cbv beta. intros x H. unfold value_of, adds. cbn [uint32 it_bits it_signed]. lia.
  - assert (F' : Forall (fun x => 0 <= x /\ value_of uint32 x /\ adds uint32 2 x) pre).
    { eapply Forall_impl; [|exact F]. cbv beta. intros x H. unfold value_of, adds. cbn [uint32 it_bits it_signed]. lia. }
    split; apply B; auto.
Qed.

Lemma signed_last gr t pre post : t = int32 \/ t = int64 -> zlen pre < 2 ^ 57 -> let m := 2 ^ (it_bits t - 1) - 1 in
  (Forall (fun x => 0 <= x < m) pre ->
     gv_build_t gr t (pre ++ m :: post) = Ub SignedOverflow /\ efc_build_t gr t (pre ++ m :: post) = Ub SignedOverflow) /\
  (Forall (fun x => 0 <= x < m - 1) pre ->
     gb_build_t gr t (pre ++ (m - 1) :: post) = Ub SignedOverflow /\ gb_build_t gr t (pre ++ m :: post) = Ub SignedOverflow).
Proof.
  intros H L m. assert (T : integer_type t) by (destruct H as [-> | ->]; [right; right; left|right; right; right]; reflexivity).
  assert (S : it_signed t = true) by (destruct H as [-> | ->]; reflexivity).
  destruct (stops_all t gr pre post SignedOverflow T (or_intror S) L) as (A & B).
  assert (V : forall k x, 0 <= x < m - (k - 1) -> 1 <= k -> 0 <= x /\ value_of t x /\ adds t k x).
  { intros k x X K. subst m. unfold value_of, adds. rewrite S. destruct H as [-> | ->]; cbn [int32 int64 it_bits] in *; lia. }
  split; intros F.
  - apply A; [eapply Forall_impl; [|exact F]; cbv beta; intros x X; apply V; lia|]. subst m. destruct H as [-> | ->]; reflexivity.
  - assert (F' : Forall (fun x => 0 <= x /\ value_of t x /\ adds t 2 x) pre) by (eapply Forall_impl; [|exact F]; cbv beta; intros x X; apply V; lia).
    split; apply B; auto; subst m; destruct H as [-> | ->]; reflexivity.
Qed.

Lemma msb_zero : msb 0 = Ub AssertFailed. Proof. reflexivity. Qed.
(** -1 becomes zero *)
Lemma minus_one gr t pre post : integer_type t -> it_signed t = true -> zlen pre < 2 ^ 57 ->
  Forall (fun x => 0 <= x /\ value_of t x /\ adds t 1 x) pre ->
  gv_build_t gr t (pre ++ (-1) :: post) = Ub AssertFailed /\ efc_build_t gr t (pre ++ (-1) :: post) = Ub AssertFailed.
Proof.
  intros T S L F. destruct (stops_all t gr pre post AssertFailed T (or_intror S) L) as (A & _). apply A; [auto|].
  unfold plus_const, promoted. destruct t as [b s]; cbn [it_bits it_signed] in *. subst s.
  destruct T as [T|[T|[T|T]]]; cbn [it_bits] in T; subst b; reflexivity.
Qed.

(** other negative elements come back as their 64-bit patterns *)
Lemma negative_back gr t ints : integer_type t -> it_signed t = true -> Forall (value_of t) ints -> zlen ints < 2 ^ 57 ->
  (Forall (adds t 1) ints -> Forall (fun x => x <> -1) ints -> exists g, gv_build_t gr t ints = Ok g /\ gamma_size g = zlen ints /\
     forall i x, nth_error ints i = Some x -> gv_get g (Z.of_nat i) = Ok (x mod 2 ^ 64)).
Proof.
  intros T S V L A N. destruct (lists_exact t gr ints T V) as (E & _). destruct (E A) as (E1 & _).
  assert (F : Forall (fun x => 0 <= x < 2 ^ 64 - 1) (map u64 ints)).
  { apply Forall_map. apply Forall_forall. intros x X. pose proof (proj1 (Forall_forall _ _) V x X) as Vx. pose proof (proj1 (Forall_forall _ _) N x X) as Nx. cbv beta in Nx.
    unfold value_of in Vx. rewrite S in Vx. unfold integer_type in T.
    assert (- 2 ^ 63 <= x < 2 ^ 63) by (destruct T as [B|[B|[B|B]]]; rewrite B in Vx; cbn in Vx; lia).
    unfold u64. pose proof (Z.mod_pos_bound x (2 ^ 64) ltac:(lia)). assert (x mod 2 ^ 64 <> 2 ^ 64 - 1); [|lia].
    destruct (Z.ltb_spec x 0).
    - assert (x mod 2 ^ 64 = x + 2 ^ 64) by (symmetry; apply (Z.mod_unique_pos _ _ (-1)); lia). lia.
    - rewrite Z.mod_small by lia. lia. }
  assert (L' : zlen (map u64 ints) = zlen ints) by (unfold zlen; rewrite map_length; reflexivity).
  destruct (gv_all gr (map u64 ints) F ltac:(lia)) as (g & G & Sz & R & _). exists g. rewrite E1. split; [auto|]. split; [lia|].
  intros i x X. rewrite (R i (u64 x)); [reflexivity|]. rewrite nth_error_map, X. reflexivity.
Qed.

(** ** nibbles *)
Lemma nv_exact : forall from nib p c s, Forall (fun x => 0 <= x) from -> nv_loop_t from nib p c s = nv_loop from nib p c s.
Proof.
  induction from as [|x from IH]; intros nib p c s F; [reflexivity|]. inversion F as [|? ? X F']; subst. cbn [nv_loop_t nv_loop].
  unfold assert_. destruct (x <? 16); [|reflexivity]. replace (x <? 0) with false by lia. cbn [bind]. cbv zeta.
  destruct (negb (negb p)); apply IH; auto.
Qed.
Lemma nv_negative : forall pre x post, Forall (fun x => 0 <= x < 16) pre -> x < 0 -> forall nib p c s, nv_loop_t (pre ++ x :: post) nib p c s = Ub BadShift.
Proof.
  induction 1 as [|y pre Y _ IH]; intros X nib p c s; cbn [app nv_loop_t]; unfold assert_.
  - replace (x <? 16) with true by lia. replace (x <? 0) with true by lia. reflexivity.
  - replace (y <? 16) with true by lia. replace (y <? 0) with false by lia. cbn [bind]. cbv zeta. destruct (negb (negb p)); apply IH; auto.
Qed.
Lemma nibbles : forall from, (Forall (fun x => 0 <= x) from -> nv_build_t from = nv_build from) /\
  (forall pre x post, Forall (fun x => 0 <= x < 16) pre -> x < 0 -> from = pre ++ x :: post -> nv_build_t from = Ub BadShift).
Proof.
  intros from. split; [intros F; apply nv_exact; auto|]. intros pre x post F X ->. apply nv_negative; auto.
Qed.
