(** test_mapper.cpp passes for exactly the arrays that meet its literal checks. *)
From Verif Require Import Base Lib M_Mapper M_Tests S_Mapper P_Mapper M_TestMapper.

Lemma std_equal_refl xs : std_equal xs xs = Ok true.
Proof. induction xs as [|x xs IH]; cbn [std_equal]; [reflexivity|]. rewrite Z.eqb_refl. exact IH. Qed.
Lemma mod8_4 a : a mod 8 = 0 -> a mod 4 = 0.
Proof. intros H. apply Z.mod_divide in H; [|lia]. apply Z.mod_divide; [lia|]. destruct H as (k & ->). exists (k * 2). lia. Qed.

Lemma freeze_map {A} (M : mappable A) strict addr x : typed (layout_of M) (data_of M x) -> 8 + frozen_size (layout_of M) (data_of M x) < 2 ^ 64 ->
  strict = false \/ addr mod 8 = 0 -> (forall pos, pos mod 8 = 0 -> aligned (layout_of M) (data_of M x) pos = true) ->
  exists n, map_at strict addr (fst (freeze (layout_of M) (data_of M x) 0)) (layout_of M) 0 = Ok (data_of M x, n).
Proof.
  intros H Hb Ha HA. destruct (freeze_map_gen strict addr _ _ 0 [] [] H Hb ltac:(lia)) as (_ & _ & E). cbv zeta in E.
  cbn [app] in E. rewrite app_nil_r in E. change (zlen (@nil Z)) with 0 in E. rewrite Z.add_0_r in E. exists (snd (freeze (layout_of M) (data_of M x) 0)). rewrite E. destruct Ha as [->|Ha]; [reflexivity|].
  rewrite HA by (apply (mod8 addr 1); auto). rewrite Ha. rewrite orb_true_r. reflexivity.
Qed.

Lemma basic_map_iff strict addr nums : Forall (in_type 4 true) nums -> strict = false \/ addr mod 8 = 0 ->
  test_basic_map strict addr nums = Ok true <-> length nums = 4%nat /\ nth_error nums 0 = Some 1 /\ nth_error nums 3 = Some 4.
Proof.
  intros HT HA. assert (P : length nums = 4%nat -> nth_error nums 0 = Some 1 -> nth_error nums 3 = Some 4 -> test_basic_map strict addr nums = Ok true).
  { intros L H0 H3. unfold test_basic_map. destruct nums as [|n0 [|n1 [|n2 [|n3 [|n4 nums]]]]]; try discriminate L.
    injection H0 as ->. injection H3 as ->. change (zlen [1; n1; n2; 4]) with 4.
    destruct (freeze_map (vec_map 4 true) strict addr [1; n1; n2; 4]) as (n & E); auto.
    { split; [lia|exact HT]. } { reflexivity. } { intros pos Hp. cbn [layout_of vec_map data_of aligned]. rewrite Hp. rewrite (mod8_4 (pos + 8)) by (apply (mod8 pos 1); auto). apply orb_true_r. }
    cbn [vec_map data_of layout_of] in *. destruct (freeze _ _ _) as [file w]. cbn [fst] in E. change (rd [1; n1; n2; 4] 0) with (Ok 1). change (rd [1; n1; n2; 4] 3) with (Ok 4). cbn [bind Z.eqb Pos.eqb].
    rewrite E. cbn [bind]. change (zlen [1; n1; n2; 4]) with 4. cbn [Z.eqb Pos.eqb]. apply std_equal_refl. }
  split; [|intros (H1 & H2 & H3); auto].
  unfold test_basic_map. intros H. destruct (4 =? zlen nums) eqn:L; [|discriminate]. apply Z.eqb_eq in L.
  destruct nums as [|n0 [|n1 [|n2 [|n3 [|n4 nums]]]]]; try discriminate L. 2:{ rewrite !zlen_cons in L. pose proof (zlen_nonneg nums). lia. }
  change (rd [n0; n1; n2; n3] 0) with (Ok n0) in H. change (rd [n0; n1; n2; n3] 3) with (Ok n3) in H. cbn [bind] in H.
  destruct (1 =? n0) eqn:E0; [|discriminate]. apply Z.eqb_eq in E0. destruct (4 =? n3) eqn:E3; [|discriminate]. apply Z.eqb_eq in E3. subst. auto.
Qed.

Lemma complex_struct_iff strict addr s : 0 <= fst s < 2 ^ 64 -> Forall (in_type 4 false) (snd s) -> 4 * zlen (snd s) < 2 ^ 63 ->
  strict = false \/ addr mod 8 = 0 -> test_complex_struct strict addr s = Ok true <-> length (snd s) = 2%nat.
Proof.
  destruct s as [a b]. cbn [fst snd]. intros Ha Hb HL HA. pose proof (zlen_nonneg b) as Lb.
  assert (HT : typed (layout_of complex_map) (data_of complex_map (a, b))) by (repeat split; auto; cbn [fst snd]; change (8 * 8) with 64; lia).
  assert (HF : frozen_size (layout_of complex_map) (data_of complex_map (a, b)) = 16 + 4 * zlen b) by (cbn; lia).
  destruct (size_of_ok complex_map (a, b) 0 String.EmptyString HT ltac:(rewrite HF; lia) ltac:(lia)) as (_ & _ & S & _).
  destruct (freeze_map complex_map strict addr (a, b)) as (n & E); [exact HT|rewrite HF; lia|exact HA| |].
  { intros pos Hp. assert (H8 : (pos + 8) mod 8 = 0) by (apply (mod8 pos 1); auto). assert (H16 : (pos + 8 + 8) mod 4 = 0) by (apply mod8_4, (mod8 (pos + 8) 1); auto).
    cbn [layout_of complex_map data_of aligned aligned_members frozen_size]. rewrite Hp, H8, H16, orb_true_r. reflexivity. }
  unfold test_complex_struct. destruct (freeze _ _ _) as [file w]. cbn [fst] in E. rewrite E, S, HF. cbn [bind data_of complex_map fst snd]. rewrite !Z.eqb_refl.
  destruct (Z.eqb_spec 24 (16 + 4 * zlen b)) as [D|D]; unfold zlen in D; split; intros H; try reflexivity; try discriminate; try lia; exfalso; lia.
Qed.
