(** The generators produce balanced sequences. *)
From Verif Require Import Base Spec Lib M_BitVector M_Bp M_Gen M_Tests.
From Verif Require Import S_Bp P_RsBuild P_Builder P_BpSpec P_Tests1 P_Tests2 P_BvLib P_BvLib.

Lemma bal_insert l : bal l -> forall x y, l = x ++ y -> bal (x ++ true :: false :: y).
Proof.
  induction 1 as [|u v Bu IHu Bv IHv]; intros x y E.
  - destruct x; [|discriminate]. cbn in E. subst y. apply (bal_pair [] []); constructor.
  - destruct x as [|c x]; cbn [app] in E.
    + subst y. apply (bal_pair [] (true :: u ++ false :: v)); constructor; auto.
    + injection E as <- E. destruct (app_eq_app _ _ _ _ E) as (m & [(E1 & E2)|(E1 & E2)]).
      * subst u y. cbn [app].
        replace (true :: x ++ true :: false :: m ++ false :: v) with (true :: (x ++ true :: false :: m) ++ false :: v)
          by (rewrite <- app_assoc; reflexivity).
        constructor; auto.
      * destruct m as [|c m]; cbn [app] in E2.
        -- rewrite app_nil_r in E1. subst x y. cbn [app].
           replace (true :: u ++ true :: false :: false :: v) with (true :: (u ++ [true; false]) ++ false :: v)
             by (rewrite <- app_assoc; reflexivity).
           constructor; auto. apply IHu. rewrite app_nil_r. reflexivity.
        -- injection E2 as <- E2. subst x. cbn [app]. rewrite <- app_assoc. cbn [app]. constructor; auto.
Qed.

Section G.
  Variable B : Type.
  Variable push : B -> bool -> res B.
  Variable holds : B -> list bool -> Prop.
  Hypothesis push_ok : forall b l x, holds b l -> exists b', push b x = Ok b' /\ holds b' (l ++ [x]).

  Lemma helper_ok rnd : forall fuel i b l size, holds b l -> 1 <= size < 2 ^ 64 -> size mod 2 = 1 -> size <= Z.of_nat fuel ->
    exists b' i' u, random_binary_tree_helper push rnd fuel i b size = Ok (b', i') /\ holds b' (l ++ u ++ [false]) /\ bal u /\
      zlen u + 1 = size.
  Proof.
    induction fuel as [|fuel IH]; intros i b l size H Hs Ho Hf; [lia|]. cbn [random_binary_tree_helper].
    rewrite assert_true by lia. destruct (Z.eqb_spec size 1) as [->|N].
    - destruct (push_ok b l false H) as (b' & -> & H'). cbn [bind]. exists b', i, []. repeat split; auto. constructor.
    - destruct (push_ok b l true H) as (b1 & -> & H1). cbn [bind]. rewrite sub64_ok by lia.
      set (r := u64 (rnd i) mod (size - 1)). assert (Hr : 0 <= r < size - 1) by (apply Z.mod_pos_bound; lia).
      rewrite (u64_small (2 * (r / 2) + 1)) by dlia. set (left := 2 * (r / 2) + 1).
      assert (HL : 1 <= left <= size - 2) by (unfold left; dlia).
      assert (HL2 : left mod 2 = 1) by (unfold left; dlia).
      rewrite sub64_ok by lia. rewrite !assert_true by (try lia; rewrite u64_small by lia; lia).
      destruct (IH (S i) b1 _ left H1 ltac:(lia) HL2 ltac:(lia)) as (b2 & i2 & u & -> & H2 & Bu & Lu). cbn [bind].
      destruct (IH i2 b2 _ (size - 1 - left) H2 ltac:(lia) ltac:(dlia) ltac:(lia)) as (b3 & i3 & v & -> & H3 & Bv & Lv).
      exists b3, i3, (true :: u ++ false :: v). split; auto. split; [|split].
      + replace (l ++ (true :: u ++ false :: v) ++ [false]) with (((l ++ [true]) ++ u ++ [false]) ++ v ++ [false]); auto.
        repeat (rewrite <- app_assoc; cbn [app]). reflexivity.
      + constructor; auto.
      + rewrite zlen_cons, zlen_app, zlen_cons. lia.
  Qed.
  Lemma tree_ok rnd b l size : holds b l -> 2 <= size < 2 ^ 64 -> size mod 2 = 0 ->
    exists b' u, random_binary_tree push rnd b size = Ok b' /\ holds b' (l ++ true :: u ++ [false]) /\ bal u /\ zlen u + 2 = size.
  Proof.
    intros H Hs He. unfold random_binary_tree. rewrite assert_true by lia.
    destruct (push_ok b l true H) as (b1 & -> & H1). cbn [bind].
    destruct (helper_ok rnd (Z.to_nat size) 0 b1 _ (size - 1) H1 ltac:(lia) ltac:(dlia) ltac:(lia)) as (b2 & i2 & u & -> & H2 & Bu & Lu).
    cbn [bind]. exists b2, u. repeat split; auto; [|lia]. rewrite <- app_assoc in H2. exact H2.
  Qed.

  Lemma push_times_ok x : forall n b l, holds b l -> exists b', push_times push x n b = Ok b' /\ holds b' (l ++ repeat x n).
  Proof.
    induction n as [|n IH]; intros b l H; cbn [push_times repeat]; [exists b; rewrite app_nil_r; auto|].
    destruct (push_ok b l x H) as (b1 & -> & H1). cbn [bind]. destruct (IH b1 _ H1) as (b2 & -> & H2).
    exists b2. split; auto. rewrite <- app_assoc in H2. exact H2.
  Qed.
  Lemma path_ok b l size : holds b l -> 0 <= size -> size mod 2 = 0 ->
    exists b', bp_path push b size = Ok b' /\
      holds b' (l ++ repeat true (Z.to_nat (size / 2)) ++ repeat false (Z.to_nat (size / 2))).
  Proof.
    intros H Hs He. unfold bp_path. rewrite assert_true by lia.
    destruct (push_times_ok true (Z.to_nat (size / 2)) b l H) as (b1 & -> & H1). cbn [bind].
    destruct (push_times_ok false (Z.to_nat (size / 2)) b1 _ H1) as (b2 & -> & H2).
    exists b2. split; auto. rewrite <- app_assoc in H2. exact H2.
  Qed.

  (** [op d l]: [l] followed by [d] closing parentheses is balanced *)
  Lemma random_loop_ok rm rnd : forall n i b l a d, holds b (l ++ true :: a) -> bal (a ++ repeat false d) ->
    Z.of_nat d + Z.of_nat n < 2 ^ 31 - 1 ->
    exists b' a' d', random_bp_loop push rm rnd n i b (Z.of_nat d + 1) = Ok (b', Z.of_nat d' + 1) /\ holds b' (l ++ true :: a') /\
      bal (a' ++ repeat false d') /\ zlen a' = zlen a + Z.of_nat n /\ (d' <= d + n)%nat.
  Proof.
    induction n as [|n IH]; intros i b l a d H Hb Hd; cbn [random_bp_loop].
    { exists b, a, d. repeat split; auto; lia. }
    set (val := if (Z.of_nat d + 1 <=? 1) && negb (rm / 2 <? rnd i) then true else rm / 2 <? rnd i).
    assert (C : val = true \/ (val = false /\ (0 < d)%nat)).
    { unfold val. destruct (Z.leb_spec (Z.of_nat d + 1) 1); destruct (rm / 2 <? rnd i); cbn; auto. right. split; auto. lia. }
    clearbody val. unfold int32. destruct C as [-> | (-> & C)].
    - replace ((- 2 ^ 31 <=? Z.of_nat d + 1 + 1) && (Z.of_nat d + 1 + 1 <? 2 ^ 31)) with true by lia. cbn [bind].
      destruct (push_ok b _ true H) as (b1 & -> & H1). cbn [bind].
      replace (Z.of_nat d + 1 + 1) with (Z.of_nat (S d) + 1) by lia. rewrite <- app_assoc in H1. cbn [app] in H1.
      destruct (IH (S i) b1 l (a ++ [true]) (S d) H1) as (b2 & a2 & d2 & E & H2 & B2 & L2 & D2); [|lia|].
      { rewrite <- app_assoc. cbn [app repeat]. apply (bal_insert _ Hb). reflexivity. }
      exists b2, a2, d2. split; auto. split; auto. split; auto. rewrite zlen_snoc in L2. lia.
    - replace ((- 2 ^ 31 <=? Z.of_nat d + 1 + -1) && (Z.of_nat d + 1 + -1 <? 2 ^ 31)) with true by lia. cbn [bind].
      destruct (push_ok b _ false H) as (b1 & -> & H1). cbn [bind]. destruct d as [|d]; [lia|].
      replace (Z.of_nat (S d) + 1 + -1) with (Z.of_nat d + 1) by lia. rewrite <- app_assoc in H1. cbn [app] in H1.
      destruct (IH (S i) b1 l (a ++ [false]) d H1) as (b2 & a2 & d2 & E & H2 & B2 & L2 & D2); [|lia|].
      { rewrite <- app_assoc. exact Hb. }
      exists b2, a2, d2. split; auto. split; auto. split; auto. rewrite zlen_snoc in L2. lia.
  Qed.
  Lemma random_ok rm rnd b l size : holds b l -> 1 <= size < 2 ^ 31 ->
    exists b' u, random_bp push rm rnd b size = Ok b' /\ holds b' (l ++ true :: u ++ [false]) /\ bal u /\
      size + 1 <= zlen u + 2 <= 2 * size.
  Proof.
    intros H Hs. unfold random_bp. replace (Z.to_nat size) with (S (Z.to_nat (size - 1))) by lia. cbn [random_bp_loop].
    set (val := if (0 <=? 1) && negb (rm / 2 <? rnd 0%nat) then true else rm / 2 <? rnd 0%nat).
    assert (C : val = true) by (unfold val; destruct (rm / 2 <? rnd 0%nat); reflexivity). rewrite C. clear C val.
    change (int32 (0 + 1)) with (Ok (Z.of_nat 0 + 1)). cbn [bind].
    destruct (push_ok b l true H) as (b1 & -> & H1). cbn [bind].
    destruct (random_loop_ok rm rnd (Z.to_nat (size - 1)) 1 b1 l [] 0 H1) as (b2 & a & d & -> & H2 & B2 & L2 & D2); [constructor|lia|].
    cbn [bind]. rewrite u64_small by lia.
    destruct (push_times_ok false (Z.to_nat (Z.of_nat d + 1)) b2 _ H2) as (b3 & -> & H3).
    exists b3, (a ++ repeat false d). split; auto. split; [|split; auto].
    - replace (Z.to_nat (Z.of_nat d + 1)) with (d + 1)%nat in H3 by lia. rewrite repeat_app in H3. cbn [repeat] in H3.
      rewrite <- app_assoc in H3. cbn [app] in H3. rewrite <- app_assoc. exact H3.
    - rewrite zlen_app, zlen_repeat, L2. change (zlen (@nil bool)) with 0. lia.
  Qed.
End G.

Lemma vpush_ok v l x : v = l -> exists v' : list bool, vpush v x = Ok v' /\ v' = l ++ [x].
Proof. intros ->. unfold vpush. eauto. Qed.
