(** The comparator of topk_vector's queue *)
From Verif Require Import Base Spec M_Topk S_Cartesian S_Topk P_Topk.

Lemma vic_order T (lt eq : T -> T -> bool) : strict_weak_order lt -> eq_agrees lt eq -> strict_weak_order (value_index_comparator lt eq).
Proof.
  intros O A. pose proof (vic_neg lt eq O A) as N.
  assert (I : forall x, value_index_comparator lt eq x x = false).
  { intros [[[x i] c] d]. unfold value_index_comparator. rewrite (proj1 O). cbn [orb]. destruct (eq x x); [cbn [andb]; lia|reflexivity]. }
  assert (S : forall x y, value_index_comparator lt eq x y = true -> value_index_comparator lt eq y x = false).
  { intros [[[x i] c] d] [[[y j] e] f]. unfold value_index_comparator. rewrite !A. destruct O as (O1 & O2 & _).
    destruct (lt x y) eqn:XY, (lt y x) eqn:YX; cbn [orb andb negb]; try lia.
    exfalso. pose proof (O2 _ _ _ XY YX) as C. rewrite O1 in C. discriminate. }
  split; [exact I|]. split.
  - intros x y z XY YZ. destruct (value_index_comparator lt eq x z) eqn:XZ; [reflexivity|]. exfalso.
    pose proof (N x z y XZ (S _ _ YZ)) as C. congruence.
  - intros x y z A1 A2 A3 A4. split; [exact (N x y z A1 A3)|exact (N z y x A4 A2)].
Qed.

Lemma vic_iff T (lt eq : T -> T -> bool) : strict_weak_order lt -> (forall x, eq x x = true) ->
  (forall x y, eq x y = true -> lt x y = false /\ lt y x = false) ->
  (strict_weak_order (value_index_comparator lt eq) <-> eq_agrees lt eq).
Proof.
  intros O R C. split; [|apply vic_order; auto]. intros (_ & _ & W) x y.
  destruct (eq x y) eqn:E; [destruct (C x y E) as (-> & ->); reflexivity|].
  destruct (lt x y) eqn:XY; [reflexivity|]. destruct (lt y x) eqn:YX; [reflexivity|]. exfalso.
  destruct (W (x, 2, 0, 0) (y, 1, 0, 0) (x, 3, 0, 0)) as (_ & B).
  1-4: unfold value_index_comparator; rewrite ?XY, ?YX, ?E; cbn [orb andb]; rewrite ?andb_false_r; reflexivity.
  unfold value_index_comparator in B. rewrite R in B. cbn [andb] in B. destruct (lt x x); discriminate.
Qed.
