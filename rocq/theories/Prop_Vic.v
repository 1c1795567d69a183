(** C35: the comparator of the queue. *)
From Verif Require Import Base M_Topk S_Cartesian S_Topk P_Vic.

(** C35: what std::push_heap and std::pop_heap ask of their comparator. For a type with an order < and an equality == that
    implies it, value_index_comparator is a strict weak order exactly when == holds of all values neither of which is less. *)
Theorem C35_comparator : forall T (lt eq : T -> T -> bool), strict_weak_order lt -> (forall x, eq x x = true) ->
  (forall x y, eq x y = true -> lt x y = false /\ lt y x = false) ->
  (strict_weak_order (value_index_comparator lt eq) <-> eq_agrees lt eq).
Proof. exact vic_iff. Qed.
Print Assumptions C35_comparator.
(** values ordered by their tens only, but equal only if the same: 41, 47 and 41 again *)
Example C35_comparator_ex :
  let lt := fun x y => x / 10 <? y / 10 in let comp := value_index_comparator lt Z.eqb in
  (forall x, Z.eqb x x = true) /\ (forall x y, Z.eqb x y = true -> lt x y = false /\ lt y x = false) /\ ~ eq_agrees lt Z.eqb /\
  comp (41, 2, 0, 0) (47, 1, 0, 0) = false /\ comp (47, 1, 0, 0) (41, 2, 0, 0) = false /\
  comp (47, 1, 0, 0) (41, 3, 0, 0) = false /\ comp (41, 3, 0, 0) (47, 1, 0, 0) = false /\
  comp (41, 3, 0, 0) (41, 2, 0, 0) = true.
Proof.
  cbv zeta. split; [exact Z.eqb_refl|]. split; [intros x y H; apply Z.eqb_eq in H; subst; rewrite Z.ltb_irrefl; auto|].
  split; [intros H; specialize (H 41 47); discriminate|]. repeat split; reflexivity.
Qed.
