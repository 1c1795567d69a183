(** C45, C53: buffers of mappable_vector. *)
From Verif Require Import Base Spec M_MVec S_MVec P_MVec.

(** C45 and C53. [history nothing os c]: the calls [os] are allowed and lead to the contents [c]. No
    call is undefined, so no buffer is released twice or read after its release; every living vector
    shows its contents; the buffers left are those of the living vectors, one owner each. *)
Theorem C45_history : forall os c, history nothing os c -> exists s, run start os = Ok s /\
  (forall i xs, ct_vecs c i = Some xs -> exists v, st_vecs s i = Some v /\ shows (st_heap s) v xs) /\
  (forall b, unreleased (st_heap s) b <-> exists i v, ct_vecs c i <> None /\ st_vecs s i = Some v /\ owns v b) /\
  (forall i j v w b, st_vecs s i = Some v -> st_vecs s j = Some w -> owns v b -> owns w b -> i = j).
Proof. exact history_ok. Qed.
Print Assumptions C45_history.
Definition C45_calls : list vop :=
  [VNew 0; SSet 7 [3; 1; 4]; VSteal 0 7; VFrom 1 (RVec 0); VAssign 0 (RIter 1 1 3); VSwap 0 1; VNew 2; VSteal 2 7;
   VMap 1 [9; 9]; VFrom 3 (RList [5]); VAssign 3 (RVec 1); VClear 0; VDestroy 2; VSwap 3 3].
Example C45_ex : (exists c, history nothing C45_calls c) /\
  (do s <- run start C45_calls; Ok (st_heap s, st_vecs s 0%nat, st_vecs s 1%nat, st_vecs s 2%nat, st_vecs s 3%nat)) =
  Ok ([None; None; None; None; Some [9; 9]], Some vec_default, Some (mk_vec (File [9; 9]) 2 None), None,
      Some (mk_vec (Heap 4) 2 (Some 4%nat))).
Proof.
  split; [|reflexivity]. eexists. unfold C45_calls. cbn [history]. repeat (split; [cbn; unfold alive; cbn; intuition (try discriminate; try lia)|]).
  all: try (eexists; split; [reflexivity|vm_compute; intuition congruence]). reflexivity.
Qed.

Theorem C45_all_released : forall os c, history nothing os c -> (forall i, ct_vecs c i = None) ->
  exists s, run start os = Ok s /\ forall b, ~ unreleased (st_heap s) b.
Proof. exact all_released. Qed.
Print Assumptions C45_all_released.
Example C45_all_released_ex : exists c, history nothing [VFrom 0 (RList [1; 2]); VFrom 1 (RVec 0); VDestroy 0; VDestroy 1] c /\
  forall i, ct_vecs c i = None.
Proof.
  eexists. split; [cbn [history]; repeat (split; [cbn; unfold alive; cbn; intuition discriminate|]); reflexivity|].
  intros [|[|i]]; reflexivity.
Qed.

(** C53 is false when a vector is assigned to itself: it is emptied; *)
Theorem C53_self_refuted : forall os c i xs, history nothing os c -> ct_vecs c i = Some xs ->
  exists s v, run start (os ++ [VAssign i (RVec i)]) = Ok s /\ st_vecs s i = Some v /\ m_size v = 0.
Proof. exact self_assign. Qed.
Print Assumptions C53_self_refuted.
Example C53_self_ex : exists c, history nothing [VFrom 0 (RList [1; 2])] c /\ ct_vecs c 0%nat = Some [1; 2].
Proof. eexists. split; [cbn [history]; repeat (split; [cbn; unfold alive; cbn; intuition discriminate|]); reflexivity|]. reflexivity. Qed.

(** and when a vector that owns its buffer is assigned part of itself, released memory is read. *)
Theorem C53_iterators_refuted : forall os c i xs a b v s, history nothing os c -> ct_vecs c i = Some xs -> 0 <= a < b -> b <= zlen xs ->
  run start os = Ok s -> st_vecs s i = Some v -> m_deleter v <> None ->
  run start (os ++ [VAssign i (RIter i a b)]) = Ub Dangling.
Proof. exact iter_assign. Qed.
Print Assumptions C53_iterators_refuted.
Example C53_iterators_ex : run start [VFrom 0 (RList [1; 2]); VAssign 0 (RIter 0 0 1)] = Ub Dangling.
Proof. reflexivity. Qed.
