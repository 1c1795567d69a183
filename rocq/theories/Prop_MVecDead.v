(** C45: vectors that do not live *)
From Verif Require Import Base Spec M_MVec S_MVec S_MVecDead P_MVecDead.

(** C45: after any allowed calls, a call that uses a vector before its construction or after its destruction is undefined *)
Theorem C45_dead : forall os c o i, history nothing os c -> ct_vecs c i = None -> uses o i -> run start (os ++ [o]) = Ub Dangling.
Proof. exact dead_use. Qed.
Print Assumptions C45_dead.
Example C45_dead_ex : exists c, history nothing [VNew 1; VFrom 0 (RList [1; 2]); VDestroy 0] c /\ ct_vecs c 0%nat = None /\
  uses (VAssign 1 (RVec 0)) 0 /\ run start ([VNew 1; VFrom 0 (RList [1; 2]); VDestroy 0] ++ [VAssign 1 (RVec 0)]) = Ub Dangling.
Proof.
  eexists. split; [cbn [history]; repeat (split; [cbn; unfold alive; cbn; intuition discriminate|]); reflexivity|].
  split; [reflexivity|]. split; [cbn; auto|reflexivity].
Qed.
