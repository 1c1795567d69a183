(** C91. *)
From Verif Require Import Base M_BitVector M_RsBitVector M_Bp M_Cartesian M_CtSteps P_CtSteps.

(** For every comparator, order or not. The first part says that counting changes nothing: in the
    second part [k] is the number of comparisons made by the code of C34 and [r] the number of
    rounds of the two loops that pop the stack. *)
Theorem C91_cost : forall T gr uninit (comp : T -> T -> bool) expected v,
  (do (ct, _, _) <- ct_build_c gr uninit comp expected v; Ok ct) = ct_build gr uninit comp expected v /\
  forall ct k r, ct_build_c gr uninit comp expected v = Ok (ct, k, r) ->
    r = zlen v /\ (2 <= zlen v -> zlen v - 1 <= k <= 2 * zlen v - 3) /\ (zlen v <= 1 -> k = 0).
Proof. exact @ct_cost. Qed.
Print Assumptions C91_cost.
(** both bounds are reached, and a comparator that is no order makes the code compare no more *)
Definition C91_cost_of (comp : Z -> Z -> bool) (v : list Z) : res (Z * Z) :=
  do (_, k, r) <- ct_build_c (fun c _ => 2 * c) 0 comp 0 v; Ok (k, r).
Example C91_ex :
  C91_cost_of Z.ltb [1; 6; 5; 4; 3; 2] = Ok (9, 6) /\ C91_cost_of Z.ltb [1; 2; 3; 4; 5; 6] = Ok (5, 6) /\
  C91_cost_of (fun a b => Z.odd (a + b)) [4; 1; 2; 3; 3; 8] = Ok (6, 6) /\ C91_cost_of Z.ltb [] = Ok (0, 0).
Proof. repeat split; vm_compute; reflexivity. Qed.
