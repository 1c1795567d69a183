(** Property C27: exactly where int2nat and nat2int are inverse *)
From Verif Require Import Base M_Util P_Exact.

(** C27: the numbers that come back; the others are 2^64 - 1 and those of C27_high_refuted *)
Theorem C27_nat_int_iff_partial : forall n, 0 <= n < 2 ^ 64 -> ((exists x, nat2int n = Ok x /\ int2nat x = Ok n) <-> n < 2 ^ 63 - 1).
Proof. exact nat_int_iff. Qed.
Print Assumptions C27_nat_int_iff_partial.
Example C27_nat_int_iff_ex : nat2int (2 ^ 63 - 2) = Ok (2 ^ 62 - 1) /\ int2nat (2 ^ 62 - 1) = Ok (2 ^ 63 - 2) /\
  nat2int (2 ^ 63 - 1) = Ok (- 2 ^ 62) /\ int2nat (- 2 ^ 62) = Ub SignedOverflow.
Proof. vm_compute. auto. Qed.

(** C27: and the integers that do; what is missing is undefined by C27_overflow_refuted *)
Theorem C27_int_nat_iff_partial : forall x, - 2 ^ 63 <= x < 2 ^ 63 -> ((exists n, int2nat x = Ok n /\ nat2int n = Ok x) <-> - 2 ^ 62 < x < 2 ^ 62).
Proof. exact int_nat_iff. Qed.
Print Assumptions C27_int_nat_iff_partial.
Example C27_int_nat_iff_ex : int2nat (1 - 2 ^ 62) = Ok (2 ^ 63 - 3) /\ nat2int (2 ^ 63 - 3) = Ok (1 - 2 ^ 62).
Proof. vm_compute. auto. Qed.

(** C27: the upper half of the numbers is taken to the right integers, from which int2nat does not come back *)
Theorem C27_high_refuted : forall n, 2 ^ 63 - 1 <= n < 2 ^ 64 - 1 ->
  nat2int n = Ok (if n mod 2 =? 0 then n / 2 else - ((n + 1) / 2)) /\
  int2nat (if n mod 2 =? 0 then n / 2 else - ((n + 1) / 2)) = Ub SignedOverflow.
Proof. exact nat2int_high. Qed.
Print Assumptions C27_high_refuted.
Example C27_high_ex : 2 ^ 63 - 1 <= 2 ^ 64 - 2 < 2 ^ 64 - 1 /\ nat2int (2 ^ 64 - 2) = Ok (2 ^ 63 - 1) /\ int2nat (2 ^ 63 - 1) = Ub SignedOverflow.
Proof. repeat split; try lia; reflexivity. Qed.

(** C27: where int2nat is defined its values are these *)
Theorem C27_values : forall x n, int2nat x = Ok n -> - 2 ^ 63 <= x < 2 ^ 63 -> (0 <= x -> n = 2 * x) /\ (x < 0 -> n = - 2 * x - 1) /\ n < 2 ^ 63 - 1.
Proof. exact int2nat_image. Qed.
Print Assumptions C27_values.
Example C27_values_ex : int2nat (-3) = Ok 5 /\ int2nat 3 = Ok 6.
Proof. split; reflexivity. Qed.
