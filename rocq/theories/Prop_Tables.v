(** C08: the table of tables.hpp *)
From Verif Require Import Base Spec M_Tables P_Tables.

(** C08: entry 256 * r + d is the place of one number r of byte d, and 8 when the byte has no such one; there are no further entries *)
Theorem C08_table : length select_in_byte = 2048%nat /\ forall d r, 0 <= d < 256 -> 0 <= r < 8 ->
  exists t, nth_error select_in_byte (Z.to_nat (256 * r + d)) = Some t /\
  (forall q, is_select true (bits_of 8 d) (Z.to_nat r) q -> t = Z.of_nat q) /\
  (Z.of_nat (count true (bits_of 8 d)) <= r -> t = 8).
Proof. exact table_whole. Qed.
Print Assumptions C08_table.
Example C08_table_ex : is_select true (bits_of 8 0x68) 2 6 /\ nth_error select_in_byte (Z.to_nat (256 * 2 + 0x68)) = Some 6 /\
  count true (bits_of 8 0x68) = 3%nat /\ nth_error select_in_byte (Z.to_nat (256 * 3 + 0x68)) = Some 8.
Proof. split; [split; reflexivity|]. repeat split. Qed.
