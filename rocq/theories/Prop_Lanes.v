(** Property C11: the exact results of the lane comparisons *)
From Verif Require Import Base Spec M_Broadword P_Lanes.

(** C11: in a byte whose two top bits differ leq_step_8 compares the low seven bits the wrong way round; exactly when that disagrees
    with the comparison of signed bytes is told by those bits *)
Theorem C11_leq_exact_refuted : forall x y i, is_u64 x -> is_u64 y -> (i < 8)%nat -> (128 <= byte x i <-> byte y i < 128) ->
  byte (leq_step_8 x y) i = (if byte y i mod 128 <? byte x i mod 128 then 1 else 0) /\
  (byte (leq_step_8 x y) i <> (if i8 (byte x i) <=? i8 (byte y i) then 1 else 0) <->
   (128 <= byte x i <-> byte x i mod 128 <= byte y i mod 128)).
Proof. exact leq_exact. Qed.
Print Assumptions C11_leq_exact_refuted.
Example C11_leq_exact_refuted_ex : is_u64 0x8583 /\ is_u64 0x0307 /\ (128 <= byte 0x8583 0 <-> byte 0x0307 0 < 128) /\ (128 <= byte 0x8583 1 <-> byte 0x0307 1 < 128) /\
  byte (leq_step_8 0x8583 0x0307) 0 = 0 /\ byte (leq_step_8 0x8583 0x0307) 1 = 1 /\ i8 (byte 0x8583 0) = -125 /\ i8 (byte 0x8583 1) = -123.
Proof. repeat split; try lia; vm_compute; congruence. Qed.

(** C11: uleq_step_8 is wrong in a byte whose two top bits differ exactly when the low seven bits of x are at most those of y *)
Theorem C11_uleq_exact_refuted : forall x y i, is_u64 x -> is_u64 y -> (i < 8)%nat -> (128 <= byte x i <-> byte y i < 128) ->
  byte (uleq_step_8 x y) i = (if xorb (128 <=? byte x i) (byte y i mod 128 <? byte x i mod 128) then 1 else 0) /\
  (byte (uleq_step_8 x y) i <> (if byte x i <=? byte y i then 1 else 0) <-> byte x i mod 128 <= byte y i mod 128).
Proof. exact uleq_exact. Qed.
Print Assumptions C11_uleq_exact_refuted.
Example C11_uleq_exact_refuted_ex : is_u64 0x8583 /\ is_u64 0x0307 /\ (128 <= byte 0x8583 0 <-> byte 0x0307 0 < 128) /\ (128 <= byte 0x8583 1 <-> byte 0x0307 1 < 128) /\
  byte (uleq_step_8 0x8583 0x0307) 0 = 1 /\ byte (uleq_step_8 0x8583 0x0307) 1 = 0.
Proof. repeat split; try lia; vm_compute; congruence. Qed.

(** C11: uleq_step_9 is right for all words; the top bit belongs to no lane and disturbs none *)
Theorem C11_uleq_step_9_all : forall x y i, is_u64 x -> is_u64 y -> (i < 7)%nat ->
  lane 9 (uleq_step_9 x y) i = if lane 9 x i <=? lane 9 y i then 1 else 0.
Proof. exact uleq_step_9_all. Qed.
Print Assumptions C11_uleq_step_9_all.
Example C11_uleq_step_9_all_ex : is_u64 (2 ^ 63 + 256) /\ lane 9 (uleq_step_9 (2 ^ 63 + 256) 255) 0 = 0 /\ lane 9 (uleq_step_9 255 (2 ^ 63 + 256)) 0 = 1 /\
  lane 9 (uleq_step_9 (2 ^ 63 + 256) 255) 6 = 1.
Proof. repeat split; try lia; vm_compute; congruence. Qed.
