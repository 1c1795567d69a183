(** C56: forward_enumerator. *)
From Verif Require Import Base Spec M_BitVector M_EliasFano M_Topk M_Enum S_EliasFano P_Enum.

Definition C56_grow : growth := fun c _ => 2 * c.

Theorem C56_enumerate :
  (forall gr ints, Forall (fun x => 0 <= x) ints -> sum ints < 2 ^ 64 - 1 -> zlen ints < 2 ^ 61 ->
    exists c, efl_build gr ints = Ok c /\
    forall i k, (i + k <= length ints)%nat -> fe_run efl_get c (fe_new (Z.of_nat i)) k = Ok (window ints i k)) /\
  (forall gr ints, Forall (fun x => 0 <= x < 2 ^ 64 - 1) ints -> zlen ints < 2 ^ 57 ->
    exists c, efc_build gr ints = Ok c /\
    forall i k, (i + k <= length ints)%nat -> fe_run efc_get c (fe_new (Z.of_nat i)) k = Ok (window ints i k)) /\
  (forall T (v : topk_vector T), zlen (tk_v v) < 2 ^ 64 ->
    forall i k, (i + k <= length (tk_v v))%nat -> fe_run tk_get v (fe_new (Z.of_nat i)) k = Ok (window (tk_v v) i k)).
Proof. exact fe_all. Qed.
Print Assumptions C56_enumerate.
Example C56_ex : exists c d, efl_build C56_grow [5; 0; 900; 3] = Ok c /\ efc_build C56_grow [5; 0; 900; 3] = Ok d /\
  sum [5; 0; 900; 3] = 908 /\ window [5; 0; 900; 3] 1 2 = [0; 900] /\
  fe_run efl_get c (fe_new 1) 2 = Ok [0; 900] /\ fe_run efc_get d (fe_new 1) 2 = Ok [0; 900].
Proof. eexists. eexists. split; [vm_compute; reflexivity|]. split; [vm_compute; reflexivity|]. vm_compute. auto. Qed.
