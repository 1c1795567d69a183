(** Property theorems C103: structures holding the same contents give the same answers. *)
From Verif Require Import Base Spec M_BitVector S_BitVector M_RsBitVector M_Darray M_EliasFano M_Gamma M_Util S_EliasFano
  P_Agree.

(** C103: a sequence of bits held by a bit_vector (alone, with the rank/select directory or with the two
    darrays) and by an elias_fano built from the same builder *)
Theorem C103_bits : forall gr b l with_hints with_hints0,
  bv_of_builder b = Ok (canonical l) -> zlen l < 2 ^ 61 -> exists rs d1 d0 ef,
  rs_build (bv_range l) with_hints with_hints0 = Ok rs /\ darray_build false (canonical l) = Ok d1 /\
  darray_build true (canonical l) = Ok d0 /\ ef_of_bits gr b true = Ok ef /\
  (forall p x, nth_error l p = Some x -> bv_get (canonical l) (Z.of_nat p) = Ok x /\ ef_get ef (Z.of_nat p) = Ok x) /\
  (forall p, (p <= length l)%nat -> exists r, rs_rank rs (Z.of_nat p) = Ok r /\ ef_rank ef (Z.of_nat p) = Ok r) /\
  (forall i q, is_select true l i q -> rs_select rs (Z.of_nat i) = Ok (Z.of_nat q) /\
     darray1_select d1 (canonical l) (Z.of_nat i) = Ok (Z.of_nat q) /\ ef_select ef (Z.of_nat i) = Ok (Z.of_nat q)) /\
  (forall i q, is_select false l i q -> rs_select0 rs (Z.of_nat i) = Ok (Z.of_nat q) /\
     darray0_select d0 (canonical l) (Z.of_nat i) = Ok (Z.of_nat q)) /\
  (forall p q, (q <= p < length l)%nat -> nth_error l q = Some true ->
     (forall k, (q < k <= p)%nat -> nth_error l k = Some false) ->
     predecessor1 (canonical l) (Z.of_nat p) = Ok (Z.of_nat q) /\ ef_predecessor1 ef (Z.of_nat p) = Ok (Z.of_nat q) /\
     (do r <- rs_rank rs (Z.of_nat p + 1); rs_select rs (r - 1)) = Ok (Z.of_nat q) /\
     (do r <- rs_rank rs (Z.of_nat p + 1); darray1_select d1 (canonical l) (r - 1)) = Ok (Z.of_nat q)) /\
  (forall p q, (p <= q)%nat -> nth_error l q = Some true ->
     (forall k, (p <= k < q)%nat -> nth_error l k = Some false) ->
     successor1 (canonical l) (Z.of_nat p) = Ok (Z.of_nat q) /\ ef_successor1 ef (Z.of_nat p) = Ok (Z.of_nat q) /\
     (do r <- rs_rank rs (Z.of_nat p); rs_select rs r) = Ok (Z.of_nat q) /\
     (do r <- rs_rank rs (Z.of_nat p); darray1_select d1 (canonical l) r) = Ok (Z.of_nat q)).
Proof. exact agree_bits. Qed.
Print Assumptions C103_bits.
(** a growth policy of the vectors: exactly what is asked for *)
Definition C103_grow (cap n : Z) : Z := n.
Definition C103_list : list bool := [false; true; true; false; false; true; false; false; false; true].
Definition C103_builder : res builder :=
  do b <- new_builder 0 false; fold_left (fun b x => do b <- b; push_back C103_grow b x) C103_list (Ok b).
Example C103_bits_ex : exists b, C103_builder = Ok b /\ bv_of_builder b = Ok (canonical C103_list) /\
  zlen C103_list < 2 ^ 61 /\ is_select true C103_list 2 5 /\ is_select false C103_list 1 3 /\
  nth_error C103_list 5 = Some true /\ (forall k, (5 < k <= 8)%nat -> nth_error C103_list k = Some false) /\
  nth_error C103_list 9 = Some true /\ (forall k, (6 <= k < 9)%nat -> nth_error C103_list k = Some false) /\
  (do ef <- ef_of_bits C103_grow b true; do p <- ef_predecessor1 ef 8; do q <- ef_successor1 ef 6; Ok (p, q)) = Ok (5, 9).
Proof.
  destruct C103_builder as [b|u] eqn:E; vm_compute in E; [|discriminate]. exists b. split; [reflexivity|].
  injection E as <-. split; [reflexivity|]. split; [reflexivity|]. split; [split; reflexivity|].
  split; [split; reflexivity|]. split; [reflexivity|]. split.
  { intros k Hk. assert (C : (k = 6 \/ k = 7 \/ k = 8)%nat) by lia. destruct C as [-> | [-> | ->]]; reflexivity. }
  split; [reflexivity|]. split; [|vm_compute; reflexivity].
  intros k Hk. assert (C : (k = 6 \/ k = 7 \/ k = 8)%nat) by lia. destruct C as [-> | [-> | ->]]; reflexivity.
Qed.

(** C103: a sequence of integers held by the four compressed lists and, if they are nibbles, by a
    nibble_vector *)
Theorem C103_ints : forall gr ints,
  Forall (fun x => 0 <= x < 2 ^ 64 - 2) ints -> sum ints < 2 ^ 64 - 1 -> zlen ints < 2 ^ 57 ->
  exists l c v b, efl_build gr ints = Ok l /\ efc_build gr ints = Ok c /\ gv_build gr ints = Ok v /\
  gb_build gr ints = Ok b /\
  efl_size l = zlen ints /\ efc_size c = zlen ints /\ gamma_size v = zlen ints /\ gamma_size b = zlen ints /\
  (forall i x, nth_error ints i = Some x -> efl_get l (Z.of_nat i) = Ok x /\ efc_get c (Z.of_nat i) = Ok x /\
     gv_get v (Z.of_nat i) = Ok x /\ gb_get b (Z.of_nat i) = Ok x) /\
  (Forall (fun x => x < 16) ints -> exists n, nv_build ints = Ok n /\ nv_size n = zlen ints /\
     forall i x, nth_error ints i = Some x -> nv_get n (Z.of_nat i) = Ok x).
Proof. exact agree_ints. Qed.
Print Assumptions C103_ints.
Definition C103_nums : list Z := [5; 0; 15; 7; 0].
Example C103_ints_ex : Forall (fun x => 0 <= x < 2 ^ 64 - 2) C103_nums /\ Forall (fun x => x < 16) C103_nums /\
  sum C103_nums < 2 ^ 64 - 1 /\ zlen C103_nums < 2 ^ 57 /\ nth_error C103_nums 2 = Some 15 /\
  (do l <- efl_build C103_grow C103_nums; efl_get l 2) = Ok 15 /\
  (do c <- efc_build C103_grow C103_nums; efc_get c 2) = Ok 15 /\
  (do v <- gv_build C103_grow C103_nums; gv_get v 2) = Ok 15 /\
  (do b <- gb_build C103_grow C103_nums; gb_get b 2) = Ok 15 /\
  (do n <- nv_build C103_nums; nv_get n 2) = Ok 15.
Proof.
  split; [repeat constructor; discriminate|]. split; [repeat constructor|]. split; [reflexivity|].
  split; [reflexivity|]. split; [reflexivity|]. vm_compute. auto.
Qed.
