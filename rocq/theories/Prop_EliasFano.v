(** C17-C22, C49: elias_fano, elias_fano_list and elias_fano_compressed_list. *)
From Coq Require Import Sorted.
From Verif Require Import Base Spec M_BitVector S_BitVector M_EliasFano S_EliasFano P_EliasFano2.

Definition ef_grow : growth := fun c _ => 2 * c.
Definition ef_vals : list Z := [3; 3; 9; 9; 150; 151; 700; 999].
Example ef_vals_ok : ef_input 1000 9 ef_vals.
Proof. unfold ef_input, ef_vals. repeat split; try (intros; discriminate); repeat constructor; discriminate. Qed.

(** C17 *)
Theorem C17_select : forall gr n m vs index, ef_input n m vs -> exists ef,
  ef_make gr n m vs index = Ok ef /\ ef_size ef = n /\ ef_num_ones ef = zlen vs /\
  forall i v, nth_error vs i = Some v -> ef_select ef (Z.of_nat i) = Ok v.
Proof. exact ef_store. Qed.
Print Assumptions C17_select.
Example C17_ex : ef_input 1000 9 ef_vals /\ nth_error ef_vals 5 = Some 151 /\
  (do ef <- ef_make ef_grow 1000 9 ef_vals false; ef_select ef 5) = Ok 151.
Proof. split; [exact ef_vals_ok|]. vm_compute. auto. Qed.

(** C17, C18 for elias_fano(bit_vector_builder* ): [b] is any builder holding the bits [l] *)
Theorem C17_bits : forall gr b l index, bv_of_builder b = Ok (canonical l) -> zlen l < 2 ^ 61 ->
  exists ef, ef_of_bits gr b index = Ok ef /\ ef_size ef = zlen l /\
  ef_num_ones ef = Z.of_nat (count true l) /\
  (forall i q, is_select true l i q -> ef_select ef (Z.of_nat i) = Ok (Z.of_nat q)) /\
  (index = true ->
     (forall p, (p <= length l)%nat -> ef_rank ef (Z.of_nat p) = Ok (Z.of_nat (rank true l p))) /\
     (forall p x, nth_error l p = Some x -> ef_get ef (Z.of_nat p) = Ok x)).
Proof. exact ef_bits. Qed.
Print Assumptions C17_bits.
Definition C17_list : list bool := [false; true; true; false; false; true; false; false; false; true].
Example C17_bits_ex :
  (do b <- new_builder 0 false; do b <- fold_left (fun b x => do b <- b; push_back ef_grow b x) C17_list (Ok b);
   bv_of_builder b) = Ok (canonical C17_list) /\ is_select true C17_list 2 5 /\
  (do b <- new_builder 0 false; do b <- fold_left (fun b x => do b <- b; push_back ef_grow b x) C17_list (Ok b);
   do ef <- ef_of_bits ef_grow b true; do p <- ef_select ef 2; do r <- ef_rank ef 9; Ok (p, r)) = Ok (5, 3).
Proof. vm_compute. auto. Qed.

(** C18. When the value [n] itself was stored, [rank n] is left out (see C49). *)
Theorem C18_rank : forall gr n m vs, ef_input n m vs -> exists ef,
  ef_make gr n m vs true = Ok ef /\
  (forall pos, 0 <= pos <= n -> (pos = n -> ~ In n vs) ->
     ef_rank ef pos = Ok (zlen (filter (fun v => v <? pos) vs))) /\
  (forall pos, 0 <= pos < n -> exists b, ef_get ef pos = Ok b /\ (b = true <-> In pos vs)) /\
  (forall pos v, 0 <= pos < n -> (pos + 1 = n -> ~ In n vs) ->
     In v vs -> v <= pos -> (forall w, In w vs -> w <= pos -> w <= v) -> ef_predecessor1 ef pos = Ok v) /\
  (forall pos v, 0 <= pos <= n -> (pos = n -> ~ In n vs) ->
     In v vs -> pos <= v -> (forall w, In w vs -> pos <= w -> v <= w) -> ef_successor1 ef pos = Ok v).
Proof. exact ef_ranks. Qed.
Print Assumptions C18_rank.
Example C18_ex : ef_input 1000 9 ef_vals /\ ~ In 1000 ef_vals /\
  (do ef <- ef_make ef_grow 1000 9 ef_vals true;
   do r <- ef_rank ef 151; do g <- ef_get ef 151; do g' <- ef_get ef 152;
   do p <- ef_predecessor1 ef 699; do s <- ef_successor1 ef 10; Ok (r, g, g', p, s)) = Ok (5, true, false, 151, 150).
Proof.
  split; [exact ef_vals_ok|]. split; [cbn; intuition discriminate|]. vm_compute. auto.
Qed.

(** C19 *)
Theorem C19_delta : forall gr n m vs index, ef_input n m vs -> exists ef,
  ef_make gr n m vs index = Ok ef /\
  (forall v, nth_error vs 0 = Some v -> ef_delta ef 0 = Ok v) /\
  (forall i v w, nth_error vs i = Some v -> nth_error vs (i + 1) = Some w ->
     ef_delta ef (Z.of_nat i + 1) = Ok (w - v) /\ ef_select_range ef (Z.of_nat i) = Ok (v, w)).
Proof. exact ef_deltas. Qed.
Print Assumptions C19_delta.
Example C19_ex : ef_input 1000 9 ef_vals /\ nth_error ef_vals 5 = Some 151 /\ nth_error ef_vals 6 = Some 700 /\
  (do ef <- ef_make ef_grow 1000 9 ef_vals false;
   do d <- ef_delta ef 6; do r <- ef_select_range ef 5; Ok (d, r)) = Ok (549, (151, 700)).
Proof. split; [exact ef_vals_ok|]. vm_compute. auto. Qed.

(** C20 *)
Theorem C20_enumerator : forall gr n m vs index, ef_input n m vs -> exists ef,
  ef_make gr n m vs index = Ok ef /\
  forall i, (i < length vs)%nat -> exists e, se_new ef (Z.of_nat i) = Ok e /\
  forall k, (i + k <= length vs)%nat -> se_run ef e k = Ok (window vs i k).
Proof. exact ef_enum. Qed.
Print Assumptions C20_enumerator.
Example C20_ex : ef_input 1000 9 ef_vals /\
  (do ef <- ef_make ef_grow 1000 9 ef_vals false; do e <- se_new ef 2; se_run ef e 5) = Ok [9; 9; 150; 151; 700].
Proof. split; [exact ef_vals_ok|]. vm_compute. auto. Qed.

(** C21 *)
Theorem C21_list : forall gr ints, Forall (fun x => 0 <= x) ints -> sum ints < 2 ^ 64 - 1 ->
  zlen ints < 2 ^ 61 -> exists c,
  efl_build gr ints = Ok c /\ efl_size c = zlen ints /\ efl_sum c = sum ints /\
  forall i x, nth_error ints i = Some x -> efl_get c (Z.of_nat i) = Ok x.
Proof. exact efl_all. Qed.
Print Assumptions C21_list.
Example C21_ex : Forall (fun x => 0 <= x) [5; 0; 0; 900; 7] /\ sum [5; 0; 0; 900; 7] < 2 ^ 64 - 1 /\
  (do c <- efl_build ef_grow [5; 0; 0; 900; 7]; do x <- efl_get c 3; Ok (x, efl_size c, efl_sum c)) = Ok (900, 5, 912).
Proof. split; [repeat constructor; discriminate|]. vm_compute. auto. Qed.

(** C22 *)
Theorem C22_compressed_list : forall gr ints, Forall (fun x => 0 <= x < 2 ^ 64 - 1) ints ->
  zlen ints < 2 ^ 57 -> exists c,
  efc_build gr ints = Ok c /\ efc_size c = zlen ints /\
  forall i x, nth_error ints i = Some x -> efc_get c (Z.of_nat i) = Ok x.
Proof. exact efc_all. Qed.
Print Assumptions C22_compressed_list.
Definition C22_ints : list Z := [5; 0; 2 ^ 64 - 2; 900; 0].
Example C22_ex : Forall (fun x => 0 <= x < 2 ^ 64 - 1) C22_ints /\
  (do c <- efc_build ef_grow C22_ints; do x <- efc_get c 2; do y <- efc_get c 4; Ok (x, y, efc_size c)) =
  Ok (2 ^ 64 - 2, 0, 5).
Proof. split; [repeat constructor; discriminate|]. vm_compute. auto. Qed.

(** C49: rank(size()) when the value size() was pushed *)
Theorem C49_rank_at_size_refuted :
  ~ (forall gr n m vs ef, ef_input n m vs -> ef_make gr n m vs true = Ok ef ->
     ef_rank ef n = Ok (zlen (filter (fun v => v <? n) vs))).
Proof. exact rank_at_size_false. Qed.
Print Assumptions C49_rank_at_size_refuted.
Example C49_ex : ef_input 4 2 [1; 4] /\
  (do ef <- ef_make ef_grow 4 2 [1; 4] true; ef_rank ef 4) = Ok 2 /\
  zlen (filter (fun v => v <? 4) [1; 4]) = 1.
Proof. split; [|vm_compute; auto]. repeat split; try (intros; discriminate); repeat constructor; discriminate. Qed.
