(** C35: topk_vector, where char is signed; and C43 for topk_vector. *)
From Verif Require Import Base Spec M_BitVector M_RsBitVector M_Bp M_Cartesian M_Topk S_Cartesian S_Topk P_Cartesian P_Topk.

(** [h] is any implementation of std::push_heap and std::pop_heap that meets the standard; [s] is
    any earlier state of a reused enumerator. *)
Theorem C35_topk : forall T (lt eq : T -> T -> bool) gr uninit (v : list T) h, strict_weak_order lt -> eq_agrees lt eq ->
  push_heap_ok (value_index_comparator lt eq) (push_heap h) -> pop_heap_ok (value_index_comparator lt eq) (pop_heap h) ->
  2 * zlen v + 2 < 2 ^ 31 ->
  exists tk, tk_build gr uninit lt v = Ok tk /\ tk_size tk = zlen v /\
  (forall i x, nth_error v i = Some x -> tk_get tk (Z.of_nat i) = Ok x) /\
  forall a b, (a <= b)%nat -> (b < length v)%nat -> exists r, ranking lt v a b r /\
    (forall k, 0 <= k -> topk true h tk (Z.of_nat a) (Z.of_nat b) k = Ok (map Some (firstn (Z.to_nat k) r))) /\
    (forall s, exists s', te_set true tk s (Z.of_nat a) (Z.of_nat b) = Ok s' /\
      forall n, te_run true h tk n s' = Ok (firstn n (map Some r ++ repeat None n))).
Proof. exact @topk_ok. Qed.
Print Assumptions C35_topk.
Definition C35_v : list Z := [4; 9; 2; 9; 7; 4; 9; 1].
Definition C35_heap := sorted_heap (value_index_comparator Z.ltb Z.eqb).
Example C35_ex : strict_weak_order Z.ltb /\ eq_agrees Z.ltb Z.eqb /\
  push_heap_ok (value_index_comparator Z.ltb Z.eqb) (push_heap C35_heap) /\
  pop_heap_ok (value_index_comparator Z.ltb Z.eqb) (pop_heap C35_heap) /\ 2 * zlen C35_v + 2 < 2 ^ 31 /\
  (do tk <- tk_build (fun c _ => 2 * c) 0 Z.ltb C35_v;
   do r <- topk true C35_heap tk 1 6 4; do r' <- topk true C35_heap tk 5 7 9; Ok (tk_size tk, r, r')) =
  Ok (8, [Some (9, 1); Some (9, 3); Some (9, 6); Some (7, 4)], [Some (9, 6); Some (4, 5); Some (1, 7)]).
Proof.
  split; [exact ltb_order|]. split; [exact eqb_agrees|]. split; [apply z_heap|]. split; [apply z_heap|].
  vm_compute. intuition congruence.
Qed.

(** there is one such order of the entries *)
Theorem C35_ranking_unique : forall T (lt : T -> T -> bool) v a b r r', strict_weak_order lt ->
  ranking lt v a b r -> ranking lt v a b r' -> r = r'.
Proof. exact @ranking_unique. Qed.
Print Assumptions C35_ranking_unique.
Example C35_ranking_ex : ranking Z.ltb C35_v 3 6 [(9, 3); (9, 6); (7, 4); (4, 5)].
Proof.
  split.
  - vm_compute. apply perm_skip. transitivity [(7, 4); (9, 6); (4, 5)]; [apply perm_swap|].
    apply perm_skip, perm_swap.
  - repeat constructor; vm_compute; intuition congruence.
Qed.

(** C43 for topk_vector; missing: the containers refuted elsewhere *)
Theorem C43_topk_partial : forall T n, tk_size (@tk_default T n) = 0.
Proof. exact @tk_default_size. Qed.
Print Assumptions C43_topk_partial.
Example C43_topk_ex : tk_size (@tk_default Z 5) = 0.
Proof. reflexivity. Qed.
