(** C81: queries and queue of topk_vector, where char is signed. *)
From Verif Require Import Base Spec M_BitVector M_RsBitVector M_Bp M_Cartesian M_Topk M_TopkCost S_Cartesian S_Topk P_Cartesian P_Topk P_TopkCost.

(** topk(a, b, k) asks the cartesian tree at most 2k + 1 times, and never more often than v[a..b] has
    elements. [h] is any implementation of std::push_heap and std::pop_heap that meets the standard. *)
Theorem C81_topk : forall T (lt eq : T -> T -> bool) gr uninit (v : list T) h, strict_weak_order lt -> eq_agrees lt eq ->
  push_heap_ok (value_index_comparator lt eq) (push_heap h) -> pop_heap_ok (value_index_comparator lt eq) (pop_heap h) ->
  2 * zlen v + 2 < 2 ^ 31 ->
  exists tk, tk_build gr uninit lt v = Ok tk /\
  forall a b k, (a <= b)%nat -> (b < length v)%nat -> 0 <= k -> exists r c, topk_n true h tk (Z.of_nat a) (Z.of_nat b) k = Ok (r, c) /\
    topk true h tk (Z.of_nat a) (Z.of_nat b) k = Ok r /\
    1 <= c /\ c <= 2 * k + 1 /\ c <= Z.of_nat b - Z.of_nat a + 1.
Proof. exact @topk_queries. Qed.
Print Assumptions C81_topk.
Definition C81_v : list Z := [4; 3; 7; 2; 9; 5; 8; 1].
Definition C81_heap := sorted_heap (value_index_comparator Z.ltb Z.eqb).
Example C81_topk_ex : strict_weak_order Z.ltb /\ eq_agrees Z.ltb Z.eqb /\
  push_heap_ok (value_index_comparator Z.ltb Z.eqb) (push_heap C81_heap) /\
  pop_heap_ok (value_index_comparator Z.ltb Z.eqb) (pop_heap C81_heap) /\ 2 * zlen C81_v + 2 < 2 ^ 31 /\
  (do tk <- tk_build (fun c _ => 2 * c) 0 Z.ltb C81_v;
   do r <- topk_n true C81_heap tk 0 7 2; do r' <- topk_n true C81_heap tk 2 4 9; Ok (r, r')) =
  Ok ([Some (9, 4); Some (8, 6)], 5, ([Some (9, 4); Some (7, 2); Some (2, 3)], 3)).
Proof.
  split; [exact ltb_order|]. split; [exact eqb_agrees|]. split; [apply z_heap|]. split; [apply z_heap|].
  split; [vm_compute; reflexivity|]. vm_compute. reflexivity.
Qed.

(** After n calls of next() on an enumerator set to [a, b] the queue has at most n + 1 entries, and no
    more than there are elements left; every query made put one entry into the queue. *)
Theorem C81_enumerator : forall T (lt eq : T -> T -> bool) gr uninit (v : list T) h, strict_weak_order lt -> eq_agrees lt eq ->
  push_heap_ok (value_index_comparator lt eq) (push_heap h) -> pop_heap_ok (value_index_comparator lt eq) (pop_heap h) ->
  2 * zlen v + 2 < 2 ^ 31 ->
  exists tk, tk_build gr uninit lt v = Ok tk /\
  forall a b s n, (a <= b)%nat -> (b < length v)%nat ->
    exists s1 s' c, te_set_n true tk s (Z.of_nat a) (Z.of_nat b) = Ok (s1, 1) /\ te_calls_n true h tk n s1 = Ok (s', c) /\
    zlen (te_q s') <= Z.of_nat n + 1 /\ zlen (te_q s') <= Z.max 0 (Z.of_nat b - Z.of_nat a + 1 - Z.of_nat n) /\
    1 + c = zlen (te_q s') + Z.min (Z.of_nat n) (Z.of_nat b - Z.of_nat a + 1).
Proof. exact @enum_queries. Qed.
Print Assumptions C81_enumerator.
Example C81_enumerator_ex :
  (do tk <- tk_build (fun c _ => 2 * c) 0 Z.ltb C81_v;
   do (s, c) <- te_set_n true tk te_new 0 7; do (s', c') <- te_calls_n true C81_heap tk 2 s; do (s'', c'') <- te_calls_n true C81_heap tk 9 s;
   Ok (zlen (te_q s'), c', zlen (te_q s''), c'')) = Ok (3, 4, 0, 7).
Proof. vm_compute. reflexivity. Qed.
