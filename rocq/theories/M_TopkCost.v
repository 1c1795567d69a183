(** Model of topk_vector.hpp with a count of the queries made to the cartesian tree. *)
From Verif Require Import Base M_BitVector M_RsBitVector M_Bp M_Cartesian M_Topk.

(** topk_vector.hpp:66-68 and 72-74 *)
Definition te_push_n {T} (cs : bool) (h : heap_ops (queue_element T)) (tk : topk_vector T) (q : list (queue_element T)) (a b : Z) : res (list (queue_element T) * Z) :=
  do m <- ct_rmq cs (tk_tree tk) a b;
  do x <- rd (tk_v tk) m;
  Ok (push_heap h (q ++ [(x, m, a, b)]), 1).

(** topk_vector.hpp:51-78 *)
Definition te_next_n {T} (cs : bool) (h : heap_ops (queue_element T)) (tk : topk_vector T) (s : tk_enum T) : res (bool * tk_enum T * Z) :=
  match te_q s with
  | [] => Ok (false, s, 0)
  | _ =>
      let q := pop_heap h (te_q s) in
      match rev q with
      | [] => Ub OutOfBounds
      | (cur_mid_val, cur_mid, cur_a, cur_b) :: _ =>
          let q := removelast q in
          do (q, c) <- if cur_mid =? cur_a then Ok (q, 0) else te_push_n cs h tk q cur_a (sub64 cur_mid 1);
          do (q, c') <- if cur_mid =? cur_b then Ok (q, 0) else te_push_n cs h tk q (u64 (cur_mid + 1)) cur_b;
          Ok (true, mk_te q (Some (cur_mid_val, cur_mid)), c + c')
      end
  end.

(** a caller of topk_vector.hpp:51-78: next() n times; the enumerator and the queries *)
Fixpoint te_calls_n {T} (cs : bool) (h : heap_ops (queue_element T)) (tk : topk_vector T) (n : nat) (s : tk_enum T) : res (tk_enum T * Z) :=
  match n with
  | O => Ok (s, 0)
  | S n =>
      do (_, s, c) <- te_next_n cs h tk s;
      do (s, c') <- te_calls_n cs h tk n s;
      Ok (s, c + c')
  end.

(** topk_vector.hpp:97-105 and 137-140: one query *)
Definition te_set_n {T} (cs : bool) (tk : topk_vector T) (s : tk_enum T) (a b : Z) : res (tk_enum T * Z) :=
  assert! (a <=? b);
  let s := te_clear s in
  do m <- ct_rmq cs (tk_tree tk) a b;
  do x <- rd (tk_v tk) m;
  Ok (mk_te (te_q s ++ [(x, m, a, b)]) (te_cur s), 1).

(** topk_vector.hpp:156-160, [n] passes remaining *)
Fixpoint topk_loop_n {T} (cs : bool) (h : heap_ops (queue_element T)) (tk : topk_vector T) (n : nat) (s : tk_enum T) : res (list (option (T * Z)) * tk_enum T * Z) :=
  match n with
  | O => Ok ([], s, 0)
  | S n =>
      do (hasnext, s, c) <- te_next_n cs h tk s;
      assert! hasnext;
      do (ret, s', c') <- topk_loop_n cs h tk n s;
      Ok (te_cur s :: ret, s', c + c')
  end.

(** topk_vector.hpp:149-165 *)
Definition topk_n {T} (cs : bool) (h : heap_ops (queue_element T)) (tk : topk_vector T) (a b k : Z) : res (list (option (T * Z)) * Z) :=
  let size := Z.min (u64 (sub64 b a + 1)) k in
  do (s, c) <- te_set_n cs tk te_new a b;
  do (ret, s, c') <- topk_loop_n cs h tk (Z.to_nat size) s;
  if size =? k then Ok (ret, c + c')
  else
    do (hasnext, _, c'') <- te_next_n cs h tk s;
    assert! (negb hasnext);
    Ok (ret, c + c' + c'').
