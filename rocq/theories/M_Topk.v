(** Model of topk_vector.hpp. The value type and its operators < and == are parameters (std::greater
    is < with its arguments exchanged). The vector type is any whose operator[] gives back the
    elements of the range it was built from; it is the list of those elements. std::push_heap and
    std::pop_heap are parameters too, as functions on the whole array. size_t has 64 bits. *)
From Verif Require Import Base M_BitVector M_RsBitVector M_Bp M_Cartesian.

(** topk_vector.hpp:184-185 *)
Record topk_vector (T : Type) := mk_tk { tk_v : list T; tk_tree : bp_vector }.
Arguments mk_tk {T} _ _.
Arguments tk_v {T} _.
Arguments tk_tree {T} _.

(** topk_vector.hpp:25-31 *)
Definition tk_build {T} (gr : growth) (uninit : Z) (lt : T -> T -> bool) (v : list T) : res (topk_vector T) :=
  do ct <- ct_build gr uninit (fun x y => lt y x) 0 v;
  Ok (mk_tk v ct).

(** topk_vector.hpp:22-23; [n] is uninitialised *)
Definition tk_default {T} (n : Z) : topk_vector T := mk_tk [] (ct_default n).

(** topk_vector.hpp:39-42 *)
Definition tk_size {T} (tk : topk_vector T) : Z := zlen (tk_v tk).

(** topk_vector.hpp:33-37 *)
Definition tk_get {T} (tk : topk_vector T) (idx : Z) : res T := rd (tk_v tk) idx.

(** topk_vector.hpp:107: value, index, begin and end of the interval *)
Definition queue_element (T : Type) : Type := T * Z * Z * Z.

(** topk_vector.hpp:109-120 *)
Definition value_index_comparator {T} (lt eq : T -> T -> bool) (a b : queue_element T) : bool :=
  let '(x, i, _, _) := a in let '(y, j, _, _) := b in
  lt x y || (eq x y && (j <? i)).

(** std::push_heap and std::pop_heap with a given comparator (topk_vector.hpp:59, 68, 74) *)
Record heap_ops (A : Type) := mk_heap { push_heap : list A -> list A; pop_heap : list A -> list A }.
Arguments push_heap {A} _ _.
Arguments pop_heap {A} _ _.

(** topk_vector.hpp:131-132, without the pointer to the vector; [None] is the value m_cur starts with *)
Record tk_enum (T : Type) := mk_te { te_q : list (queue_element T); te_cur : option (T * Z) }.
Arguments mk_te {T} _ _.
Arguments te_q {T} _.
Arguments te_cur {T} _.

(** topk_vector.hpp:47-49 *)
Definition te_new {T} : tk_enum T := mk_te [] None.

(** topk_vector.hpp:66-68 and 72-74: queue the interval [a, b] *)
Definition te_push {T} (cs : bool) (h : heap_ops (queue_element T)) (tk : topk_vector T) (q : list (queue_element T)) (a b : Z) : res (list (queue_element T)) :=
  do m <- ct_rmq cs (tk_tree tk) a b;
  do x <- rd (tk_v tk) m;
  Ok (push_heap h (q ++ [(x, m, a, b)])).

(** topk_vector.hpp:51-78. The back of an empty array cannot be read. *)
Definition te_next {T} (cs : bool) (h : heap_ops (queue_element T)) (tk : topk_vector T) (s : tk_enum T) : res (bool * tk_enum T) :=
  match te_q s with
  | [] => Ok (false, s)
  | _ =>
      let q := pop_heap h (te_q s) in
      match rev q with
      | [] => Ub OutOfBounds
      | (cur_mid_val, cur_mid, cur_a, cur_b) :: _ =>
          let q := removelast q in
          do q <- if cur_mid =? cur_a then Ok q else te_push cs h tk q cur_a (sub64 cur_mid 1);
          do q <- if cur_mid =? cur_b then Ok q else te_push cs h tk q (u64 (cur_mid + 1)) cur_b;
          Ok (true, mk_te q (Some (cur_mid_val, cur_mid)))
      end
  end.

(** topk_vector.hpp:122-127 *)
Definition te_clear {T} (s : tk_enum T) : tk_enum T := mk_te [] (te_cur s).

(** topk_vector.hpp:97-105 and 137-140 *)
Definition te_set {T} (cs : bool) (tk : topk_vector T) (s : tk_enum T) (a b : Z) : res (tk_enum T) :=
  assert! (a <=? b);
  let s := te_clear s in
  do m <- ct_rmq cs (tk_tree tk) a b;
  do x <- rd (tk_v tk) m;
  Ok (mk_te (te_q s ++ [(x, m, a, b)]) (te_cur s)).

(** topk_vector.hpp:156-160, [n] passes remaining; the entries in order *)
Fixpoint topk_loop {T} (cs : bool) (h : heap_ops (queue_element T)) (tk : topk_vector T) (n : nat) (s : tk_enum T) : res (list (option (T * Z)) * tk_enum T) :=
  match n with
  | O => Ok ([], s)
  | S n =>
      do (hasnext, s) <- te_next cs h tk s;
      assert! hasnext;
      do (ret, s') <- topk_loop cs h tk n s;
      Ok (te_cur s :: ret, s')
  end.

(** topk_vector.hpp:149-165, with the enumerator of 137-147. An entry is [None] if it is the initial m_cur. *)
Definition topk {T} (cs : bool) (h : heap_ops (queue_element T)) (tk : topk_vector T) (a b k : Z) : res (list (option (T * Z))) :=
  let size := Z.min (u64 (sub64 b a + 1)) k in
  do s <- te_set cs tk te_new a b;
  do (ret, s) <- topk_loop cs h tk (Z.to_nat size) s;
  if size =? k then Ok ret
  else
    do (hasnext, _) <- te_next cs h tk s;
    assert! (negb hasnext);
    Ok ret.

(** a caller of topk_vector.hpp:51-83: next() n times, each time value() or [None] if next() is false *)
Fixpoint te_run {T} (cs : bool) (h : heap_ops (queue_element T)) (tk : topk_vector T) (n : nat) (s : tk_enum T) : res (list (option (T * Z))) :=
  match n with
  | O => Ok []
  | S n =>
      do (hasnext, s) <- te_next cs h tk s;
      do r <- te_run cs h tk n s;
      Ok ((if hasnext then te_cur s else None) :: r)
  end.
