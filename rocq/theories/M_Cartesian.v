(** Model of cartesian_tree.hpp. The element type and the comparator are parameters; a comparator
    is a pure function, copies of elements are the elements. *)
From Verif Require Import Base M_BitVector M_RsBitVector M_Bp.

(** cartesian_tree.hpp:79-80: m_stack, its back first, and m_bp *)
Record ct_builder (T : Type) := mk_cb { cb_stack : list T; cb_bp : builder }.
Arguments mk_cb {T} _ _.
Arguments cb_stack {T} _.
Arguments cb_bp {T} _.

(** cartesian_tree.hpp:42-47 *)
Definition cb_new {T} (gr : growth) (expected_size : Z) : res (ct_builder T) :=
  do b <- new_builder 0 false;
  Ok (mk_cb [] (if expected_size =? 0 then b else reserve gr b (u64 (2 * expected_size + 2)))).

(** cartesian_tree.hpp:54-58 *)
Fixpoint cb_pop {T} (gr : growth) (comp : T -> T -> bool) (val : T) (stack : list T) (b : builder) : res (list T * builder) :=
  match stack with
  | [] => Ok ([], b)
  | back :: rest =>
      if comp val back then do b <- push_back gr b true; cb_pop gr comp val rest b
      else Ok (stack, b)
  end.

(** cartesian_tree.hpp:49-61 *)
Definition cb_push {T} (gr : growth) (comp : T -> T -> bool) (c : ct_builder T) (val : T) : res (ct_builder T) :=
  do b <- push_back gr (cb_bp c) false;
  do (stack, b) <- cb_pop gr comp val (cb_stack c) b;
  Ok (mk_cb (val :: stack) b).

(** cartesian_tree.hpp:67-70 *)
Fixpoint cb_flush {T} (gr : growth) (stack : list T) (b : builder) : res builder :=
  match stack with
  | [] => Ok b
  | _ :: rest => do b <- push_back gr b true; cb_flush gr rest b
  end.

(** cartesian_tree.hpp:63-75 *)
Definition cb_finalize {T} (gr : growth) (c : ct_builder T) : res builder :=
  do b <- push_back gr (cb_bp c) false;
  do b <- cb_flush gr (cb_stack c) b;
  do b <- push_back gr b true;
  reverse b.

(** cartesian_tree.hpp:85-89; the tree is its m_bp (line 179), which get_bp() returns (139-142) *)
Definition ct_of_builder {T} (gr : growth) (uninit : Z) (c : ct_builder T) : res bp_vector :=
  do b <- cb_finalize gr c;
  do bv <- bv_of_builder b;
  bp_build uninit bv false true.

(** cartesian_tree.hpp:172-174 *)
Fixpoint cb_pushes {T} (gr : growth) (comp : T -> T -> bool) (c : ct_builder T) (v : list T) : res (ct_builder T) :=
  match v with
  | [] => Ok c
  | x :: v => do c <- cb_push gr comp c x; cb_pushes gr comp c v
  end.

(** cartesian_tree.hpp:163-176; with [expected_size] = 0 the constructors from a range (91-101), otherwise the calls of a caller of the builder *)
Definition ct_build {T} (gr : growth) (uninit : Z) (comp : T -> T -> bool) (expected_size : Z) (v : list T) : res bp_vector :=
  do c <- cb_new gr expected_size;
  do c <- cb_pushes gr comp c v;
  ct_of_builder gr uninit c.

(** cartesian_tree.hpp:144-147 *)
Definition ct_size (bp : bp_vector) : Z := sub64 (bp_size bp / 2) 1.

(** cartesian_tree.hpp:83; [n] is the uninitialised m_internal_nodes of the bp_vector *)
Definition ct_default (n : Z) : bp_vector := bp_default n.

(** cartesian_tree.hpp:106-137. [cs] says whether plain char is signed *)
Definition ct_rmq (cs : bool) (bp : bp_vector) (a b : Z) : res Z :=
  assert! (a <=? b);
  if a =? b then Ok a
  else
    let n := ct_size bp in
    let k := sub64 (sub64 n b) 1 in
    do t <- rs_select0 (bp_rs bp) k;
    let exc_t := i32 (sub64 t (u64 (2 * k))) in
    do e <- int32 (exc_t - 1);
    do e' <- excess bp (t + 1);
    assert! (e =? e');
    do x <- rs_select0 (bp_rs bp) (sub64 n b);
    do y <- rs_select0 (bp_rs bp) (sub64 n a);
    do (w, exc_w) <- excess_rmq cs bp x y;
    let rank0_w := sub64 w (u64 exc_w) / 2 in
    do bit <- bv_get (rs_bv (bp_rs bp)) (sub64 w 1);
    assert! (negb bit);
    let ret := if e <=? exc_w then b else sub64 n rank0_w in
    assert! (a <=? ret);
    assert! (ret <=? b);
    Ok ret.
