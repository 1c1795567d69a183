(** The builder of cartesian_tree.hpp with counters: [k] counts the calls of the comparator, [r] the rounds of its two loops. *)
From Verif Require Import Base M_BitVector M_RsBitVector M_Bp M_Cartesian.

(** cartesian_tree.hpp:54-58 *)
Fixpoint cb_pop_c {T} (gr : growth) (comp : T -> T -> bool) (val : T) (stack : list T) (b : builder) (k r : Z) : res (list T * builder * Z * Z) :=
  match stack with
  | [] => Ok ([], b, k, r)
  | back :: rest =>
      if comp val back then do b <- push_back gr b true; cb_pop_c gr comp val rest b (k + 1) (r + 1)
      else Ok (stack, b, k + 1, r)
  end.

(** cartesian_tree.hpp:49-61 *)
Definition cb_push_c {T} (gr : growth) (comp : T -> T -> bool) (c : ct_builder T) (val : T) (k r : Z) : res (ct_builder T * Z * Z) :=
  do b <- push_back gr (cb_bp c) false;
  do (stack, b, k, r) <- cb_pop_c gr comp val (cb_stack c) b k r;
  Ok (mk_cb (val :: stack) b, k, r).

(** cartesian_tree.hpp:67-70 *)
Fixpoint cb_flush_c {T} (gr : growth) (stack : list T) (b : builder) (r : Z) : res (builder * Z) :=
  match stack with
  | [] => Ok (b, r)
  | _ :: rest => do b <- push_back gr b true; cb_flush_c gr rest b (r + 1)
  end.

(** cartesian_tree.hpp:63-75 *)
Definition cb_finalize_c {T} (gr : growth) (c : ct_builder T) (r : Z) : res (builder * Z) :=
  do b <- push_back gr (cb_bp c) false;
  do (b, r) <- cb_flush_c gr (cb_stack c) b r;
  do b <- push_back gr b true;
  do b <- reverse b;
  Ok (b, r).

(** cartesian_tree.hpp:172-174 *)
Fixpoint cb_pushes_c {T} (gr : growth) (comp : T -> T -> bool) (c : ct_builder T) (v : list T) (k r : Z) : res (ct_builder T * Z * Z) :=
  match v with
  | [] => Ok (c, k, r)
  | x :: v => do (c, k, r) <- cb_push_c gr comp c x k r; cb_pushes_c gr comp c v k r
  end.

(** cartesian_tree.hpp:85-89 and 163-176; the reversal (bit_vector.hpp:147-165) and the bp_vector are as in M_Cartesian *)
Definition ct_build_c {T} (gr : growth) (uninit : Z) (comp : T -> T -> bool) (expected_size : Z) (v : list T) : res (bp_vector * Z * Z) :=
  do c <- cb_new gr expected_size;
  do (c, k, r) <- cb_pushes_c gr comp c v 0 0;
  do (b, r) <- cb_finalize_c gr c r;
  do bv <- bv_of_builder b;
  do bp <- bp_build uninit bv false true;
  Ok (bp, k, r).
