(** Calls on an enumerator with the rounds they take, and the words between positions *)
From Verif Require Import Base M_BitVector S_BitVector M_BvSteps.

(** the calls of S_BitVector, counted: result, new state, rounds *)
Definition ustep_c (ws : list Z) (e : unary_enum) (o : uop) : res (Z * unary_enum * Z) :=
  match o with
  | UNext => unary_next_c ws e
  | USkip k => do (e, c) <- unary_skip_c ws e k; Ok (u_pos e, e, c)
  | USkipNoMove k => do (p, c) <- unary_skip_no_move_c ws e k; Ok (p, e, c)
  | USkip0 k => do (e, c) <- unary_skip0_c ws e k; Ok (u_pos e, e, c)
  end.
Fixpoint urun_c (ws : list Z) (e : unary_enum) (os : list uop) : res (list Z * Z) :=
  match os with
  | [] => Ok ([], 0)
  | o :: os => do (r, e, c) <- ustep_c ws e o; do (rs, t) <- urun_c ws e os; Ok (r :: rs, c + t)
  end.
Definition urun_c_from (bv : bit_vector) (pos : Z) (os : list uop) : res (list Z * Z) :=
  do e <- unary_new (bv_words bv) pos; urun_c (bv_words bv) e os.

(** the words from the position before each call to its result; skip_no_move returns to where it was *)
Fixpoint travel (pos : Z) (os : list uop) (rs : list Z) : Z :=
  match os, rs with
  | USkipNoMove _ :: os, r :: rs => (r / 64 - pos / 64) + travel pos os rs
  | _ :: os, r :: rs => (r / 64 - pos / 64) + travel r os rs
  | _, _ => 0
  end.
Definition moving (o : uop) : Prop := match o with USkipNoMove _ => False | _ => True end.
