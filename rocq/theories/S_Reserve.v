(** Which call histories of bit_vector_builder use m_cur_word after reserve has moved the words. *)
From Verif Require Import Base Spec M_BitVector S_BitVector.

(** A builder as its bits, the words it is sure to have room for, and whether its words have been
    moved since m_cur_word was set. *)
Record sbuilder := mk_sb { sq : list bool; s_cap : Z; s_moved : bool }.
Definition words (n : Z) : Z := (n + 63) / 64.

Definition keep (b : sbuilder) (l : list bool) : sbuilder := mk_sb l (s_cap b) (s_moved b).
(** calls that set m_cur_word *)
Definition reset (b : sbuilder) (l : list bool) : sbuilder := mk_sb l (Z.max (s_cap b) (words (zlen l))) false.

Definition cap_step (s : nat -> sbuilder) (o : op) : nat -> sbuilder :=
  let q := spec_step (fun i => sq (s i)) o in
  match o with
  | New i size init => put s i (mk_sb (q i) (words size) false)
  | Reserve i n => put s i (mk_sb (q i) (Z.max (s_cap (s i)) (words n)) (s_moved (s i) || (s_cap (s i) <? words n)))
  | PushBack i _ => put s i (reset (s i) (q i))
  | SetBit i _ _ | SetBits i _ _ _ | Reverse i => put s i (keep (s i) (q i))
  | AppendBits i _ len => put s i (if len =? 0 then s i else reset (s i) (q i))
  | ZeroExtend i n => put s i (if words (zlen (q i)) =? words (zlen (sq (s i))) then keep (s i) (q i) else reset (s i) (q i))
  | OneExtend i n => put s i (if n =? 0 then s i else reset (s i) (q i))
  | Append i j => put s i (if zlen (sq (s j)) =? 0 then s i else reset (s i) (q i))
  | Swap i j => put (put s i (s j)) j (s i)
  end.

(** the preconditions, with no restriction on reserve *)
Definition pre (s : nat -> list bool) (o : op) : Prop :=
  match o with
  | Reserve i n => 0 <= n /\ fits n
  | _ => legal s o
  end.

Fixpoint pre_run (s : nat -> list bool) (os : list op) : Prop :=
  match os with [] => True | o :: os => pre s o /\ pre_run (spec_step s o) os end.

(** The call writes through m_cur_word, and that points to words that were moved. *)
Definition moved_write (s : nat -> sbuilder) (o : op) : bool :=
  match o with
  | PushBack i _ => s_moved (s i) && negb (zlen (sq (s i)) mod 64 =? 0)
  | AppendBits i _ len => s_moved (s i) && negb (zlen (sq (s i)) mod 64 =? 0) && negb (len =? 0)
  | OneExtend i n => s_moved (s i) && negb (zlen (sq (s i)) mod 64 =? 0) && negb (n =? 0)
  | _ => false
  end.

Definition sbuilders0 : nat -> sbuilder := fun _ => mk_sb [] 0 false.
Fixpoint cap_run (s : nat -> sbuilder) (os : list op) : nat -> sbuilder :=
  match os with [] => s | o :: os => cap_run (cap_step s o) os end.
Fixpoint safe_run (s : nat -> sbuilder) (os : list op) : Prop :=
  match os with
  | [] => True
  | o :: os => pre (fun i => sq (s i)) o /\ moved_write s o = false /\ safe_run (cap_step s o) os
  end.

(** std::vector allocates no more than it needs *)
Definition tight (gr : growth) : Prop := forall c n, gr c n <= n.

(** two histories for the examples *)
Definition safe_calls : list op := [New 0 70 true; PushBack 0 false; Reserve 0 200; SetBit 0 3 false; Reserve 0 300; ZeroExtend 0 100; PushBack 0 true].
Definition unsafe_calls : list op := [New 0 70 true; PushBack 0 false; Reserve 0 200; SetBit 0 3 false; Reserve 0 300; ZeroExtend 0 50; PushBack 0 true].
