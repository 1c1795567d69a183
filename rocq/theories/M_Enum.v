(** Model of forward_enumerator.hpp for a container [c] whose operator[] is [get]. *)
From Verif Require Import Base.

(** forward_enumerator.hpp:10-13; the state is m_idx, the container is an argument of [fe_next] *)
Definition fe_new (idx : Z) : Z := idx.

(** forward_enumerator.hpp:15-18 *)
Definition fe_next {C V} (get : C -> Z -> res V) (c : C) (m_idx : Z) : res (V * Z) :=
  do v <- get c m_idx;
  Ok (v, u64 (m_idx + 1)).

(** the values of [n] calls of next() (forward_enumerator.hpp:15-18) *)
Fixpoint fe_run {C V} (get : C -> Z -> res V) (c : C) (m_idx : Z) (n : nat) : res (list V) :=
  match n with
  | O => Ok []
  | S n =>
      do (v, m_idx) <- fe_next get c m_idx;
      do vs <- fe_run get c m_idx n;
      Ok (v :: vs)
  end.
