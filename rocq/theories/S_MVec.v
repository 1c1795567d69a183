(** What mappable_vector operations mean on plain sequences. *)
From Verif Require Import Base Spec M_MVec.

(** contents of the living vectors and of the std::vectors *)
Record contents := mk_ct { ct_vecs : nat -> option (list Z); ct_std : nat -> list Z }.

Definition assigned {A} (f : nat -> A) (i : nat) (x : A) : nat -> A := fun j => if Nat.eqb j i then x else f j.

Definition range_value (s : contents) (r : range) : list Z :=
  match r with
  | RList xs => xs
  | RVec j => match ct_vecs s j with Some xs => xs | None => [] end
  | RIter j a b => match ct_vecs s j with Some xs => firstn (Z.to_nat (b - a)) (skipn (Z.to_nat a) xs) | None => [] end
  end.

Definition meaning (s : contents) (o : vop) : contents :=
  match o with
  | VNew i => mk_ct (assigned (ct_vecs s) i (Some [])) (ct_std s)
  | VFrom i r => mk_ct (assigned (ct_vecs s) i (Some (range_value s r))) (ct_std s)
  | VDestroy i => mk_ct (assigned (ct_vecs s) i None) (ct_std s)
  | VSwap i j => mk_ct (assigned (assigned (ct_vecs s) i (ct_vecs s j)) j (ct_vecs s i)) (ct_std s)
  | VClear i => mk_ct (assigned (ct_vecs s) i (Some [])) (ct_std s)
  | VSteal i k => mk_ct (assigned (ct_vecs s) i (Some (ct_std s k))) (assigned (ct_std s) k [])
  | VAssign i r => mk_ct (assigned (ct_vecs s) i (Some (range_value s r))) (ct_std s)
  | VMap i xs => mk_ct (assigned (ct_vecs s) i (Some xs)) (ct_std s)
  | SSet k xs => mk_ct (ct_vecs s) (assigned (ct_std s) k xs)
  end.

Definition alive (s : contents) (i : nat) : Prop := ct_vecs s i <> None.
Definition range_legal (s : contents) (r : range) : Prop :=
  match r with
  | RList _ => True
  | RVec j => alive s j
  | RIter j a b => exists xs, ct_vecs s j = Some xs /\ 0 <= a <= b /\ b <= zlen xs
  end.
Definition range_of (r : range) (i : nat) : Prop :=
  match r with
  | RList _ => False
  | RVec j | RIter j _ _ => j = i
  end.

(** a vector is constructed when it does not live, used when it does, and not assigned from itself *)
Definition allowed (s : contents) (o : vop) : Prop :=
  match o with
  | VNew i => ~ alive s i
  | VFrom i r => ~ alive s i /\ range_legal s r
  | VDestroy i | VClear i | VMap i _ | VSteal i _ => alive s i
  | VSwap i j => alive s i /\ alive s j
  | VAssign i r => alive s i /\ range_legal s r /\ ~ range_of r i
  | SSet _ _ => True
  end.

Fixpoint history (s : contents) (os : list vop) (s' : contents) : Prop :=
  match os with
  | [] => s' = s
  | o :: os => allowed s o /\ history (meaning s o) os s'
  end.

Definition nothing : contents := mk_ct (fun _ => None) (fun _ => []).

(** the vector shows the elements [xs] *)
Definition shows (h : heap) (v : vec) (xs : list Z) : Prop :=
  m_size v = zlen xs /\ forall i x, nth_error xs i = Some x -> vec_get h v (Z.of_nat i) = Ok x.

(** a buffer that has not been released *)
Definition unreleased (h : heap) (b : nat) : Prop := exists xs, nth_error h b = Some (Some xs).
Definition owns (v : vec) (b : nat) : Prop := m_deleter v = Some b.
