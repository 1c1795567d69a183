(** What calls of mappable_vector that may throw mean on plain sequences. *)
From Verif Require Import Base Spec M_MVec M_Throw S_MVec.

(** the vectors that do not live ([None]), show elements ([Some (Some xs)]), or are left with a size but
    no elements ([Some None]); and the std::vectors *)
Record xcontents := mk_xc { xc_vecs : nat -> option (option (list Z)); xc_std : nat -> list Z }.
Definition xnothing : xcontents := mk_xc (fun _ => None) (fun _ => []).

(** the vectors that show elements *)
Definition intact (s : xcontents) : contents :=
  mk_ct (fun i => match xc_vecs s i with Some (Some xs) => Some xs | _ => None end) (xc_std s).

(** whether the call throws, when only new may throw *)
Definition throws (s : xcontents) (w : weather) (o : vop) : bool :=
  match o with
  | VFrom _ _ | VAssign _ _ => w_new w
  | VSteal _ k => w_new w && negb (zlen (xc_std s k) =? 0)
  | _ => false
  end.

(** a constructor that throws makes no vector; an assign that throws empties the vector; a steal that
    throws leaves it without elements *)
Definition xmeaning (s : xcontents) (w : weather) (o : vop) : xcontents :=
  let v := xc_vecs s in
  match o with
  | VNew i => mk_xc (assigned v i (Some (Some []))) (xc_std s)
  | VFrom i r => if w_new w then s else mk_xc (assigned v i (Some (Some (range_value (intact s) r)))) (xc_std s)
  | VDestroy i => mk_xc (assigned v i None) (xc_std s)
  | VSwap i j => mk_xc (assigned (assigned v i (v j)) j (v i)) (xc_std s)
  | VClear i => mk_xc (assigned v i (Some (Some []))) (xc_std s)
  | VSteal i k => if throws s w o then mk_xc (assigned v i (Some None)) (xc_std s)
                  else mk_xc (assigned v i (Some (Some (xc_std s k)))) (assigned (xc_std s) k [])
  | VAssign i r => mk_xc (assigned v i (Some (Some (if w_new w then [] else range_value (intact s) r)))) (xc_std s)
  | VMap i xs => mk_xc (assigned v i (Some (Some xs))) (xc_std s)
  | SSet k xs => mk_xc v (assigned (xc_std s) k xs)
  end.

Definition xalive (s : xcontents) (i : nat) : Prop := xc_vecs s i <> None.
(** as [allowed]; only vectors that show elements are read *)
Definition xallowed (s : xcontents) (o : vop) : Prop :=
  match o with
  | VNew i => ~ xalive s i
  | VFrom i r => ~ xalive s i /\ range_legal (intact s) r
  | VDestroy i | VClear i | VMap i _ | VSteal i _ => xalive s i
  | VSwap i j => xalive s i /\ xalive s j
  | VAssign i r => xalive s i /\ range_legal (intact s) r /\ ~ range_of r i
  | SSet _ _ => True
  end.

(** nothing but new throws *)
Definition only_new (w : weather) : Prop := w_deleter w = false /\ w_range w = None.

(** nothing throws *)
Definition fair : weather := mk_weather false false None.

(** the calls [os] are allowed, lead to [s'], and those in [ts] throw *)
Fixpoint xhistory (s : xcontents) (os : list (weather * vop)) (s' : xcontents) (ts : list bool) : Prop :=
  match os, ts with
  | [], [] => s' = s
  | (w, o) :: os, t :: ts => only_new w /\ xallowed s o /\ t = throws s w o /\ xhistory (xmeaning s w o) os s' ts
  | _, _ => False
  end.

(** a vector that claims elements and has none *)
Definition hollow (h : heap) (v : vec) : Prop :=
  0 < m_size v /\ forall n, 0 <= n < m_size v -> vec_get h v n = Ub OutOfBounds.

(** the call throws after it made a buffer *)
Definition throws_late (s : xcontents) (w : weather) (o : vop) : Prop :=
  w_new w = false /\
  match o with
  | VFrom _ r | VAssign _ r => w_deleter w = true \/ exists n, w_range w = Some n /\ n < zlen (range_value (intact s) r)
  | VSteal _ k => w_deleter w = true /\ xc_std s k <> []
  | _ => False
  end.
