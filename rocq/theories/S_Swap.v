(** What swap must do. *)
Definition exchanges {A} (swap : A -> A -> A * A) : Prop := forall a b, swap a b = (b, a).
