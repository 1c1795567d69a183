(** Ordinal trees, stated without the model: a node is the list of its subtrees. *)
From Verif Require Import Base Spec.

Inductive tree := Node (children : list tree).

(** its balanced parentheses: one pair for each node, around those of its subtrees *)
Fixpoint encode (t : tree) : list bool :=
  match t with Node cs => true :: flat_map encode cs ++ [false] end.

(** number of nodes *)
Fixpoint nodes (t : tree) : Z :=
  match t with Node cs => 1 + fold_right Z.add 0 (map nodes cs) end.

(** a node is named by the path from the root: the number of the child to take, at each step *)
Notation path := (list nat).

(** the subtree below a node; [None] if there is no such node *)
Fixpoint subtree (t : tree) (p : path) : option tree :=
  match p with
  | [] => Some t
  | i :: p => match t with Node cs => match nth_error cs i with Some c => subtree c p | None => None end end
  end.

(** the position of the opening parenthesis of a node *)
Fixpoint opening (t : tree) (p : path) : Z :=
  match p with
  | [] => 0
  | i :: p => match t with Node cs =>
      1 + zlen (flat_map encode (firstn i cs)) + match nth_error cs i with Some c => opening c p | None => 0 end end
  end.

(** the nodes in preorder *)
Fixpoint preorder (t : tree) : list path :=
  match t with Node cs =>
    [] :: (fix below (i : nat) (cs : list tree) :=
             match cs with [] => [] | c :: cs => map (cons i) (preorder c) ++ below (S i) cs end) O cs
  end.

(** the lowest common ancestor: the steps shared by both paths *)
Fixpoint common (p q : path) : path :=
  match p, q with
  | i :: p, j :: q => if Nat.eqb i j then i :: common p q else []
  | _, _ => []
  end.
