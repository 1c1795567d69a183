(** Property C86: a bp_vector built on the parentheses of an ordinal tree navigates the tree *)
From Verif Require Import Base Spec M_BitVector M_RsBitVector M_Bp S_Tree P_Tree.

(** C86: a node of depth d with s nodes below and including it spans 2 s parentheses from its opening, and the excess there is d *)
Theorem C86_node : forall f uninit h h0 t, zlen (encode t) < 2 ^ 31 ->
  exists bp, bp_build uninit (bv_range (encode t)) h h0 = Ok bp /\
  forall p s, subtree t p = Some s ->
    bv_get (rs_bv (bp_rs bp)) (opening t p) = Ok true /\
    find_close (loose_shift f) bp (opening t p) = Ok (opening t p + 2 * nodes s - 1) /\
    find_open (loose_shift f) bp (opening t p + 2 * nodes s - 1) = Ok (opening t p) /\
    excess bp (opening t p) = Ok (zlen p).
Proof. exact tree_node. Qed.
Print Assumptions C86_node.
(** a root with 40 children: number 20 has one child with two leaves, number 30 has 60 leaves, the others are leaves *)
Definition C86_tree : tree :=
  Node (repeat (Node []) 20 ++ [Node [Node [Node []; Node []]]] ++ repeat (Node []) 9 ++ [Node (repeat (Node []) 60)] ++ repeat (Node []) 9).
Example C86_node_ex : zlen (encode C86_tree) = 208 /\ subtree C86_tree [20; 0]%nat = Some (Node [Node []; Node []]) /\
  opening C86_tree [20; 0]%nat = 42 /\
  (do bp <- bp_build 0 (bv_range (encode C86_tree)) false false;
   do m <- find_close (loose_shift (fun _ _ => 5)) bp 42; do e <- excess bp 42; Ok (m, e)) = Ok (47, 2).
Proof. repeat split; vm_compute; reflexivity. Qed.

(** C86: enclose goes to the parent *)
Theorem C86_parent : forall f uninit h h0 t, zlen (encode t) < 2 ^ 31 ->
  exists bp, bp_build uninit (bv_range (encode t)) h h0 = Ok bp /\
  forall p i s, subtree t (p ++ [i]) = Some s -> enclose (loose_shift f) bp (opening t (p ++ [i])) = Ok (opening t p).
Proof. exact tree_parent. Qed.
Print Assumptions C86_parent.
Example C86_parent_ex : subtree C86_tree ([30] ++ [59])%nat = Some (Node []) /\ opening C86_tree [30]%nat = 67 /\
  opening C86_tree [30; 59]%nat = 186 /\
  (do bp <- bp_build 0 (bv_range (encode C86_tree)) false false; enclose (loose_shift (fun _ _ => 5)) bp 186) = Ok 67.
Proof. repeat split; vm_compute; reflexivity. Qed.

(** C86: the first child opens just after its parent, each further child just after its left sibling closes, and the bit there tells
    whether there is one *)
Theorem C86_children : forall f uninit h h0 t, zlen (encode t) < 2 ^ 31 ->
  exists bp, bp_build uninit (bv_range (encode t)) h h0 = Ok bp /\
  forall p cs, subtree t p = Some (Node cs) ->
    opening t (p ++ [O]) = opening t p + 1 /\
    (forall i, (i < length cs)%nat ->
       exists m, find_close (loose_shift f) bp (opening t (p ++ [i])) = Ok m /\ opening t (p ++ [S i]) = m + 1) /\
    (forall i, (i <= length cs)%nat -> bv_get (rs_bv (bp_rs bp)) (opening t (p ++ [i])) = Ok (Nat.ltb i (length cs))).
Proof. exact tree_children. Qed.
Print Assumptions C86_children.
Example C86_children_ex : subtree C86_tree [20; 0]%nat = Some (Node [Node []; Node []]) /\
  (do bp <- bp_build 0 (bv_range (encode C86_tree)) false false;
   do m <- find_close (loose_shift (fun _ _ => 5)) bp 43; do x <- bv_get (rs_bv (bp_rs bp)) 45; do y <- bv_get (rs_bv (bp_rs bp)) 47;
   Ok (m, x, y)) = Ok (44, true, false).
Proof. split; vm_compute; reflexivity. Qed.

(** C86: the lowest common ancestor: the left node if it contains the other, the parent of the leftmost minimum between both otherwise *)
Theorem C86_lca : forall f uninit h h0 t, zlen (encode t) < 2 ^ 31 ->
  exists bp, bp_build uninit (bv_range (encode t)) h h0 = Ok bp /\
  forall p q a b, subtree t p = Some a -> subtree t q = Some b -> opening t p <= opening t q ->
    exists m, find_close (loose_shift f) bp (opening t p) = Ok m /\
      if opening t q <=? m then common p q = p
      else exists r d, excess_rmq true bp (opening t p) (opening t q) = Ok (r, d) /\
             enclose (loose_shift f) bp r = Ok (opening t (common p q)).
Proof. exact tree_lca. Qed.
Print Assumptions C86_lca.
Example C86_lca_ex : opening C86_tree [20; 0; 1]%nat = 45 /\ opening C86_tree [30; 59]%nat = 186 /\ common [20; 0; 1]%nat [30; 59]%nat = [] /\
  (do bp <- bp_build 0 (bv_range (encode C86_tree)) false false;
   do (r, d) <- excess_rmq true bp 45 186; do w <- enclose (loose_shift (fun _ _ => 5)) bp r; Ok (r, d, w)) = Ok (49, 1, 0).
Proof. repeat split; vm_compute; reflexivity. Qed.

(** C86: rank numbers the nodes in preorder and select goes back *)
Theorem C86_preorder : forall uninit h h0 t, zlen (encode t) < 2 ^ 31 ->
  exists bp, bp_build uninit (bv_range (encode t)) h h0 = Ok bp /\
  num_ones (bp_rs bp) = Ok (nodes t) /\ zlen (preorder t) = nodes t /\
  (forall p s, subtree t p = Some s -> In p (preorder t)) /\
  forall k p, nth_error (preorder t) k = Some p -> (exists s, subtree t p = Some s) /\
    rs_select (bp_rs bp) (Z.of_nat k) = Ok (opening t p) /\ rs_rank (bp_rs bp) (opening t p) = Ok (Z.of_nat k).
Proof. exact tree_preorder. Qed.
Print Assumptions C86_preorder.
Example C86_preorder_ex : nth_error (preorder C86_tree) 94 = Some [30; 59]%nat /\
  (do bp <- bp_build 0 (bv_range (encode C86_tree)) true false;
   do x <- rs_select (bp_rs bp) 94; do y <- rs_rank (bp_rs bp) 186; Ok (x, y)) = Ok (186, 94).
Proof. split; vm_compute; reflexivity. Qed.
