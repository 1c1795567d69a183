(** C70: calls on a builder after a bit_vector was built from it. *)
From Verif Require Import Base Spec M_BitVector S_BitVector M_Reuse S_Reuse P_Reuse2.

(** After any calls on the builder, operator[] and size() of the vector are what they were; only bits
    behind the end of the vector, in its last word, can have changed. *)
Theorem C70_visible_partial : forall gr os st i s ros s', legal_run seqs0 os -> run gr builders0 os = Ok st -> build_from (st i) = Ok s ->
  ru_legal (zlen (spec_run seqs0 os i)) ros -> ru_run gr s ros = Ok s' -> exists m,
  ru_v s' = mk_bv (zlen (spec_run seqs0 os i)) (pack (spec_run seqs0 os i ++ m)) /\
  zlen (pack (spec_run seqs0 os i ++ m)) = zlen (pack (spec_run seqs0 os i)) /\
  forall j b, nth_error (spec_run seqs0 os i) j = Some b -> bv_get (ru_v s') (Z.of_nat j) = Ok b.
Proof. exact reuse_visible. Qed.
Print Assumptions C70_visible_partial.
Definition C70_grow : growth := fun c n => 2 * c.
Definition C70_history : list op := [New 0 70 true; PushBack 0 false; OneExtend 1 3].
Example C70_visible_ex : legal_run seqs0 C70_history /\ zlen (spec_run seqs0 C70_history 0%nat) = 71 /\
  ru_legal 71 [RPushBack true; RReverse; RZeroExtend 5; RAppendBits 3 2] /\
  (do st <- run C70_grow builders0 C70_history; do s <- build_from (st 0%nat); do s <- ru_run C70_grow s [RPushBack true; RReverse; RZeroExtend 5; RAppendBits 3 2];
   do x <- bv_get (ru_v s) 70; Ok (bv_size (ru_v s), x)) = Ok (71, false).
Proof. split; [cbn [legal_run C70_history legal]; vm_compute; intuition congruence|]. split; [reflexivity|]. split; [|vm_compute; reflexivity].
  unfold ru_legal, arg_ok, added. lia. Qed.

(** The bits pushed next go into the vector, as long as its last word has room, and get_word shows them. *)
Theorem C70_push_refuted : forall gr os st i, legal_run seqs0 os -> run gr builders0 os = Ok st -> zlen (spec_run seqs0 os i) mod 64 <> 0 ->
  exists s, build_from (st i) = Ok s /\ ru_v s = canonical (spec_run seqs0 os i) /\
  forall xs, zlen (spec_run seqs0 os i) mod 64 + zlen xs <= 64 -> exists s', ru_run gr s (map RPushBack xs) = Ok s' /\
    ru_v s' = mk_bv (zlen (spec_run seqs0 os i)) (pack (spec_run seqs0 os i ++ xs)) /\
    (In true xs -> ru_v s' <> canonical (spec_run seqs0 os i) /\
       exists w w', get_word (ru_v s) (64 * (zlen (spec_run seqs0 os i) / 64)) = Ok w /\
         get_word (ru_v s') (64 * (zlen (spec_run seqs0 os i) / 64)) = Ok w' /\ w <> w').
Proof. exact reuse_push. Qed.
Print Assumptions C70_push_refuted.
Example C70_push_ex : legal_run seqs0 C70_history /\ zlen (spec_run seqs0 C70_history 0%nat) mod 64 = 7 /\ 7 + zlen [false; true] <= 64 /\
  (do st <- run C70_grow builders0 C70_history; do s <- build_from (st 0%nat); do s' <- ru_run C70_grow s [RPushBack false; RPushBack true];
   do w <- get_word (ru_v s) 64; do w' <- get_word (ru_v s') 64; Ok (w, w')) = Ok (63, 319).
Proof. split; [cbn [legal_run C70_history legal]; vm_compute; intuition congruence|]. vm_compute. intuition congruence. Qed.

(** The builder is not empty: it keeps its size, and whatever is pushed, no second vector can be built. *)
Theorem C70_again_refuted : forall gr os st i, legal_run seqs0 os -> run gr builders0 os = Ok st -> spec_run seqs0 os i <> [] ->
  exists s, build_from (st i) = Ok s /\ b_size (ru_b s) = zlen (spec_run seqs0 os i) /\
  forall xs, exists s', ru_run gr s (map RPushBack xs) = Ok s' /\ build_from (ru_b s') = Ub AssertFailed.
Proof. exact reuse_again. Qed.
Print Assumptions C70_again_refuted.
Example C70_again_ex : legal_run seqs0 C70_history /\ spec_run seqs0 C70_history 1%nat = [true; true; true] /\
  (do st <- run C70_grow builders0 C70_history; do s <- build_from (st 1%nat); do s' <- ru_run C70_grow s [RPushBack false];
   do _ <- build_from (ru_b s'); Ok (b_size (ru_b s))) = Ub AssertFailed.
Proof. split; [cbn [legal_run C70_history legal]; vm_compute; intuition congruence|]. vm_compute. auto. Qed.

(** Other calls reach outside the empty array of words. *)
Theorem C70_outside_refuted : forall gr os st i, legal_run seqs0 os -> run gr builders0 os = Ok st -> spec_run seqs0 os i <> [] ->
  exists s, build_from (st i) = Ok s /\
  (forall pos x, 0 <= pos < zlen (spec_run seqs0 os i) -> ru_run gr s [RSetBit pos x] = Ub OutOfBounds) /\
  (zlen (spec_run seqs0 os i) mod 64 <> 0 ->
     (forall bits len, 0 < len <= 64 - zlen (spec_run seqs0 os i) mod 64 -> 0 <= bits < 2 ^ len -> ru_run gr s [RAppendBits bits len] = Ub OutOfBounds) /\
     (forall j, j <> i -> spec_run seqs0 os j <> [] -> ru_run gr s [RAppend (st j)] = Ub OutOfBounds)).
Proof. exact reuse_outside. Qed.
Print Assumptions C70_outside_refuted.
Example C70_outside_ex : legal_run seqs0 C70_history /\ spec_run seqs0 C70_history 1%nat <> [] /\
  zlen (spec_run seqs0 C70_history 0%nat) mod 64 <> 0 /\
  (do st <- run C70_grow builders0 C70_history; do s <- build_from (st 0%nat); ru_run C70_grow s [RAppend (st 1%nat)]) = Ub OutOfBounds.
Proof. split; [cbn [legal_run C70_history legal]; vm_compute; intuition congruence|]. vm_compute. intuition congruence. Qed.

(** zero_extend makes it a builder of zeros only, as many as the old size and the argument together. *)
Theorem C70_zero_extend_refuted : forall gr os st i n, legal_run seqs0 os -> run gr builders0 os = Ok st -> spec_run seqs0 os i <> [] ->
  0 <= n -> zlen (spec_run seqs0 os i) + n + 63 < 2 ^ 64 -> exists s s',
  build_from (st i) = Ok s /\ ru_run gr s [RZeroExtend n] = Ok s' /\ ru_v s' = canonical (spec_run seqs0 os i) /\
  bv_of_builder (ru_b s') = Ok (canonical (repeat false (length (spec_run seqs0 os i) + Z.to_nat n))).
Proof. exact reuse_zero_extend. Qed.
Print Assumptions C70_zero_extend_refuted.
Example C70_zero_extend_ex : legal_run seqs0 C70_history /\ spec_run seqs0 C70_history 1%nat <> [] /\
  (do st <- run C70_grow builders0 C70_history; do s <- build_from (st 1%nat); do s' <- ru_run C70_grow s [RZeroExtend 2];
   bv_of_builder (ru_b s')) = Ok (canonical (repeat false 5)).
Proof. split; [cbn [legal_run C70_history legal]; vm_compute; intuition congruence|]. vm_compute. intuition congruence. Qed.

(** An empty builder is left as it was. *)
Theorem C70_empty_partial : forall gr os st i, legal_run seqs0 os -> run gr builders0 os = Ok st -> spec_run seqs0 os i = [] ->
  exists s, build_from (st i) = Ok s /\ ru_b s = st i /\ ru_v s = bv_empty.
Proof. exact reuse_empty. Qed.
Print Assumptions C70_empty_partial.

Example C70_ex : legal_run seqs0 C70_history /\ zlen (spec_run seqs0 C70_history 0%nat) mod 64 = 7 /\ spec_run seqs0 C70_history 1%nat <> [] /\
  spec_run seqs0 C70_history 2%nat = [] /\ ru_legal 71 [RPushBack true; RReverse; RZeroExtend 5; RAppendBits 3 2] /\
  (do st <- run C70_grow builders0 C70_history; do s <- build_from (st 0%nat); do s <- ru_run C70_grow s [RPushBack true; RReverse; RZeroExtend 5; RAppendBits 3 2];
   do w <- get_word (ru_v s) 64; do x <- bv_get (ru_v s) 70; Ok (w, x, b_size (ru_b s))) = Ok (191, false, 79).
Proof. split; [cbn [legal_run C70_history legal]; vm_compute; intuition congruence|]. split; [reflexivity|]. split; [discriminate|]. split; [reflexivity|]. split; [|reflexivity].
  unfold ru_legal, arg_ok, added. lia. Qed.
