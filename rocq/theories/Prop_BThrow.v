(** C82: calls of bit_vector_builder that run out of memory. *)
From Verif Require Import Base Spec M_BitVector S_BitVector M_BThrow S_BThrow P_BThrow.

(** C82 for the constructor, reserve, push_back and the calls that allocate nothing. Every call of
    [los] meets its own limit on the words of a reallocation; [ts] tells which calls threw. The calls
    that threw have had no effect, and the builders stay usable. Missing: append_bits, zero_extend,
    one_extend and append, for which C82 is false (below). *)
Theorem C82_partial : forall gr los st ts, bxrun gr builders0 los = Ok (st, ts) ->
  bxlegal seqs0 (combine (map snd los) ts) ->
  let s := bxmeaning seqs0 (combine (map snd los) ts) in
  (forall i, bv_of_builder (st i) = Ok (canonical (s i))) /\
  (forall lim o, legal s o -> exists st' t, bxstep lim gr st o = Ok (st', t)).
Proof. exact throw_history. Qed.
Print Assumptions C82_partial.
Definition C82_gr : growth := fun cap n => 2 * cap.
Definition C82_calls : list (Z * op) :=
  [(2, New 0 63 true); (1, PushBack 0 false); (1, PushBack 0 true); (0, Reserve 0 1000); (2, PushBack 0 true);
   (1, New 0 65 false); (1, Append 1 0); (2, Append 1 0)].
Example C82_ex : (do (st, ts) <- bxrun C82_gr builders0 (firstn 6 C82_calls); Ok (bv_of_builder (st 0%nat), ts)) =
    Ok (Ok (mk_bv 65 [2 ^ 63 - 1; 1]), [false; false; true; true; false; true]) /\
  bxlegal seqs0 (combine (map snd (firstn 6 C82_calls)) [false; false; true; true; false; true]).
Proof.
  split; [vm_compute; reflexivity|]. cbn [firstn C82_calls map snd combine bxlegal].
  repeat split; try (intros; discriminate); first [cbn; lia | left; reflexivity | exact I].
Qed.

(** The same call by call, for any builders. *)
Theorem C82_keeps : forall lim gr s o s', keeps o -> bxstep lim gr s o = Ok (s', true) -> forall j, s' j = s j.
Proof. exact bxstep_keeps. Qed.
Print Assumptions C82_keeps.
Example C82_keeps_ex : keeps (PushBack 3 true) /\
  (do (_, t) <- bxstep 0 C82_gr builders0 (PushBack 3 true); Ok t) = Ok true.
Proof. split; [exact I|reflexivity]. Qed.

(** C82 is false: the other calls raise m_size first, so after the exception the builder no longer
    has the words its size asks for, and building a bit_vector from it fails the assert. *)
Theorem C82_refuted : forall gr los st ts lim o st', bxrun gr builders0 los = Ok (st, ts) ->
  bxlegal seqs0 (combine (map snd los) ts) ->
  let s := bxmeaning seqs0 (combine (map snd los) ts) in
  legal s o -> ~ keeps o -> bxstep lim gr st o = Ok (st', true) ->
  bv_of_builder (st' (target o)) = Ub AssertFailed /\ (forall j, j <> target o -> st' j = st j).
Proof. exact throw_torn. Qed.
Print Assumptions C82_refuted.
Example C82_refuted_ex :
  (do (st, _) <- bxrun C82_gr builders0 [(1, New 0 60 true)];
   do (st, t) <- bxstep 1 C82_gr st (AppendBits 0 21 5);
   Ok (t, b_size (st 0%nat), b_bits (st 0%nat), bv_of_builder (st 0%nat))) =
  Ok (true, 65, [6 * 2 ^ 60 - 1], Ub AssertFailed).
Proof. vm_compute. reflexivity. Qed.

(** They do throw whenever neither the capacity nor the limit has room for the result. *)
Theorem C82_throws : forall gr los st ts lim o, bxrun gr builders0 los = Ok (st, ts) ->
  bxlegal seqs0 (combine (map snd los) ts) ->
  let s := bxmeaning seqs0 (combine (map snd los) ts) in
  legal s o -> ~ keeps o ->
  64 * lim < zlen (s (target o)) + zlen (added s o) ->
  64 * b_cap (st (target o)) < zlen (s (target o)) + zlen (added s o) ->
  exists st', bxstep lim gr st o = Ok (st', true).
Proof. exact throw_must. Qed.
Print Assumptions C82_throws.
Example C82_throws_ex :
  (do (st, _) <- bxrun C82_gr builders0 [(1, New 0 60 true)];
   do (st, t) <- bxstep 2 C82_gr st (OneExtend 0 200);
   Ok (t, b_size (st 0%nat), b_bits (st 0%nat))) = Ok (true, 188, [2 ^ 64 - 1; 2 ^ 64 - 1]).
Proof. vm_compute. reflexivity. Qed.

(** zero_extend(0) mends such a builder: it holds its old bits, then some of those the call was to
    add, then zeros, up to the size the call was to reach (one_extend: at most that size). *)
Theorem C82_repair : forall gr los st ts lim o st', bxrun gr builders0 los = Ok (st, ts) ->
  bxlegal seqs0 (combine (map snd los) ts) ->
  let s := bxmeaning seqs0 (combine (map snd los) ts) in
  legal s o -> ~ keeps o -> bxstep lim gr st o = Ok (st', true) ->
  exists st'' m k, step gr st' (ZeroExtend (target o) 0) = Ok st'' /\
    (m + k <= length (added s o))%nat /\
    (match o with OneExtend _ _ => True | _ => (m + k = length (added s o))%nat end) /\
    bv_of_builder (st'' (target o)) =
      Ok (canonical (s (target o) ++ firstn m (added s o) ++ repeat false k)).
Proof. exact throw_repair. Qed.
Print Assumptions C82_repair.
Example C82_repair_ex :
  (do (st, _) <- bxrun C82_gr builders0 [(1, New 0 60 true)];
   do (st, _) <- bxstep 1 C82_gr st (AppendBits 0 21 5);
   do st <- step C82_gr st (ZeroExtend 0 0);
   Ok (bv_of_builder (st 0%nat))) = Ok (Ok (mk_bv 65 [6 * 2 ^ 60 - 1; 0])).
Proof. vm_compute. reflexivity. Qed.

(** A call that does not throw does what C01 says. *)
Theorem C82_fair : forall lim gr s o s', bxstep lim gr s o = Ok (s', false) -> step gr s o = Ok s'.
Proof. exact bxstep_fair. Qed.
Print Assumptions C82_fair.
Example C82_fair_ex : (do (st, ts) <- bxrun C82_gr builders0 C82_calls; Ok ts) =
    Ok [false; false; true; true; false; true; true; true].
Proof. vm_compute. reflexivity. Qed.
