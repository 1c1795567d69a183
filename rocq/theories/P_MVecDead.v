(** Proofs for C45: vectors that do not live *)
From Verif Require Import Base Spec Lib M_MVec S_MVec S_MVecDead P_MVec.

Lemma run_snoc o : forall os s, run s (os ++ [o]) = do s <- run s os; step s o.
Proof.
  induction os as [|o' os IH]; intros s; cbn [app run].
  - cbn [bind]. destruct (step s _); reflexivity.
  - destruct (step s o'); cbn [bind]; auto.
Qed.
Lemma dead_use os c o i : history nothing os c -> ct_vecs c i = None -> uses o i -> run start (os ++ [o]) = Ub Dangling.
Proof.
  intros L C U. destruct (run_ok _ _ _ _ start_inv L) as (s & E & H). rewrite run_snoc, E. cbn [bind].
  assert (N : st_vecs s i = None) by (apply (inv_dead s c); [auto|unfold alive; congruence]).
  destruct s as [h vs sv]. cbn [st_vecs] in N. destruct o as [j|j r|j|j k|j|j k|j r|j xs|k xs]; cbn [uses] in U; try contradiction; try (subst j); cbn [step].
  - destruct r as [xs|k|k a b]; cbn [range_of] in U; [contradiction| |]; subst k; cbn [pass elements bind]; rewrite N; reflexivity.
  - rewrite N. reflexivity.
  - destruct U as [-> | ->]; [rewrite N; reflexivity|]. destruct (vs j); cbn [the bind]; [rewrite N|]; reflexivity.
  - rewrite N. reflexivity.
  - rewrite N. reflexivity.
  - destruct (Nat.eq_dec j i) as [-> | Ne].
    + destruct r as [xs|k|k a b]; cbn [pass bind]; [rewrite N; reflexivity..|]. destruct (vs k); cbn [the bind]; [rewrite N|]; reflexivity.
    + destruct U as [U|U]; [contradiction|]. destruct r as [xs|k|k a b]; cbn [range_of] in U; [contradiction| |]; subst k; cbn [pass bind].
      * destruct (vs j) as [v|] eqn:V; cbn [the bind]; [|reflexivity]. destruct (clear_ok _ _ _ _ _ _ H V) as (h' & -> & _). cbn [bind elements].
        change @set with @assigned. rewrite assigned_other by auto. rewrite N. reflexivity.
      * rewrite N. reflexivity.
  - rewrite N. reflexivity.
Qed.
