(** C80: calls of mappable_vector that throw. *)
From Verif Require Import Base Spec M_MVec M_Throw S_MVec S_Throw P_Throw.

(** C80 when nothing but new throws. [xhistory xnothing os c ts]: the calls [os] are allowed, those in
    [ts] throw, and [c] is what they lead to; a steal that throws leaves [Some None], which the next
    clear, assign, map or steal repairs. No buffer is lost. Missing: the ways below in which C80 is false. *)
Theorem C80_history_partial : forall os c ts, xhistory xnothing os c ts -> exists s, xrun start os = Ok (s, ts) /\
  (forall i xs, xc_vecs c i = Some (Some xs) -> exists v, st_vecs s i = Some v /\ shows (st_heap s) v xs) /\
  (forall i, xc_vecs c i = Some None -> exists v, st_vecs s i = Some v /\ hollow (st_heap s) v) /\
  (forall i, xc_vecs c i = None -> st_vecs s i = None) /\
  (forall b, unreleased (st_heap s) b <-> exists i v, st_vecs s i = Some v /\ owns v b) /\
  (forall i j v w b, st_vecs s i = Some v -> st_vecs s j = Some w -> owns v b -> owns w b -> i = j) /\
  (forall k, st_std s k = xc_std c k).
Proof. exact xhistory_ok. Qed.
Print Assumptions C80_history_partial.
Definition C80_bad : weather := mk_weather true false None.
Definition C80_calls : list (weather * vop) :=
  [(fair, VFrom 0 (RList [3; 1; 4])); (C80_bad, VFrom 1 (RVec 0)); (fair, VNew 1); (fair, SSet 7 [5; 6]); (C80_bad, VSteal 1 7);
   (fair, VSwap 0 1); (C80_bad, VAssign 1 (RList [9])); (fair, VSteal 0 7)].
Example C80_history_ex : (exists c, xhistory xnothing C80_calls c [false; true; false; false; true; false; true; false]) /\
  (do (s, ts) <- xrun start C80_calls; Ok (st_heap s, st_vecs s 0%nat, st_vecs s 1%nat, ts)) =
  Ok ([None; Some [5; 6]], Some (mk_vec (Heap 1) 2 (Some 1%nat)), Some vec_default, [false; true; false; false; true; false; true; false]).
Proof.
  split; [|reflexivity]. eexists. unfold C80_calls. cbn [xhistory].
  repeat (split; [split; reflexivity|split; [cbn; unfold xalive, alive; cbn; intuition discriminate|split; [reflexivity|]]]). reflexivity.
Qed.

(** C80 is false: when new throws in steal, the vector keeps the size of the source without its elements; *)
Theorem C80_steal_refuted : forall os c ts i k w, xhistory xnothing os c ts -> xalive c i -> xc_std c k <> [] -> w_new w = true ->
  exists s v, xrun start (os ++ [(w, VSteal i k)]) = Ok (s, ts ++ [true]) /\ st_std s k = xc_std c k /\
  st_vecs s i = Some v /\ m_size v = zlen (xc_std c k) /\ hollow (st_heap s) v.
Proof. exact steal_hollow. Qed.
Print Assumptions C80_steal_refuted.
Example C80_steal_ex :
  (do (s, ts) <- xrun start [(fair, VNew 0); (fair, SSet 7 [5; 6]); (C80_bad, VSteal 0 7)];
   do v <- the (st_vecs s 0%nat); Ok (ts, m_size v, vec_get (st_heap s) v 1)) = Ok ([false; false; true], 2, Ub OutOfBounds).
Proof. reflexivity. Qed.

(** when the range or the assignment to the deleter throws, the new buffer is never released. *)
Theorem C80_lost_refuted : forall os c ts w o, xhistory xnothing os c ts -> xallowed c o -> throws_late c w o ->
  exists s b, xrun start (os ++ [(w, o)]) = Ok (s, ts ++ [true]) /\ unreleased (st_heap s) b /\
  (forall i v, st_vecs s i = Some v -> ~ owns v b) /\
  (forall more s' ts', xrun s more = Ok (s', ts') -> unreleased (st_heap s') b).
Proof. exact late_lost. Qed.
Print Assumptions C80_lost_refuted.
Example C80_lost_ex : throws_late xnothing (mk_weather false false (Some 1)) (VFrom 0 (RList [4; 2])) /\
  xrun start [(mk_weather false false (Some 1), VFrom 0 (RList [4; 2]))] = Ok (mk_st [Some [4; 2]] (fun _ => None) (fun _ => []), [true]).
Proof. split; [|reflexivity]. split; [reflexivity|]. right. exists 1. split; reflexivity. Qed.

(** If nothing throws, the calls do what C45 says. *)
Theorem C80_fair : forall os s, xrun s (map (pair fair) os) = do s <- run s os; Ok (s, repeat false (length os)).
Proof. exact fair_xrun. Qed.
Print Assumptions C80_fair.
Example C80_fair_ex : (do (s, ts) <- xrun start (map (pair fair) [VNew 0; SSet 7 [5; 6]; VSteal 0 7]); Ok (st_heap s, ts)) =
  Ok ([Some [5; 6]], [false; false; false]).
Proof. reflexivity. Qed.
