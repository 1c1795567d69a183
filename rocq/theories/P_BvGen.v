(** The queries for ones and zeros as one function of a flag, for the proofs. *)
From Verif Require Import Base M_Broadword M_BitVector M_Darray.

Fixpoint pred_loop (neg : bool) (fuel : nat) (ws : list Z) (block word : Z) : res Z :=
  do o <- msb_opt word;
  match o with
  | Some r => Ok (block * 64 + r)
  | None =>
      match fuel with
      | O => Ub OutOfFuel
      | S fuel =>
          assert! (negb (block =? 0));
          do w <- getw neg ws (block - 1);
          pred_loop neg fuel ws (block - 1) w
      end
  end.

Definition predecessor_gen (neg : bool) (bv : bit_vector) (pos : Z) : res Z :=
  assert! (pos <? bv_size bv);
  let block := pos / 64 in
  let shift := 64 - pos mod 64 - 1 in
  do w <- getw neg (bv_words bv) block;
  do x <- shl w shift;
  do word <- shr x shift;
  pred_loop neg (S (Z.to_nat block)) (bv_words bv) block word.

Fixpoint succ_loop (neg : bool) (fuel : nat) (ws : list Z) (block word : Z) : res Z :=
  do o <- lsb_opt word;
  match o with
  | Some r => Ok (block * 64 + r)
  | None =>
      match fuel with
      | O => Ub OutOfFuel
      | S fuel =>
          assert! (block + 1 <? zlen ws);
          do w <- getw neg ws (block + 1);
          succ_loop neg fuel ws (block + 1) w
      end
  end.

Definition successor_gen (neg : bool) (bv : bit_vector) (pos : Z) : res Z :=
  assert! (pos <? bv_size bv);
  let block := pos / 64 in
  let shift := pos mod 64 in
  do w <- getw neg (bv_words bv) block;
  do x <- shr w shift;
  do word <- shl x shift;
  succ_loop neg (S (length (bv_words bv))) (bv_words bv) block word.

Ltac same_loop IH := match goal with |- bind ?m _ = _ => destruct m as [[?|]|]; cbn [bind]; try reflexivity end;
  match goal with |- assert_ ?c _ = _ => destruct c; cbn [assert_]; [|reflexivity] end; unfold getw; destruct (rd _ _); cbn [bind]; [apply IH|reflexivity].
Lemma pred0_loop_eq fuel : forall ws block word, predecessor0_loop fuel ws block word = pred_loop true fuel ws block word.
Proof. induction fuel as [|fuel IH]; intros; cbn [predecessor0_loop pred_loop]; [reflexivity|]. same_loop IH. Qed.
Lemma pred1_loop_eq fuel : forall ws block word, predecessor1_loop fuel ws block word = pred_loop false fuel ws block word.
Proof. induction fuel as [|fuel IH]; intros; cbn [predecessor1_loop pred_loop]; [reflexivity|]. same_loop IH. Qed.
Lemma succ0_loop_eq fuel : forall ws block word, successor0_loop fuel ws block word = succ_loop true fuel ws block word.
Proof. induction fuel as [|fuel IH]; intros; cbn [successor0_loop succ_loop]; [reflexivity|]. same_loop IH. Qed.
Lemma succ1_loop_eq fuel : forall ws block word, successor1_loop fuel ws block word = succ_loop false fuel ws block word.
Proof. induction fuel as [|fuel IH]; intros; cbn [successor1_loop succ_loop]; [reflexivity|]. same_loop IH. Qed.

Ltac same_query L := match goal with |- assert_ ?c _ = _ => destruct c; cbn [assert_]; [|reflexivity] end; unfold getw; destruct (rd _ _); cbn [bind]; [|reflexivity];
  do 2 (match goal with |- bind ?m _ = _ => destruct m; cbn [bind]; [|reflexivity] end); apply L.
Lemma predecessor0_eq bv pos : predecessor0 bv pos = predecessor_gen true bv pos.
Proof. unfold predecessor0, predecessor_gen. same_query pred0_loop_eq. Qed.
Lemma predecessor1_eq bv pos : predecessor1 bv pos = predecessor_gen false bv pos.
Proof. unfold predecessor1, predecessor_gen. same_query pred1_loop_eq. Qed.
Lemma successor0_eq bv pos : successor0 bv pos = successor_gen true bv pos.
Proof. unfold successor0, successor_gen. same_query succ0_loop_eq. Qed.
Lemma successor1_eq bv pos : successor1 bv pos = successor_gen false bv pos.
Proof. unfold successor1, successor_gen. same_query succ1_loop_eq. Qed.

Fixpoint uskip_loop (neg : bool) (fuel : nat) (ws : list Z) (k skipped pos buf : Z)
  : res (Z * Z * Z) :=
  let w := popcount buf in
  if skipped + w <=? k then
    match fuel with
    | O => Ub OutOfFuel
    | S fuel =>
        do b <- getw neg ws ((pos + 64) / 64);
        uskip_loop neg fuel ws k (skipped + w) (pos + 64) b
    end
  else Ok (skipped, pos, buf).
Lemma skip_loop_eq fuel : forall ws k skipped pos buf, skip_loop fuel ws k skipped pos buf = uskip_loop false fuel ws k skipped pos buf.
Proof.
  induction fuel as [|fuel IH]; intros; cbn [skip_loop uskip_loop]; [reflexivity|]. destruct (_ <=? _); [|reflexivity].
  unfold getw. destruct (rd _ _); cbn [bind]; [apply IH|reflexivity].
Qed.
Lemma skip0_loop_eq fuel : forall ws k skipped pos buf, skip0_loop fuel ws k skipped pos buf = uskip_loop true fuel ws k skipped pos buf.
Proof.
  induction fuel as [|fuel IH]; intros; cbn [skip0_loop uskip_loop]; [reflexivity|]. destruct (_ <=? _); [|reflexivity].
  unfold getw. destruct (rd _ _); cbn [bind]; [apply IH|reflexivity].
Qed.
