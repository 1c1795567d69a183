(** Specification side of the bit_vector properties: the representation of a bit
    sequence and what builder calls mean on plain sequences of booleans. *)
From Verif Require Import Base Spec M_BitVector.

(** the [bit_vector] that stores [l] *)
Definition canonical (l : list bool) : bit_vector := mk_bv (zlen l) (pack l).

(** A call history over builders named by natural numbers. *)
Inductive op : Type :=
| New (i : nat) (size : Z) (init : bool)
| Reserve (i : nat) (n : Z)
| PushBack (i : nat) (b : bool)
| SetBit (i : nat) (pos : Z) (b : bool)
| SetBits (i : nat) (pos bits len : Z)
| AppendBits (i : nat) (bits len : Z)
| ZeroExtend (i : nat) (n : Z)
| OneExtend (i : nat) (n : Z)
| Append (i j : nat)
| Reverse (i : nat)
| Swap (i j : nat).

Definition put {A} (f : nat -> A) (i : nat) (x : A) : nat -> A :=
  fun j => if Nat.eqb j i then x else f j.

(** The calls on plain sequences. *)
Definition spec_step (s : nat -> list bool) (o : op) : nat -> list bool :=
  match o with
  | New i size init => put s i (repeat init (Z.to_nat size))
  | Reserve i n => s
  | PushBack i b => put s i (s i ++ [b])
  | SetBit i pos b =>
      put s i (firstn (Z.to_nat pos) (s i) ++ [b] ++ skipn (Z.to_nat pos + 1) (s i))
  | SetBits i pos bits len =>
      put s i (firstn (Z.to_nat pos) (s i) ++ bits_of (Z.to_nat len) bits ++
               skipn (Z.to_nat pos + Z.to_nat len) (s i))
  | AppendBits i bits len => put s i (s i ++ bits_of (Z.to_nat len) bits)
  | ZeroExtend i n => put s i (s i ++ repeat false (Z.to_nat n))
  | OneExtend i n => put s i (s i ++ repeat true (Z.to_nat n))
  | Append i j => put s i (s i ++ s j)
  | Reverse i => put s i (rev (s i))
  | Swap i j => put (put s i (s j)) j (s i)
  end.

(** The documented or asserted preconditions. A size must be representable with room
    for the rounding of [words_for]; [append] to itself is excluded. [reserve] is
    restricted: see theorem C41_refuted. *)
Definition fits (n : Z) : Prop := n + 63 < 2 ^ 64.
Definition legal (s : nat -> list bool) (o : op) : Prop :=
  match o with
  | New i size init => 0 <= size /\ fits size
  | Reserve i n => zlen (s i) mod 64 = 0 \/ n <= zlen (s i)
  | PushBack i b => fits (zlen (s i) + 1)
  | SetBit i pos b => 0 <= pos < zlen (s i)
  | SetBits i pos bits len =>
      0 <= pos /\ 0 <= len <= 64 /\ pos + len <= zlen (s i) /\ 0 <= bits < 2 ^ len
  | AppendBits i bits len => 0 <= len <= 64 /\ 0 <= bits < 2 ^ len /\ fits (zlen (s i) + len)
  | ZeroExtend i n => 0 <= n /\ fits (zlen (s i) + n)
  | OneExtend i n => 0 <= n /\ fits (zlen (s i) + n)
  | Append i j => i <> j /\ fits (zlen (s i) + zlen (s j))
  | Reverse i => True
  | Swap i j => True
  end.

Fixpoint spec_run (s : nat -> list bool) (os : list op) : nat -> list bool :=
  match os with [] => s | o :: os => spec_run (spec_step s o) os end.
Fixpoint legal_run (s : nat -> list bool) (os : list op) : Prop :=
  match os with [] => True | o :: os => legal s o /\ legal_run (spec_step s o) os end.

(** The same calls on the model. *)
Definition step (gr : growth) (s : nat -> builder) (o : op) : res (nat -> builder) :=
  match o with
  | New i size init => do b <- new_builder size init; Ok (put s i b)
  | Reserve i n => Ok (put s i (reserve gr (s i) n))
  | PushBack i x => do b <- push_back gr (s i) x; Ok (put s i b)
  | SetBit i pos x => do b <- bset (s i) pos x; Ok (put s i b)
  | SetBits i pos bits len => do b <- set_bits (s i) pos bits len; Ok (put s i b)
  | AppendBits i bits len => do b <- append_bits gr (s i) bits len; Ok (put s i b)
  | ZeroExtend i n => do b <- zero_extend gr (s i) n; Ok (put s i b)
  | OneExtend i n => do b <- one_extend gr (s i) n; Ok (put s i b)
  | Append i j => do b <- append gr (s i) (s j); Ok (put s i b)
  | Reverse i => do b <- reverse (s i); Ok (put s i b)
  | Swap i j => let '(x, y) := builder_swap (s i) (s j) in Ok (put (put s i x) j y)
  end.
Fixpoint run (gr : growth) (s : nat -> builder) (os : list op) : res (nat -> builder) :=
  match os with [] => Ok s | o :: os => do s <- step gr s o; run gr s os end.

(** default-constructed builders and their empty sequences *)
Definition builders0 : nat -> builder := fun _ => mk_builder [] 0 0 0 None.
Definition seqs0 : nat -> list bool := fun _ => [].

(** ** bit_vector::enumerator *)
Inductive eop : Type := ENext | ETake (n : Z) | ESkipZeros.

(** A scan of [l] from [pos]; the second component tells whether the last reading call was
    [take(64)] (see theorem C05_refuted). Each call is related to its result and to the
    position it leaves. *)
Definition estate : Type := Z * bool.
Inductive espec (l : list bool) : estate -> eop -> Z -> estate -> Prop :=
| es_next pos st b : nth_error l (Z.to_nat pos) = Some b ->
    espec l (pos, st) ENext (Z.b2z b) (pos + 1, false)
| es_take0 pos st : espec l (pos, st) (ETake 0) 0 (pos, st)
| es_take pos st n : 0 < n <= 64 -> pos < zlen l ->
    espec l (pos, st) (ETake n) (value (window l (Z.to_nat pos) (Z.to_nat n))) (pos + n, n =? 64)
| es_skip pos q : pos <= q -> nth_error l (Z.to_nat q) = Some true ->
    (forall p, pos <= p < q -> nth_error l (Z.to_nat p) = Some false) ->
    espec l (pos, false) ESkipZeros (q - pos) (q + 1, false).
Inductive espec_run (l : list bool) : estate -> list eop -> list Z -> Z -> Prop :=
| esr_nil pos st : espec_run l (pos, st) [] [] pos
| esr_cons s o r s' os rs p : espec l s o r s' -> espec_run l s' os rs p ->
    espec_run l s (o :: os) (r :: rs) p.

(** The same calls on the model: results and final [position()]. *)
Definition estep (bv : bit_vector) (e : enumerator) (o : eop) : res (Z * enumerator) :=
  match o with
  | ENext => do (b, e) <- enum_next bv e; Ok (Z.b2z b, e)
  | ETake n => enum_take bv e n
  | ESkipZeros => enum_skip_zeros bv e
  end.
Fixpoint erun (bv : bit_vector) (e : enumerator) (os : list eop) : res (list Z * Z) :=
  match os with
  | [] => Ok ([], e_pos e)
  | o :: os => do (r, e) <- estep bv e o; do (rs, p) <- erun bv e os; Ok (r :: rs, p)
  end.

(** ** bit_vector::unary_enumerator *)
Inductive uop : Type := UNext | USkip (k : Z) | USkipNoMove (k : Z) | USkip0 (k : Z).

(** State: position, and whether the one at the position was already returned by [next]
    (then counting starts after it). [skip0] is only related when it was not (see theorem
    C06_refuted). *)
Definition ustart (s : Z * bool) : nat := Z.to_nat (fst s + Z.b2z (snd s)).
Inductive uspec (l : list bool) : Z * bool -> uop -> Z -> Z * bool -> Prop :=
| us_next s q : is_select true l (rank true l (ustart s)) q ->
    uspec l s UNext (Z.of_nat q) (Z.of_nat q, true)
| us_skip s k q : 0 <= k -> is_select true l (rank true l (ustart s) + Z.to_nat k) q ->
    uspec l s (USkip k) (Z.of_nat q) (Z.of_nat q, false)
| us_skip_no_move s k q : 0 <= k -> is_select true l (rank true l (ustart s) + Z.to_nat k) q ->
    uspec l s (USkipNoMove k) (Z.of_nat q) s
| us_skip0 pos k q : 0 <= k -> is_select false l (rank false l (Z.to_nat pos) + Z.to_nat k) q ->
    uspec l (pos, false) (USkip0 k) (Z.of_nat q) (Z.of_nat q, false).
Inductive uspec_run (l : list bool) : Z * bool -> list uop -> list Z -> Prop :=
| usr_nil s : uspec_run l s [] []
| usr_cons s o r s' os rs : uspec l s o r s' -> uspec_run l s' os rs ->
    uspec_run l s (o :: os) (r :: rs).

(** The calls on the model. The result of [skip] and [skip0] is the [position()] after it. *)
Definition ustep (ws : list Z) (e : unary_enum) (o : uop) : res (Z * unary_enum) :=
  match o with
  | UNext => unary_next ws e
  | USkip k => do e <- unary_skip ws e k; Ok (u_pos e, e)
  | USkipNoMove k => do p <- unary_skip_no_move ws e k; Ok (p, e)
  | USkip0 k => do e <- unary_skip0 ws e k; Ok (u_pos e, e)
  end.
Fixpoint urun (ws : list Z) (e : unary_enum) (os : list uop) : res (list Z) :=
  match os with
  | [] => Ok []
  | o :: os => do (r, e) <- ustep ws e o; do rs <- urun ws e os; Ok (r :: rs)
  end.
Definition urun_from (bv : bit_vector) (pos : Z) (os : list uop) : res (list Z) :=
  do e <- unary_new (bv_words bv) pos; urun (bv_words bv) e os.
