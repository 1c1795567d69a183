(** Buckets of an Elias-Fano encoding *)
From Verif Require Import Base.

(** the number of values that share their high part with a given one, for a universe [n] and [m] values *)
Definition bucket (n m : Z) : Z := if (m =? 0) || (n <? m) then 1 else 2 ^ Z.log2 (n / m).

(** the values in the bucket of [pos] *)
Definition bucket_of (n m : Z) (vs : list Z) (pos : Z) : list Z := filter (fun v => v / bucket n m =? pos / bucket n m) vs.

(** the values a search for [pos] has to pass: from the end of its bucket, all that are not smaller *)
Definition rank_rounds (n m : Z) (vs : list Z) (pos : Z) : Z := zlen (filter (fun v => pos <=? v) (bucket_of n m vs pos)).

(** all that are greater, and the next one if there is one in the bucket *)
Definition get_rounds (n m : Z) (vs : list Z) (pos : Z) : Z :=
  zlen (filter (fun v => pos <? v) (bucket_of n m vs pos)) + (if existsb (fun v => v <=? pos) (bucket_of n m vs pos) then 1 else 0).
