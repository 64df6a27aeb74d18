(** What the pairs of a task are, without files, types or blocks. *)
From Coq Require Import List ZArith Sorted.
Import ListNotations.

(** The code of the ordered pair (item, X) among [base] items. *)
Definition code (base item x : Z) : Z := (item + base * x)%Z.

(** [c] is the code of (A, X) or (B, X) for one of the triplets. *)
Definition is_pair_of (base : Z) (triplets : list (Z * Z * Z)) (c : Z) : Prop :=
  exists a b x, In (a, b, x) triplets /\ (c = code base a x \/ c = code base b x).

(** The rows of a table designated by a range. *)
Definition rows_between {A : Type} (i j : nat) (l : list A) : list A := firstn (j - i) (skipn i l).

(** The list of pairs attached to a by whose triplets are [triplets]: every pair of the
    triplets, once, in increasing order of code. *)
Definition pairs_exactly (base : Z) (triplets : list (Z * Z * Z)) (pairs : list Z) : Prop :=
  StronglySorted Z.lt pairs /\ forall c, In c pairs <-> is_pair_of base triplets c.

(** The ranges (start, stop) follow each other from [i] and end at [n]. *)
Fixpoint consecutive (i : nat) (ranges : list (nat * nat)) (n : nat) : Prop :=
  match ranges with
  | [] => i = n
  | (s, e) :: ranges' => s = i /\ i <= e /\ consecutive e ranges' n
  end.

(** A by as the task file describes it: the labels of its items and the range of its
    triplets. It is well formed when it has triplets, and these only use its items. *)
Definition by_ready (triplets : list (Z * Z * Z)) (by_ : list Z * (nat * nat)) : Prop :=
  let '(labels, (i, j)) := by_ in
  i < j <= length triplets /\
  labels <> [] /\ (forall l, In l labels -> (0 <= l < 2 ^ 31)%Z) /\
  (forall a b x, In (a, b, x) (rows_between i j triplets) ->
                 In a labels /\ In b labels /\ In x labels).

(** What the attribute (base, start, stop) attached to a by must be. *)
Definition by_result (triplets : list (Z * Z * Z)) (data : list Z)
                     (by_ : list Z * (nat * nat)) (attr : Z * nat * nat) : Prop :=
  let '(base, s, e) := attr in
  In (base - 1)%Z (fst by_) /\ (forall l, In l (fst by_) -> (l < base)%Z) /\
  pairs_exactly base (rows_between (fst (snd by_)) (snd (snd by_)) triplets)
                (rows_between s e data).
