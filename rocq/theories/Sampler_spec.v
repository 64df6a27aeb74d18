(** What sampling without replacement means. *)
From Verif Require Import Prelude Sampler.
Open Scope Z_scope.

(** [l] is a sample of [n] distinct integers of [0, N), listed in increasing order. *)
Definition is_sample (n N : Z) (l : list Z) : Prop :=
  Z.of_nat (length l) = n /\ StronglySorted Z.lt l /\ forall x, In x l -> 0 <= x < N.

(** A feasible number of successes when [n] items are drawn among [N], [K] of which are
    successes. *)
Definition feasible (N K n k : Z) : Prop := Z.max 0 (n - (N - K)) <= k <= Z.min n K.

(** The items of pieces listed relatively to the position of each piece. *)
Definition absolute (pieces : list (Z * list Z)) : list Z :=
  concat (map (fun p => map (fun x => x + fst p) (snd p)) pieces).

(** The items of pieces, read as the [relative] option says. *)
Definition items (relative : bool) (pieces : list (Z * list Z)) : list Z :=
  if relative then absolute pieces else concat (map snd pieces).

Definition total (reqs : list Z) : Z := fold_right Z.add 0 reqs.

(** The pieces answer the requests: piece number i starts where the previous requests end
    (never beyond [N]) and its items are among the next requested ones. *)
Fixpoint pieces_in_place (relative : bool) (N pos : Z) (reqs : list Z)
         (pieces : list (Z * list Z)) : Prop :=
  match reqs, pieces with
  | [], [] => True
  | n :: reqs', (p, l) :: pieces' =>
    p = pos /\
    (forall x, In x l -> if relative then 0 <= x < Z.min n (N - pos)
                         else pos <= x < Z.min (pos + n) N) /\
    pieces_in_place relative N (Z.min N (pos + n)) reqs' pieces'
  | _, _ => False
  end.

(** What is assumed of the random source: uniform draws lie in [0, 1) and integer draws
    below the requested bound. *)
Definition rng_ok (R : rng) : Prop :=
  0 < rnd_den R /\ (forall c, 0 <= rnd_unit R c < rnd_den R) /\
  (forall c N, 0 < N -> 0 <= rnd_int R c N < N).

(** Every value shows up again and again in the stream of integers below [N]. *)
Definition fair (R : rng) (N : Z) : Prop :=
  forall c v, 0 <= v < N -> exists c', (c <= c')%nat /\ rnd_int R c' N = v.

Definition zrange (D : Z) : list Z := map Z.of_nat (seq 0 (Z.to_nat D)).

(** All the vectors of [n] draws among 0, ..., D - 1. *)
Fixpoint vectors (D : Z) (n : nat) : list (list Z) :=
  match n with
  | O => [[]]
  | S n' => flat_map (fun u => map (cons u) (vectors D n')) (zrange D)
  end.

(** Binomial coefficients. *)
Fixpoint binom (r q : nat) : Z :=
  match r, q with
  | _, O => 1
  | O, S _ => 0
  | S r', S q' => binom r' q' + binom r' q
  end.

(** The random source that gives the uniform draws [us / D], then zeros. *)
Definition unit_rng (D : Z) (us : list Z) : rng :=
  {| rnd_den := D; rnd_unit := fun c => nth c us 0; rnd_int := fun _ _ => 0;
     rnd_prop := fun _ => (0, true) |}.

Definition zlist_eqb (l1 l2 : list Z) : bool := if list_eq_dec Z.eq_dec l1 l2 then true else false.

Definition draws_to (r : res (list Z * nat)) (l : list Z) : bool :=
  match r with Ok (l', _) => zlist_eqb l' l | Err _ => false end.

(** Number of vectors of [N] draws for which the sequential algorithm returns [l]. *)
Definition ways (D n N : Z) (dtype : itype) (l : list Z) : Z :=
  Z.of_nat (length (filter (fun us => draws_to (knuth_sampling (unit_rng D us) 0 n N dtype) l)
                           (vectors D (Z.to_nat N)))).

(** The random source whose integer draws are those of [R], relabelled by [pi]. *)
Definition relabel (pi : Z -> Z) (R : rng) : rng :=
  {| rnd_den := rnd_den R; rnd_unit := rnd_unit R; rnd_int := fun c N => pi (rnd_int R c N);
     rnd_prop := rnd_prop R |}.

(** [pi] is a permutation of [0, N). *)
Definition permutes (pi : Z -> Z) (N : Z) : Prop :=
  (forall x, 0 <= x < N -> 0 <= pi x < N) /\
  (forall x y, 0 <= x < N -> 0 <= y < N -> pi x = pi y -> x = y).
