(** What the scores of a task must be. *)
From Coq Require Import String.
From Coq Require Import List ZArith.
From Verif Require Import Prelude Pairs Pairs_spec Score.
Import ListNotations.
Local Open Scope Z_scope.
Local Open Scope list_scope.
Set Implicit Arguments.

Section Spec.
Variable V : Type.
Variable vlt : V -> V -> bool.

(** [d] is the distance in the distance file between an item and X, items of [by_]: the
    pair (item, X) is in a row of the range of the by. *)
Definition distance_of (T : scored_task) (dis : list V) (by_ : string) (item x : Z) (d : V) : Prop :=
  exists base s e p, In (by_, (base, s, e)) (sc_attrs T) /\ s <= Z.of_nat p < e /\
    nth_error (sc_pairs T) p = Some (code base item x) /\ nth_error dis p = Some d.

(** The score of a triplet whose distances are [dax] and [dbx]. *)
Definition verdict (dax dbx : V) (s : Z) : Prop :=
  (vlt dax dbx = true /\ s = 1) \/ (vlt dbx dax = true /\ s = -1) \/
  (vlt dax dbx = false /\ vlt dbx dax = false /\ s = 0).

(** A number of items of a by for which the codes of the pairs are exact as floats. *)
Definition few_items (base : Z) : Prop := base <= 94906265.

(** A task file and a distance file as the earlier steps write them. *)
Record scorable (T : scored_task) (dis : list V) : Prop := mk_scorable {
  so_bys : NoDup (sc_bys T);
  so_attrs : NoDup (map fst (sc_attrs T));
  so_index : length (sc_by_index T) = length (sc_bys T);
  so_ranges : consecutive 0 (sc_by_index T) (length (sc_triplets T));
  so_by : forall n by_ i j, nth_error (sc_bys T) n = Some by_ ->
    nth_error (sc_by_index T) n = Some (i, j) ->
    exists base s e, In (by_, (base, s, e)) (sc_attrs T) /\
      0 <= s <= e /\ e <= Z.of_nat (length (sc_pairs T)) /\ 1 <= base /\ few_items base /\
      pairs_exactly base (rows_between i j (sc_triplets T))
                    (rows_between (Z.to_nat s) (Z.to_nat e) (sc_pairs T)) /\
      (forall a b x, In (a, b, x) (rows_between i j (sc_triplets T)) ->
                     0 <= a < base /\ 0 <= b < base /\ 0 <= x < base);
  so_distances : length dis = length (sc_pairs T)
}.

(** [p] is a row of the triplets of [by_], with the triplet (a, b, x). *)
Definition triplet_at (T : scored_task) (p : nat) (by_ : string) (a b x : Z) : Prop :=
  exists n i j, nth_error (sc_bys T) n = Some by_ /\ nth_error (sc_by_index T) n = Some (i, j) /\
    (i <= p < j)%nat /\ nth_error (sc_triplets T) p = Some (a, b, x).

(** The scores: one for each row, the verdict for its triplet. *)
Definition scores_of (T : scored_task) (dis : list V) (scores : list Z) : Prop :=
  length scores = length (sc_triplets T) /\
  forall p by_ a b x, triplet_at T p by_ a b x ->
    exists dax dbx s, distance_of T dis by_ a x dax /\ distance_of T dis by_ b x dbx /\
      nth_error scores p = Some s /\ verdict dax dbx s.

(** The contents of the files with a given name. *)
Definition holds (k k' : disk V) (f : string) : Prop :=
  (forall t, In (f, t) (k_tasks k) <-> In (f, t) (k_tasks k')) /\
  (forall d, In (f, d) (k_distances k) <-> In (f, d) (k_distances k')) /\
  (forall s, In (f, s) (k_scores k) <-> In (f, s) (k_scores k')) /\
  (In f (k_others k) <-> In f (k_others k')).

Definition there (k : disk V) (f : string) : Prop :=
  In f (map fst (k_tasks k)) \/ In f (map fst (k_distances k)) \/
  In f (map fst (k_scores k)) \/ In f (k_others k).

End Spec.
