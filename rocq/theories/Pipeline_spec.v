(** What the result of a whole evaluation must be, stated on the item table, the features and
    the distance function. *)
From Coq Require Import String.
From Coq Require Import List ZArith QArith Sorted.
From Verif Require Import Prelude Distances Distances_spec Score_spec Analyze Analyze_spec H5io_spec Task Task_spec Task_reg_spec.
Import ListNotations.
Local Open Scope Z_scope.
Local Open Scope list_scope.
Set Implicit Arguments.

(** All the regressors of a task, as functions of the lines of the three items. *)
Definition all_regressors (G : regressors) : list (string * (row -> row -> row -> Z)) :=
  of_block G ++ of_A G ++ of_BX G.

(** The value of the regressor called [s] for the triplet [t]. *)
Definition value_of (T : task) (rows : list row) (s : string) (t : triplet) : Z :=
  match find (fun ng => String.eqb (fst ng) s) (all_regressors (t_regressors T)) with
  | Some ng => value rows (snd ng) t
  | None => 0
  end.

(** The values of some of the regressors. *)
Definition combination (T : task) (rows : list row) (names : list string) (t : triplet) : list Z :=
  map (fun s => value_of T rows s t) names.

(** The regressors of A are in the order of the triplets, or there is none. *)
Definition A_fine (T : task) : Prop := r_A (t_regressors T) = [] \/ A_in_order T.

Section Spec.
Variables tm F V L : Type.
Variable tle : tm -> tm -> bool.
Variable vlt : V -> V -> bool.
Variable distance : option bool -> list F -> list F -> res V.
Variable name : key -> string.

(** The regressors that are analysed are regressors of the task, under distinct names; their
    values for the triplets of the task are positions in their list of levels; there are at
    most 2^53 combinations; the names of the regressors are in ASCII and the labels can be held. *)
Record levels_ok (plain : L -> bool) (T : task) (db : list row) (indexes : list (string * list L)) : Prop := mk_levels_ok {
  lv_some : indexes <> [];
  lv_names : NoDup (map fst (all_regressors (t_regressors T)));
  lv_distinct : NoDup (map fst indexes);
  lv_known : incl (map fst indexes) (map fst (all_regressors (t_regressors T)));
  lv_levels : forall s levels, In (s, levels) indexes -> levels <> [];
  lv_values : forall s levels k t, In (s, levels) indexes -> is_wanted T db k t ->
    0 <= value_of T (by_rows T db k) s t < Z.of_nat (length levels);
  lv_product : prodZ (map (fun ix => Z.of_nat (length (snd ix))) indexes) <= 2 ^ 53;
  lv_ascii : forall s, In s (map fst (all_regressors (t_regressors T))) -> ascii_only s;
  lv_plain : labels_plain plain indexes
}.

(** The location of item [i] of the group of key [k]. *)
Definition place (T : task) (db : list row) (places : list (Distances.item tm)) (k : key) (i : Z)
           (p : Distances.item tm) : Prop :=
  0 <= i /\
  nth_error (map snd (filter (fun rp => match t_by T with
                                        | [] => if key_dec k [0] then true else false
                                        | cols => if key_dec (map (fst rp) cols) k then true else false
                                        end) (combine db places))) (Z.to_nat i) = Some p.

(** The answer for a triplet: 1 if d(A, X) < d(B, X), -1 if d(B, X) < d(A, X), 0 if none. The
    distances are those of the frames of the items. *)
Definition answer (T : task) (db : list row) (places : list (Distances.item tm))
           (files : list (feature_data tm F)) (normalize : option Z) (k : key) (t : triplet) (s : Z) : Prop :=
  let '(a, b, x) := t in
  exists pa pb px ma mb mx dax dbx,
    place T db places k a pa /\ place T db places k b pb /\ place T db places k x px /\
    matrix_of tle files pa ma /\ matrix_of tle files pb mb /\ matrix_of tle files px mx /\
    distance (meant normalize) ma mx = Ok dax /\ distance (meant normalize) mb mx = Ok dbx /\
    verdict vlt dax dbx s.

(** Every triplet has an answer: the distances can be computed. *)
Definition answerable (T : task) (db : list row) (places : list (Distances.item tm))
           (files : list (feature_data tm F)) (normalize : option Z) : Prop :=
  (forall k t, is_wanted T db k t -> exists s, answer T db places files normalize k t s) /\
  (forall f times frames, recorded files f times frames -> length times = length frames).

(** The line for the combination [r] of a by, for some triplets [sel]: the labels of the values,
    the by, the number of these triplets of the by with these values, and the proportion of right
    answers for them. *)
Definition line_among (sel : key -> triplet -> Prop) (T : task) (db : list row) (places : list (Distances.item tm))
           (files : list (feature_data tm F)) (normalize : option Z) (indexes : list (string * list L))
           (k : key) (r : list Z) (ln : line L) : Prop :=
  Forall2 (fun ixi label => 0 <= snd ixi /\ nth_error (snd (fst ixi)) (Z.to_nat (snd ixi)) = Some label)
          (combine indexes r) (l_labels ln) /\
  l_by ln = name k /\
  exists ts answers,
    lists_that (fun t => sel k t /\
                         combination T (by_rows T db k) (map fst indexes) t = r) ts /\
    Forall2 (answer T db places files normalize k) ts answers /\
    l_n ln = Z.of_nat (length ts) /\
    (l_score ln == proportion answers)%Q.

(** The result for some triplets [sel]: one part for each by that has such triplets; in a part one
    line for each combination of values of its triplets. *)
Definition result_among (sel : key -> triplet -> Prop) (T : task) (db : list row) (places : list (Distances.item tm))
           (files : list (feature_data tm F)) (normalize : option Z) (indexes : list (string * list L))
           (lines : list (line L)) : Prop :=
  exists parts : list (key * list (list Z * line L)),
    lines = concat (map (fun p => map snd (snd p)) parts) /\
    NoDup (map fst parts) /\
    (forall k, In k (map fst parts) <-> exists t, sel k t) /\
    forall k part, In (k, part) parts ->
      StronglySorted lex (map fst part) /\
      (forall r, In r (map fst part) <->
         exists t, sel k t /\ combination T (by_rows T db k) (map fst indexes) t = r) /\
      forall r ln, In (r, ln) part -> line_among sel T db places files normalize indexes k r ln.

(** The result for all the triplets of the task. *)
Definition result_of (T : task) (db : list row) (places : list (Distances.item tm))
           (files : list (feature_data tm F)) (normalize : option Z) (indexes : list (string * list L))
           (lines : list (line L)) : Prop :=
  result_among (is_wanted T db) T db places files normalize indexes lines.

End Spec.

(** The triplets that a task file lists for a by. *)
Definition listed (name : key -> string) (bys : list string) (by_index : list (Z * Z)) (rows : list triplet)
           (k : key) (t : triplet) : Prop :=
  exists n ij, nth_error bys n = Some (name k) /\ nth_error by_index n = Some ij /\ In t (rows_of ij rows).

(** Some triplets of the task, at most [m] of them for each block and each values of the
    regressors of B and X: all of them when they are not more than [m], otherwise [m] of them. *)
Definition at_most (m : Z) (T : task) (db : list row) (sel : key -> triplet -> Prop) : Prop :=
  (forall k t, sel k t -> is_wanted T db k t) /\
  forall k t0 all kept, is_wanted T db k t0 ->
    lists_that (fun t => is_wanted T db k t /\ same_group T (by_rows T db k) t t0) all ->
    lists_that (fun t => sel k t /\ same_group T (by_rows T db k) t t0) kept ->
    Zlen kept = Z.min m (Zlen all).
