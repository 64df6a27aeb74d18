(** What the scores of a whole evaluation mean. *)
From Coq Require Import String.
From Coq Require Import List ZArith QArith.
From Verif Require Import Prelude Task Task_spec Distances Distances_spec Analyze Pipeline_same_spec.
Import ListNotations.
Local Open Scope Z_scope.
Local Open Scope list_scope.
Set Implicit Arguments.

Section Spec.
Variables tm F V L : Type.
Variable tle : tm -> tm -> bool.
Variable distance : option bool -> list F -> list F -> res V.

(** [near d d'] holds of the distances to an item X of an item of its category, and of an item of
    another category, whenever the three are in the same by. *)
Definition categories (near : V -> V -> Prop) (T : task) (db : list row) (places : list (Distances.item tm))
           (files : list (feature_data tm F)) (normalize : option Z) : Prop :=
  forall k ra pa rb pb rx px,
    In (ra, pa) (items_of T db places k) -> In (rb, pb) (items_of T db places k) -> In (rx, px) (items_of T db places k) ->
    ra (t_on T) = rx (t_on T) -> rb (t_on T) <> rx (t_on T) ->
  forall ma mb mx dax dbx,
    matrix_of tle files pa ma -> matrix_of tle files pb mb -> matrix_of tle files px mx ->
    distance (meant normalize) ma mx = Ok dax -> distance (meant normalize) mb mx = Ok dbx -> near dax dbx.

(** All the items have the same frames. *)
Definition same_frames (places : list (Distances.item tm)) (files : list (feature_data tm F)) : Prop :=
  forall p p' m m', In p places -> In p' places -> matrix_of tle files p m -> matrix_of tle files p' m' -> m = m'.

(** The number of triplets of some lines, and the number of right answers they stand for. *)
Definition triplets_in (lines : list (line L)) : Z := fold_right (fun ln n => l_n ln + n) 0 lines.
Definition right_in (lines : list (line L)) : Q := fold_right (fun ln q => (l_score ln * inject_Z (l_n ln) + q)%Q) 0%Q lines.

(** The line with the opposite score. *)
Definition opposite (ln ln' : line L) : Prop :=
  l_labels ln = l_labels ln' /\ l_by ln = l_by ln' /\ l_n ln = l_n ln' /\ (l_score ln' == 1 - l_score ln)%Q.

End Spec.

(** Two tasks that have the same triplets: only their regressors differ. *)
Definition same_triplets (T T' : task) : Prop :=
  t_on T = t_on T' /\ t_across T = t_across T' /\ t_by T = t_by T' /\ t_filters T = t_filters T'.
