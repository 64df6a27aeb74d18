(** The answers for three lines of the item file. *)
From Coq Require Import String.
From Coq Require Import List ZArith QArith.
From Verif Require Import Prelude Task Task_spec Distances Distances_spec Score_spec TaskLines_spec.
Import ListNotations.
Local Open Scope list_scope.
Local Open Scope Z_scope.
Set Implicit Arguments.

Section Spec.
Variables tm F V : Type.
Variable tle : tm -> tm -> bool.
Variable vlt : V -> V -> bool.
Variable distance : option bool -> list F -> list F -> res V.

(** The answer for the lines A, B and X of the item file: 1 if the frames of A are nearer to those of
    X than the frames of B, -1 if they are farther, 0 if neither. No task is named. *)
Definition line_answer (places : list (Distances.item tm)) (files : list (feature_data tm F)) (normalize : option Z)
           (l : lines) (s : Z) : Prop :=
  let '(na, nb, nx) := l in
  exists pa pb px ma mb mx dax dbx,
    nth_error places na = Some pa /\ nth_error places nb = Some pb /\ nth_error places nx = Some px /\
    matrix_of tle files pa ma /\ matrix_of tle files pb mb /\ matrix_of tle files px mx /\
    distance (meant normalize) ma mx = Ok dax /\ distance (meant normalize) mb mx = Ok dbx /\
    (vlt dax dbx = true /\ s = 1 \/
     vlt dax dbx = false /\ vlt dbx dax = true /\ s = -1 \/
     vlt dax dbx = false /\ vlt dbx dax = false /\ s = 0).

End Spec.
