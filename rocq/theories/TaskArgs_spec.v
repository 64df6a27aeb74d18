(** What is said of the arguments of a Task. *)
From Coq Require Import Ascii String.
From Coq Require Import List ZArith Permutation.
From Verif Require Import Prelude Task Task_spec TaskArgs.
Import ListNotations.
Local Open Scope list_scope.
Local Open Scope Z_scope.

(** The columns that an argument names; [None] when it is none of the documented forms. *)
Definition names (a : arg) (l : list string) : Prop :=
  match a with
  | ANone => l = []
  | AStr s => l = [s]
  | AList m => l = m
  | AOther => False
  end.

(** The same character. *)
Definition contains (s : string) (c : Ascii.ascii) : Prop := exists p q, s = (p ++ String c q)%string.

(** Names that can be used for columns. *)
Definition usable (c : string) : Prop := ~ contains c "_"%char /\ ~ contains c "#"%char.

(** A column is given for two of on, across and by. *)
Definition overlapping (T : task) : Prop :=
  In (t_on T) (t_across T) \/ In (t_on T) (t_by T) \/ (exists c, In c (t_across T) /\ In c (t_by T)).

(** Tasks with the same on, filters and regressors, and the same columns in across and in by, in
    any order and repeated or not. *)
Definition same_columns (T1 T2 : task) : Prop :=
  t_on T1 = t_on T2 /\ t_filters T1 = t_filters T2 /\ t_regressors T1 = t_regressors T2 /\
  (forall c, In c (t_across T1) <-> In c (t_across T2)) /\
  (forall c, In c (t_by T1) <-> In c (t_by T2)).

(** The keys of a by group in the two tasks: the by values of one of its lines, or [0] for the only
    group when there is no by. *)
Definition same_by (T1 T2 : task) (db : list row) (k1 k2 : key) : Prop :=
  match t_by T1 with
  | [] => k1 = [0] /\ k2 = [0]
  | _ => exists r, In r db /\ k1 = map r (t_by T1) /\ k2 = map r (t_by T2)
  end.

(** Two task files with the same triplets for the same by groups. *)
Definition same_triplets (T1 T2 : task) (db : list row) (f1 f2 : task_file) : Prop :=
  (forall k1 k2, same_by T1 T2 db k1 k2 -> (In k1 (fl_bys f1) <-> In k2 (fl_bys f2))) /\
  (forall k1, In k1 (fl_bys f1) -> exists k2, same_by T1 T2 db k1 k2) /\
  (forall k2, In k2 (fl_bys f2) -> exists k1, same_by T1 T2 db k1 k2) /\
  (forall k1 k2 ij1 ij2, same_by T1 T2 db k1 k2 ->
     In (k1, ij1) (combine (fl_bys f1) (fl_by_index f1)) -> In (k2, ij2) (combine (fl_bys f2) (fl_by_index f2)) ->
     Permutation (rows_of ij1 (fl_triplets f1)) (rows_of ij2 (fl_triplets f2))).
