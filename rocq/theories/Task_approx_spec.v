(** Specification: what approximate statistics count. *)
From Coq Require Import String.
From Verif Require Import Prelude Task Task_spec.
Set Implicit Arguments.
Open Scope Z_scope.

(** The task without its filters of A, B, X and whole triplets. *)
Definition without_item_filters (T : task) : task :=
  mk_task (t_on T) (t_across T) (t_by T)
          (mk_filters (f_by (t_filters T)) (f_generic (t_filters T)) (f_oab (t_filters T)) None None None None)
          (t_regressors T).

(** These filters are dropped from the count, unless there are several across columns. *)
Definition counted (T : task) : task :=
  match t_across T with _ :: _ :: _ => T | _ => without_item_filters T end.

(** There is such a filter. *)
Definition item_filtered (T : task) : Prop :=
  f_A (t_filters T) <> None \/ f_B (t_filters T) <> None \/ f_X (t_filters T) <> None \/ f_ABX (t_filters T) <> None.

(** The same statistics of a by group, but for the numbers of triplets. *)
Definition same_but_triplets (s s' : by_stats) : Prop :=
  st_nb_items s = st_nb_items s' /\ st_nb_on_levels s = st_nb_on_levels s' /\
  st_nb_across_levels s = st_nb_across_levels s' /\ st_nb_on_across_levels s = st_nb_on_across_levels s' /\
  map fst (st_block_sizes s) = map fst (st_block_sizes s') /\
  st_nb_across_pairs s = st_nb_across_pairs s' /\ st_nb_on_pairs s = st_nb_on_pairs s'.
