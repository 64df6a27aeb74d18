(** When two whole evaluations must have the same result. *)
From Coq Require Import String.
From Coq Require Import List ZArith QArith Permutation.
From Verif Require Import Prelude Sampler Sampler_spec Sampler_proofs Task Task_spec Task_sort Task_main Task_reg_spec Distances Distances_spec
  Score Score_spec Analyze Rounding H5io Pipeline Pipeline_spec Pipeline_proofs.
Import ListNotations.
Local Open Scope Z_scope.
Local Open Scope list_scope.
Set Implicit Arguments.

Section Spec.
Variables tm L : Type.

(** The items of a by: their lines in the item file and their locations, in order. *)
Definition items_of (T : task) (db : list row) (places : list (Distances.item tm)) (k : key)
  : list (row * Distances.item tm) :=
  filter (fun rp => match t_by T with
                    | [] => if key_dec k [0] then true else false
                    | cols => if key_dec (map (fst rp) cols) k then true else false
                    end) (combine db places).

(** Two lines of a result say the same: equal labels, by, number and score. *)
Definition line_same (ln ln' : line L) : Prop :=
  l_labels ln = l_labels ln' /\ l_by ln = l_by ln' /\ l_n ln = l_n ln' /\ (l_score ln == l_score ln')%Q.

(** Two results have the same lines, maybe in another order. *)
Definition same_lines (lines lines' : list (line L)) : Prop :=
  exists m, Permutation lines m /\ Forall2 line_same m lines'.

(** The lines of a result for one by, in order. *)
Definition of_by (s : string) (lines : list (line L)) : list (line L) :=
  filter (fun ln => String.eqb (l_by ln) s) lines.

(** What is asked of a task, of an item file, of the locations, of the levels of the regressors
    and of the features. *)
Record evaluable (plain : L -> bool) (F : Type) (T : task) (cols : list string) (db : list row)
       (places : list (Distances.item tm)) (indexes : list (string * list L))
       (files : list (feature_data tm F)) : Prop := mk_evaluable {
  ev_reads : reads cols (t_filters T);
  ev_determined : determined T db;
  ev_kept : kept_first T db;
  ev_reg_reads : reg_reads cols (t_regressors T);
  ev_reg_determined : reg_determined T db;
  ev_length : length places = length db;
  ev_size : Zlen db <= 94906265;
  ev_A : A_fine T;
  ev_levels : levels_ok plain T db indexes;
  ev_features : features_ok files
}.

(** [lines] is what the analysis returns at the end of one evaluation: the task file was made
    without a threshold, or without regressors of B and X, then the distances were computed and
    returned, then the scores were written to a new file, then they were analysed. The random
    numbers, the memory, the buffers, the number of processes and their interleaving, the order
    in which sets and groups are listed and equal numbers are sorted are all arbitrary. *)
Inductive evaluated (leq : forall x y : L, {x = y} + {x <> y}) (plain : L -> bool) (name : key -> string)
          (F V : Type) (tle : tm -> tm -> bool) (vlt : V -> V -> bool)
          (distance : option bool -> list F -> list F -> res V)
          (T : task) (cols : list string) (db : list row) (places : list (Distances.item tm))
          (indexes : list (string * list L)) (files : list (feature_data tm F)) (normalize : option Z)
          (lines : list (line L)) : Prop :=
| Evaluated : forall gorder : list (string * by_group L) -> list (string * by_group L),
    (forall l, Permutation (gorder l) l) ->
  forall korder enum argsort (R : rng) (fuel : nat), lists_keys korder -> lists_set enum -> argsort_spec argsort ->
  forall rlen wlen clen : Z -> nat,
    (forall z, (0 < rlen z)%nat) -> (forall z, (0 < wlen z)%nat) -> (forall z, (0 < clen z)%nat) ->
  forall memory o_buffer : Z, 8 <= o_buffer ->
  forall thr c (x : abx_file tm L),
    make_file leq plain name gorder korder enum argsort R fuel rlen wlen clen memory o_buffer T cols db places indexes thr c
      = Ok (Some x) ->
    storable T db (capacity (Zlen (x_triplets x))) ->
    64 * Zlen (x_triplets x) <= 3 * memory \/ 10 ^ 9 <= memory /\ Zlen (x_triplets x) <= 10 ^ 14 ->
    no_threshold thr \/ of_BX (t_regressors T) = [] ->
  forall (zero : V) dfuel n_cpu df0 df' s0 s, (1 <= n_cpu)%nat ->
    compute_distances zero argsort dfuel (mk_setting (for_distances x) files normalize) df0 n_cpu = (df', Ok s0) ->
    reaches tle distance (mk_setting (for_distances x) files normalize) s0 s -> s_main s = M_returned ->
  forall dis rnd slen stem k tf dfn sf k' scores names,
    d_data (s_file s) = Some dis -> exact53 rnd -> (forall z, (0 < slen z)%nat) ->
    lookup (k_tasks k) tf = Ok (for_score x) -> lookup (k_distances k) dfn = Ok dis ->
    ~ there k (score_name stem tf dfn sf) ->
    score vlt rnd slen stem k tf dfn sf = (k', Ok tt) ->
    lookup (k_scores k') (score_name stem tf dfn sf) = Ok scores ->
    analyze rnd argsort (for_analysis x) scores = Ok (names, lines) ->
    evaluated leq plain name tle vlt distance T cols db places indexes files normalize lines.

End Spec.

(** No distance is both smaller and larger than another. *)
Definition asymmetric (V : Type) (vlt : V -> V -> bool) : Prop := forall d d', vlt d d' = true -> vlt d' d = false.
