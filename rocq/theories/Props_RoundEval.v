(** Properties of whole evaluations in the arithmetic of the machine (C87). *)
From Coq Require Import Ascii String.
From Coq Require Import List ZArith QArith Reals Permutation Lra.
From Verif Require Import Prelude Task Task_spec Task_reg_spec Task_ex Task_reg_ex Distances Distances_spec Score_spec Analyze Analyze_spec Pipeline Pipeline_spec Pipeline_ex
  Pipeline_same_spec Pipeline_same_ex Pipeline_map_spec Metrics_spec DefaultDistance_spec Metrics_cosine.
From Verif Require Metrics Invariance_spec.
From Verif Require Import FloatDistance FloatDistance_spec FloatDistance_ex RoundEval_spec RoundEval_lines RoundEval_proofs RoundEval_ex.
Import ListNotations.
Local Open Scope R_scope.

(** C87: two evaluations of a task with any features and any distances, in which the triplets that are not doubtful have equal
    answers, have lines for the same values with the same numbers of triplets, and the scores of a line differ by
    the proportion of its triplets that are doubtful at most. *)
Theorem C87_answers :
  forall (tm L F F' V V' : Type) (leq : forall x y : L, {x = y} + {x <> y}) (plain : L -> bool) (name : key -> string),
    (forall k k', name k = name k' -> k = k') ->
  forall tle (vlt : V -> V -> bool) (vlt' : V' -> V' -> bool) (distance : option bool -> list F -> list F -> res V)
    (distance' : option bool -> list F' -> list F' -> res V') normalize normalize', asymmetric vlt -> asymmetric vlt' ->
  forall T cols db (places : list (Distances.item tm)) (indexes : list (string * list L)) files files' (doubtful : key -> triplet -> bool),
    evaluable plain T cols db places indexes files -> features_ok files' ->
    (forall k t s s', is_wanted T db k t -> doubtful k t = false ->
       answer tle vlt distance T db places files normalize k t s -> answer tle vlt' distance' T db places files' normalize' k t s' -> s = s') ->
  forall lines lines',
    evaluated leq plain name tle vlt distance T cols db places indexes files normalize lines ->
    evaluated leq plain name tle vlt' distance' T cols db places indexes files' normalize' lines' ->
    (forall k, Forall2 (line_near T db indexes doubtful k) (of_by (name k) lines) (of_by (name k) lines')) /\
    exists m, Permutation lines m /\ Forall2 (fun ln ln' => exists k, line_near T db indexes doubtful k ln ln') m lines'.
Proof. exact answers_near. Qed.
Example C87_answers_ex : map (changed [7%Z]) (firstn 9 (x_triplets r_file)) = [true; true; true; true; false; true; true; true; true] /\
  Forall2 (line_near ex_task_reg ex_db pl_indexes changed [7%Z]) (of_by (pl_name [7%Z]) (r_lines 0)) (of_by (pl_name [7%Z]) (r_lines 1)).
Proof. exact (conj r_changed_lines (changed_example [7%Z])). Qed.
Print Assumptions C87_answers.

(** C87: with no doubtful triplet the results are the same. *)
Theorem C87_same_answers :
  forall (tm L F F' V V' : Type) (leq : forall x y : L, {x = y} + {x <> y}) (plain : L -> bool) (name : key -> string),
    (forall k k', name k = name k' -> k = k') ->
  forall tle (vlt : V -> V -> bool) (vlt' : V' -> V' -> bool) (distance : option bool -> list F -> list F -> res V)
    (distance' : option bool -> list F' -> list F' -> res V') normalize normalize', asymmetric vlt -> asymmetric vlt' ->
  forall T cols db (places : list (Distances.item tm)) (indexes : list (string * list L)) files files',
    evaluable plain T cols db places indexes files -> features_ok files' ->
    (forall k t s s', is_wanted T db k t ->
       answer tle vlt distance T db places files normalize k t s -> answer tle vlt' distance' T db places files' normalize' k t s' -> s = s') ->
  forall lines lines',
    evaluated leq plain name tle vlt distance T cols db places indexes files normalize lines ->
    evaluated leq plain name tle vlt' distance' T cols db places indexes files' normalize' lines' ->
    same_lines lines lines' /\ forall k, Forall2 (@line_same L) (of_by (name k) lines) (of_by (name k) lines').
Proof. exact answers_same. Qed.
Example C87_same_answers_ex : same_lines (r_lines 0) (m_lines 0).
Proof. exact equal_answers_example. Qed.
Print Assumptions C87_same_answers.

(** C87: an evaluation with the default distance in the arithmetic of the machine and the evaluation with real numbers have the
    same lines, with scores that differ by the proportion of the triplets whose distances are close at most. *)
Theorem C87_rounding :
  forall (tm L : Type) (leq : forall x y : L, {x = y} + {x <> y}) (plain : L -> bool) (name : key -> string),
    (forall k k', name k = name k' -> k = k') ->
  forall rnd rnd' facos fover sum dot u u' ua f t w, precise rnd u -> precise rnd' u' -> (forall a b, a <= b -> rnd' a <= rnd' b) ->
    sums_rounded rnd sum dot -> accurate facos fover ua -> cosine_between f -> is_float t ->
  forall tle empty empty' T cols db (places : list (Distances.item tm)) (indexes : list (string * list L)) files normalize (doubtful : key -> triplet -> bool),
    evaluable plain T cols db places indexes files ->
    (forall p m, In p places -> matrix_of tle files p m -> frames_of w m) ->
    (forall k a b x pa pb px ma mb mx n, is_wanted T db k (a, b, x) -> doubtful k (a, b, x) = false ->
       place T db places k a pa -> place T db places k b pb -> place T db places k x px ->
       matrix_of tle files pa ma -> matrix_of tle files pb mb -> matrix_of tle files px mx -> meant normalize = Some n ->
       settled u' (angle_error ua u w) f n ma mb mx) ->
  forall lines lines',
    evaluated leq plain name tle Invariance_spec.below (exact_on t w empty) T cols db places indexes files normalize lines ->
    evaluated leq plain name tle machine_less (machine_on rnd rnd' facos fover sum dot t w empty') T cols db places indexes files normalize lines' ->
    (forall k, Forall2 (line_near T db indexes doubtful k) (of_by (name k) lines) (of_by (name k) lines')) /\
    exists m, Permutation lines m /\ Forall2 (fun ln ln' => exists k, line_near T db indexes doubtful k ln ln') m lines'.
Proof. exact rounded_near. Qed.
Example C87_rounding_ex : map (r_doubtful 1 [7%Z]) (firstn 9 (x_triplets r_file)) = [true; true; false; false; false; false; false; false; false] /\
  Forall2 (line_near ex_task_reg ex_db pl_indexes (r_doubtful 1) [7%Z]) (of_by (pl_name [7%Z]) (r_lines 1)) (of_by (pl_name [7%Z]) (m_lines 1)).
Proof. exact (conj r_doubtful_lines (near_example [7%Z])). Qed.
Print Assumptions C87_rounding.

(** C87: when the distances of all the triplets are far enough, the results are the same. *)
Theorem C87_settled :
  forall (tm L : Type) (leq : forall x y : L, {x = y} + {x <> y}) (plain : L -> bool) (name : key -> string),
    (forall k k', name k = name k' -> k = k') ->
  forall rnd rnd' facos fover sum dot u u' ua f t w, precise rnd u -> precise rnd' u' -> (forall a b, a <= b -> rnd' a <= rnd' b) ->
    sums_rounded rnd sum dot -> accurate facos fover ua -> cosine_between f -> is_float t ->
  forall tle empty empty' T cols db (places : list (Distances.item tm)) (indexes : list (string * list L)) files normalize,
    evaluable plain T cols db places indexes files ->
    (forall p m, In p places -> matrix_of tle files p m -> frames_of w m) ->
    (forall k a b x pa pb px ma mb mx n, is_wanted T db k (a, b, x) ->
       place T db places k a pa -> place T db places k b pb -> place T db places k x px ->
       matrix_of tle files pa ma -> matrix_of tle files pb mb -> matrix_of tle files px mx -> meant normalize = Some n ->
       settled u' (angle_error ua u w) f n ma mb mx) ->
  forall lines lines',
    evaluated leq plain name tle Invariance_spec.below (exact_on t w empty) T cols db places indexes files normalize lines ->
    evaluated leq plain name tle machine_less (machine_on rnd rnd' facos fover sum dot t w empty') T cols db places indexes files normalize lines' ->
    same_lines lines lines' /\ forall k, Forall2 (@line_same L) (of_by (name k) lines) (of_by (name k) lines').
Proof. exact rounded_same. Qed.
Example C87_settled_ex : same_lines (r_lines 0) (m_lines 0).
Proof. exact same_example. Qed.
Print Assumptions C87_settled.

(** C87: the distance that the machine computes is that of an alignment of which the sum is nearly the least, with and without
    normalisation, up to the errors of the operations. *)
Theorem C87_alignment : forall rnd rnd' facos fover sum dot u u' ua f t w xs ys empty,
  precise rnd u -> precise rnd' u' -> (forall a b, a <= b -> rnd' a <= rnd' b) -> sums_rounded rnd sum dot -> accurate facos fover ua ->
  cosine_between f -> is_float t -> frames_of w xs -> frames_of w ys -> xs <> [] -> ys <> [] ->
  exists q c v, nearly_least u' (angle_error ua u w) f xs ys q /\
    lowest u' (angle_error ua u w) f false xs ys q <= c <= highest u' (angle_error ua u w) f false xs ys q /\
    (forall p, whole xs ys p -> c <= highest u' (angle_error ua u w) f false xs ys p) /\
    lowest u' (angle_error ua u w) f true xs ys q <= v <= highest u' (angle_error ua u w) f true xs ys q /\
    forall b, machine_distance rnd rnd' facos fover sum dot empty (farray t w xs) (farray t w ys) b = Ok (Number (Some (if b then v else c))).
Proof. exact machine_near. Qed.
Example C87_alignment_ex : exists q v, nearly_least (1 / 8) (angle_error 0 (1 / 1024) 2) cosine_value one_frame two_frames q /\
  machine_distance (rnd_up (1 / 1024)) (rnd_up (1 / 8)) acos (fun a => a / PI) (rsum (rnd_up (1 / 1024))) (rdot (rnd_up (1 / 1024))) ex_memory
    (farray Metrics.Float32 2 one_frame) (farray Metrics.Float32 2 two_frames) true = Ok (Number (Some v)) /\
  lowest (1 / 8) (angle_error 0 (1 / 1024) 2) cosine_value true one_frame two_frames q <= v <= highest (1 / 8) (angle_error 0 (1 / 1024) 2) cosine_value true one_frame two_frames q.
Proof. exact near_value_example. Qed.
Print Assumptions C87_alignment.

(** C87: distances that are far enough are compared as with real numbers, with and without normalisation. *)
Theorem C87_compare : forall rnd rnd' facos fover sum dot u u' ua f t w,
  precise rnd u -> precise rnd' u' -> (forall a b, a <= b -> rnd' a <= rnd' b) -> sums_rounded rnd sum dot -> accurate facos fover ua ->
  cosine_between f -> is_float t ->
  forall b xs ys zs empty empty', frames_of w xs -> frames_of w ys -> frames_of w zs -> xs <> [] -> ys <> [] -> zs <> [] ->
  surely_less u' (angle_error ua u w) f b xs ys zs ->
  exists v v', machine_distance rnd rnd' facos fover sum dot empty (farray t w xs) (farray t w zs) b = Ok (Number (Some v)) /\
    machine_distance rnd rnd' facos fover sum dot empty' (farray t w ys) (farray t w zs) b = Ok (Number (Some v')) /\ v < v'.
Proof. exact machine_surely. Qed.
Example C87_compare_ex : surely_less (1 / 8) (angle_error 0 (1 / 1024) 2) cosine_value true [[1; 0]] [[0; 1]] [[1; 0]] /\ exists v v',
  machine_distance (rnd_up (1 / 1024)) (rnd_up (1 / 8)) acos (fun a => a / PI) (rsum (rnd_up (1 / 1024))) (rdot (rnd_up (1 / 1024))) ex_memory
    (farray Metrics.Float32 2 [[1; 0]]) (farray Metrics.Float32 2 [[1; 0]]) true = Ok (Number (Some v)) /\
  machine_distance (rnd_up (1 / 1024)) (rnd_up (1 / 8)) acos (fun a => a / PI) (rsum (rnd_up (1 / 1024))) (rdot (rnd_up (1 / 1024))) ex_memory
    (farray Metrics.Float32 2 [[0; 1]]) (farray Metrics.Float32 2 [[1; 0]]) true = Ok (Number (Some v')) /\ v < v'.
Proof. exact (conj surely_example surely_compare_example). Qed.
Print Assumptions C87_compare.
