(** Property theorems: what the scores of a whole evaluation mean (C80, C81). *)
From Coq Require Import String.
From Coq Require Import List ZArith QArith Permutation.
From Verif Require Import Prelude Task Task_spec Task_ex Task_sort Task_reg_spec Task_reg_ex Sampler_proofs Distances Distances_spec Score Score_spec Analyze Analyze_spec Rounding
  H5io H5io_ex Pipeline Pipeline_spec Pipeline_ex Pipeline_same_spec Pipeline_same_ex Pipeline_scores_spec Pipeline_scores Pipeline_scores_ex.
Import ListNotations.
Open Scope string_scope.
Open Scope list_scope.
Open Scope Z_scope.

(** C80: every line has at least one triplet and a score between 0 and 1. *)
Theorem C80_range :
  forall (tm L F V : Type) (leq : forall x y : L, {x = y} + {x <> y}) (plain : L -> bool) (name : key -> string),
    (forall k k', name k = name k' -> k = k') ->
  forall (tle : tm -> tm -> bool) (vlt : V -> V -> bool) (distance : option bool -> list F -> list F -> res V), asymmetric vlt ->
  forall T cols db (places : list (Distances.item tm)) (indexes : list (string * list L)) files normalize,
    evaluable plain T cols db places indexes files ->
  forall lines, evaluated leq plain name tle vlt distance T cols db places indexes files normalize lines ->
  forall ln, In ln lines -> 1 <= l_n ln /\ (0 <= l_score ln <= 1)%Q.
Proof. exact range. Qed.
Print Assumptions C80_range.

Example C80_range_ex :
  evaluable plain_text ex_task_reg ex_cols ex_db pl_places pl_indexes pl_files /\ asymmetric Z.ltb /\
  evaluated string_dec plain_text pl_name Z.leb Z.ltb pl_distance ex_task_reg ex_cols ex_db pl_places pl_indexes pl_files (Some 1) p0_lines /\
  map (@l_n string) p0_lines = [2; 2; 4; 1; 1] /\ map (@l_score string) p0_lines = [0 # 4; 1 # 4; 6 # 8; 1 # 2; 2 # 2].
Proof.
  split; [exact p0_evaluable|]. split; [exact lt_asym|]. split; [exact p0_evaluated|]. split; reflexivity.
Qed.

(** C80: the score of a line is 1 exactly when A is nearer to X than B for all the triplets of its by
    and of its values of the regressors, and 0 exactly when B is nearer for all of them. *)
Theorem C80_extremes :
  forall (tm L F V : Type) (leq : forall x y : L, {x = y} + {x <> y}) (plain : L -> bool) (name : key -> string),
    (forall k k', name k = name k' -> k = k') ->
  forall (tle : tm -> tm -> bool) (vlt : V -> V -> bool) (distance : option bool -> list F -> list F -> res V), asymmetric vlt ->
  forall T cols db (places : list (Distances.item tm)) (indexes : list (string * list L)) files normalize,
    evaluable plain T cols db places indexes files ->
  forall lines, evaluated leq plain name tle vlt distance T cols db places indexes files normalize lines ->
  forall ln, In ln lines ->
  exists k r, l_by ln = name k /\
    (exists t, is_wanted T db k t /\ combination T (by_rows T db k) (map fst indexes) t = r) /\
    ((l_score ln == 1)%Q <-> forall t, is_wanted T db k t -> combination T (by_rows T db k) (map fst indexes) t = r ->
                               answer tle vlt distance T db places files normalize k t 1) /\
    ((l_score ln == 0)%Q <-> forall t, is_wanted T db k t -> combination T (by_rows T db k) (map fst indexes) t = r ->
                               answer tle vlt distance T db places files normalize k t (-1)).
Proof. exact extreme. Qed.
Print Assumptions C80_extremes.

Example C80_extremes_ex :
  evaluable plain_text ex_task_reg ex_cols ex_db pl_places pl_indexes pl_files /\ asymmetric Z.ltb /\
  evaluated string_dec plain_text pl_name Z.leb Z.ltb pl_distance ex_task_reg ex_cols ex_db pl_places pl_indexes pl_files (Some 1) p0_lines /\
  In (mk_line ["a"; "ann"; "b"] "+11;" (0 # 4) 2) p0_lines /\ In (mk_line ["b"; "cid"; "a"] "+000;" (2 # 2) 1) p0_lines.
Proof.
  split; [exact p0_evaluable|]. split; [exact lt_asym|]. split; [exact p0_evaluated|]. split; [left; reflexivity|]. right; right; right; right; left; reflexivity.
Qed.

(** C80: when the items of a category are nearer to each other than to the items of the other
    categories, all the scores are 1. *)
Theorem C80_perfect :
  forall (tm L F V : Type) (leq : forall x y : L, {x = y} + {x <> y}) (plain : L -> bool) (name : key -> string),
    (forall k k', name k = name k' -> k = k') ->
  forall (tle : tm -> tm -> bool) (vlt : V -> V -> bool) (distance : option bool -> list F -> list F -> res V), asymmetric vlt ->
  forall T cols db (places : list (Distances.item tm)) (indexes : list (string * list L)) files normalize,
    evaluable plain T cols db places indexes files ->
  forall lines, evaluated leq plain name tle vlt distance T cols db places indexes files normalize lines ->
  categories tle distance (fun d d' => vlt d d' = true) T db places files normalize ->
  forall ln, In ln lines -> (l_score ln == 1)%Q.
Proof. exact perfect. Qed.
Print Assumptions C80_perfect.

Example C80_perfect_ex :
  evaluable plain_text ex_task_reg ex_cols ex_db q_places pl_indexes q_files /\ asymmetric Z.ltb /\
  evaluated string_dec plain_text pl_name Z.leb Z.ltb pl_distance ex_task_reg ex_cols ex_db q_places pl_indexes q_files None q_lines /\
  categories Z.leb pl_distance (fun d d' => (d <? d')%Z = true) ex_task_reg ex_db q_places q_files None /\
  map (@l_score string) q_lines = [4 # 4; 4 # 4; 8 # 8; 2 # 2; 2 # 2].
Proof.
  split; [exact q_evaluable|]. split; [exact lt_asym|]. split; [exact q_evaluated|]. split; [exact q_categories|reflexivity].
Qed.

(** C80: when they are farther, all the scores are 0. *)
Theorem C80_inverted :
  forall (tm L F V : Type) (leq : forall x y : L, {x = y} + {x <> y}) (plain : L -> bool) (name : key -> string),
    (forall k k', name k = name k' -> k = k') ->
  forall (tle : tm -> tm -> bool) (vlt : V -> V -> bool) (distance : option bool -> list F -> list F -> res V), asymmetric vlt ->
  forall T cols db (places : list (Distances.item tm)) (indexes : list (string * list L)) files normalize,
    evaluable plain T cols db places indexes files ->
  forall lines, evaluated leq plain name tle vlt distance T cols db places indexes files normalize lines ->
  categories tle distance (fun d d' => vlt d' d = true) T db places files normalize ->
  forall ln, In ln lines -> (l_score ln == 0)%Q.
Proof. exact inverted. Qed.
Print Assumptions C80_inverted.

Example C80_inverted_ex :
  evaluable plain_text ex_task_reg ex_cols ex_db q_places pl_indexes q_files /\ asymmetric Z.gtb /\
  evaluated string_dec plain_text pl_name Z.leb Z.gtb pl_distance ex_task_reg ex_cols ex_db q_places pl_indexes q_files None q_lines_inv /\
  categories Z.leb pl_distance (fun d d' => (d' >? d)%Z = true) ex_task_reg ex_db q_places q_files None /\
  map (@l_score string) q_lines_inv = [0 # 4; 0 # 4; 0 # 8; 0 # 2; 0 # 2].
Proof.
  split; [exact q_evaluable|]. split; [exact gt_asym|]. split; [exact q_evaluated_inv|]. split; [exact q_categories_inv|reflexivity].
Qed.

(** C80: when all the items have the same frames, all the scores are one half. *)
Theorem C80_blind :
  forall (tm L F V : Type) (leq : forall x y : L, {x = y} + {x <> y}) (plain : L -> bool) (name : key -> string),
    (forall k k', name k = name k' -> k = k') ->
  forall (tle : tm -> tm -> bool) (vlt : V -> V -> bool) (distance : option bool -> list F -> list F -> res V), asymmetric vlt ->
  forall T cols db (places : list (Distances.item tm)) (indexes : list (string * list L)) files normalize,
    evaluable plain T cols db places indexes files ->
  forall lines, evaluated leq plain name tle vlt distance T cols db places indexes files normalize lines ->
  same_frames tle places files -> forall ln, In ln lines -> (l_score ln == 1 # 2)%Q.
Proof. exact blind. Qed.
Print Assumptions C80_blind.

Example C80_blind_ex :
  evaluable plain_text ex_task_reg ex_cols ex_db b_places pl_indexes pl_files /\ asymmetric Z.ltb /\
  evaluated string_dec plain_text pl_name Z.leb Z.ltb pl_distance ex_task_reg ex_cols ex_db b_places pl_indexes pl_files None b_lines /\
  same_frames Z.leb b_places pl_files /\ map (@l_score string) b_lines = [2 # 4; 2 # 4; 4 # 8; 1 # 2; 1 # 2].
Proof.
  split; [exact b_evaluable|]. split; [exact lt_asym|]. split; [exact b_evaluated|]. split; [exact b_same|reflexivity].
Qed.

(** C80: with distances in the opposite order, a score s becomes 1 - s. *)
Theorem C80_reversed :
  forall (tm L F V : Type) (leq : forall x y : L, {x = y} + {x <> y}) (plain : L -> bool) (name : key -> string),
    (forall k k', name k = name k' -> k = k') ->
  forall (tle : tm -> tm -> bool) (vlt : V -> V -> bool) (distance : option bool -> list F -> list F -> res V), asymmetric vlt ->
  forall T cols db (places : list (Distances.item tm)) (indexes : list (string * list L)) files normalize lines lines',
    evaluable plain T cols db places indexes files ->
    evaluated leq plain name tle vlt distance T cols db places indexes files normalize lines ->
    evaluated leq plain name tle (fun d d' => vlt d' d) distance T cols db places indexes files normalize lines' ->
  forall k, Forall2 (@opposite L) (of_by (name k) lines) (of_by (name k) lines').
Proof. exact reversed. Qed.
Print Assumptions C80_reversed.

Example C80_reversed_ex :
  evaluable plain_text ex_task_reg ex_cols ex_db pl_places pl_indexes pl_files /\ asymmetric Z.ltb /\
  evaluated string_dec plain_text pl_name Z.leb Z.ltb pl_distance ex_task_reg ex_cols ex_db pl_places pl_indexes pl_files (Some 1) p0_lines /\
  evaluated string_dec plain_text pl_name Z.leb (fun d d' => Z.ltb d' d) pl_distance ex_task_reg ex_cols ex_db pl_places pl_indexes pl_files (Some 1) v_lines /\
  map (@l_score string) (of_by (pl_name [7]) p0_lines) = [0 # 4; 1 # 4; 6 # 8; 1 # 2] /\
  map (@l_score string) (of_by (pl_name [7]) v_lines) = [4 # 4; 3 # 4; 2 # 8; 1 # 2].
Proof.
  split; [exact p0_evaluable|]. split; [exact lt_asym|]. split; [exact p0_evaluated|]. split; [exact v_evaluated|]. split; reflexivity.
Qed.

(** C81: the numbers of the lines of a by sum to its number of triplets, and the scores multiplied by
    these numbers sum to its right answers, equal distances counting one half. *)
Theorem C81_total :
  forall (tm L F V : Type) (leq : forall x y : L, {x = y} + {x <> y}) (plain : L -> bool) (name : key -> string),
    (forall k k', name k = name k' -> k = k') ->
  forall (tle : tm -> tm -> bool) (vlt : V -> V -> bool) (distance : option bool -> list F -> list F -> res V), asymmetric vlt ->
  forall T cols db (places : list (Distances.item tm)) (indexes : list (string * list L)) files normalize,
    evaluable plain T cols db places indexes files ->
  forall lines, evaluated leq plain name tle vlt distance T cols db places indexes files normalize lines ->
  forall k, exists ts answers, lists_that (is_wanted T db k) ts /\
    Forall2 (answer tle vlt distance T db places files normalize k) ts answers /\
    triplets_in (of_by (name k) lines) = Z.of_nat (length ts) /\
    (right_in (of_by (name k) lines) == inject_Z (howmany 1 answers) + (1 # 2) * inject_Z (howmany 0 answers))%Q.
Proof. exact total. Qed.
Print Assumptions C81_total.

Example C81_total_ex :
  evaluable plain_text ex_task_reg ex_cols ex_db pl_places pl_indexes pl_files /\ asymmetric Z.ltb /\
  evaluated string_dec plain_text pl_name Z.leb Z.ltb pl_distance ex_task_reg ex_cols ex_db pl_places pl_indexes pl_files (Some 1) p0_lines /\
  triplets_in (of_by (pl_name [7]) p0_lines) = 9 /\ (right_in (of_by (pl_name [7%Z]) p0_lines) == 4)%Q.
Proof.
  split; [exact p0_evaluable|]. split; [exact lt_asym|]. split; [exact p0_evaluated|]. split; reflexivity.
Qed.

(** C81: so these sums do not depend on the regressors of the task nor on those that are analysed. *)
Theorem C81_regressors :
  forall (tm L F V : Type) (leq : forall x y : L, {x = y} + {x <> y}) (plain : L -> bool) (name : key -> string),
    (forall k k', name k = name k' -> k = k') ->
  forall (tle : tm -> tm -> bool) (vlt : V -> V -> bool) (distance : option bool -> list F -> list F -> res V), asymmetric vlt ->
  forall T T' cols cols' db (places : list (Distances.item tm)) (indexes indexes' : list (string * list L)) files normalize lines lines',
    same_triplets T T' ->
    evaluable plain T cols db places indexes files -> evaluable plain T' cols' db places indexes' files ->
    evaluated leq plain name tle vlt distance T cols db places indexes files normalize lines ->
    evaluated leq plain name tle vlt distance T' cols' db places indexes' files normalize lines' ->
    forall k, triplets_in (of_by (name k) lines) = triplets_in (of_by (name k) lines') /\
              (right_in (of_by (name k) lines) == right_in (of_by (name k) lines'))%Q.
Proof. exact regressors. Qed.
Print Assumptions C81_regressors.

Example C81_regressors_ex :
  evaluable plain_text ex_task_reg ex_cols ex_db pl_places pl_indexes pl_files /\ asymmetric Z.ltb /\
  evaluated string_dec plain_text pl_name Z.leb Z.ltb pl_distance ex_task_reg ex_cols ex_db pl_places pl_indexes pl_files (Some 1) p0_lines /\
  evaluable plain_text ex_task_reg ex_cols ex_db pl_places r_indexes pl_files /\
  evaluated string_dec plain_text pl_name Z.leb Z.ltb pl_distance ex_task_reg ex_cols ex_db pl_places r_indexes pl_files (Some 1) r_lines /\
  map (fun ln => (l_n ln, l_score ln)) (of_by (pl_name [7]) p0_lines) = [(2, 0 # 4); (2, 1 # 4); (4, 6 # 8); (1, 1 # 2)] /\
  map (fun ln => (l_n ln, l_score ln)) (of_by (pl_name [7]) r_lines) = [(6, 6 # 12); (3, 2 # 6)].
Proof.
  split; [exact p0_evaluable|]. split; [exact lt_asym|]. split; [exact p0_evaluated|]. split; [exact r_evaluable|]. split; [exact r_evaluated|]. split; reflexivity.
Qed.

(** C81: ... nor do the sums over all the lines. *)
Theorem C81_whole :
  forall (tm L F V : Type) (leq : forall x y : L, {x = y} + {x <> y}) (plain : L -> bool) (name : key -> string),
    (forall k k', name k = name k' -> k = k') ->
  forall (tle : tm -> tm -> bool) (vlt : V -> V -> bool) (distance : option bool -> list F -> list F -> res V), asymmetric vlt ->
  forall T T' cols cols' db (places : list (Distances.item tm)) (indexes indexes' : list (string * list L)) files normalize lines lines',
    same_triplets T T' ->
    evaluable plain T cols db places indexes files -> evaluable plain T' cols' db places indexes' files ->
    evaluated leq plain name tle vlt distance T cols db places indexes files normalize lines ->
    evaluated leq plain name tle vlt distance T' cols' db places indexes' files normalize lines' ->
    triplets_in lines = triplets_in lines' /\ (right_in lines == right_in lines')%Q.
Proof. exact regressors_whole. Qed.
Print Assumptions C81_whole.

Example C81_whole_ex :
  evaluable plain_text ex_task_reg ex_cols ex_db pl_places pl_indexes pl_files /\ asymmetric Z.ltb /\
  evaluated string_dec plain_text pl_name Z.leb Z.ltb pl_distance ex_task_reg ex_cols ex_db pl_places pl_indexes pl_files (Some 1) p0_lines /\
  evaluable plain_text ex_task_reg ex_cols ex_db pl_places r_indexes pl_files /\
  evaluated string_dec plain_text pl_name Z.leb Z.ltb pl_distance ex_task_reg ex_cols ex_db pl_places r_indexes pl_files (Some 1) r_lines /\
  triplets_in p0_lines = 10 /\ triplets_in r_lines = 10 /\ (right_in p0_lines == 5)%Q /\ (right_in r_lines == 5)%Q.
Proof.
  split; [exact p0_evaluable|]. split; [exact lt_asym|]. split; [exact p0_evaluated|]. split; [exact r_evaluable|]. split; [exact r_evaluated|]. repeat split; reflexivity.
Qed.
