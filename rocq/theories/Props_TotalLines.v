(** Property theorems: the whole result of an evaluation as answers for lines of the item file (C95). *)
From Coq Require Import String.
From Coq Require Import List ZArith QArith.
From Verif Require Import Prelude Task Task_spec Task_ex Distances Distances_spec Score Score_spec Analyze Analyze_spec H5io H5io_ex
  Pipeline Pipeline_spec Pipeline_ex Pipeline_same_spec Pipeline_same_ex Pipeline_scores_spec Pipeline_scores Pipeline_scores_ex TaskLines_spec
  TotalLines_spec TotalLines_main TotalLines_ex.
Import ListNotations.
Open Scope string_scope.
Open Scope list_scope.
Open Scope Z_scope.

(** C95: the numbers of all the lines of a result sum to the number of triples of lines of the item file
    that are triplets of the task, and the scores multiplied by these numbers sum to the right answers
    for these triples, equal distances counting one half. *)
Theorem C95_whole :
  forall (tm L F V : Type) (leq : forall x y : L, {x = y} + {x <> y}) (plain : L -> bool) (name : key -> string),
    (forall k k', name k = name k' -> k = k') ->
  forall (tle : tm -> tm -> bool) (vlt : V -> V -> bool) (distance : option bool -> list F -> list F -> res V), asymmetric vlt ->
  forall T cols db (places : list (Distances.item tm)) (indexes : list (string * list L)) files normalize,
    evaluable plain T cols db places indexes files ->
  forall lines, evaluated leq plain name tle vlt distance T cols db places indexes files normalize lines ->
  exists ls answers, NoDup ls /\ (forall l, In l ls <-> abx_lines T db l) /\
    Forall2 (line_answer tle vlt distance places files normalize) ls answers /\
    triplets_in lines = Zlen ls /\
    (right_in lines == inject_Z (howmany 1 answers) + (1 # 2) * inject_Z (howmany 0 answers))%Q.
Proof. exact whole_lines. Qed.
Print Assumptions C95_whole.

Example C95_whole_ex :
  evaluable plain_text ex_task_reg ex_cols ex_db pl_places pl_indexes pl_files /\ asymmetric Z.ltb /\
  evaluated string_dec plain_text pl_name Z.leb Z.ltb pl_distance ex_task_reg ex_cols ex_db pl_places pl_indexes pl_files (Some 1) p0_lines /\
  triplets_in p0_lines = 10 /\ (right_in p0_lines == 5)%Q.
Proof.
  split; [exact p0_evaluable|]. split; [exact lt_asym|]. split; [exact p0_evaluated|]. split; reflexivity.
Qed.

(** C95: a task whose triples of lines are among those of another has no more triplets, no more right
    answers and no more wrong ones. *)
Theorem C95_fewer :
  forall (tm L F V : Type) (leq : forall x y : L, {x = y} + {x <> y}) (plain : L -> bool) (name : key -> string),
    (forall k k', name k = name k' -> k = k') ->
  forall (tle : tm -> tm -> bool) (vlt : V -> V -> bool) (distance : option bool -> list F -> list F -> res V), asymmetric vlt ->
  forall T T' cols cols' db (places : list (Distances.item tm)) (indexes indexes' : list (string * list L)) files normalize lines lines',
    evaluable plain T cols db places indexes files -> evaluable plain T' cols' db places indexes' files ->
    evaluated leq plain name tle vlt distance T cols db places indexes files normalize lines ->
    evaluated leq plain name tle vlt distance T' cols' db places indexes' files normalize lines' ->
    (forall l, abx_lines T' db l -> abx_lines T db l) ->
    triplets_in lines' <= triplets_in lines /\ (right_in lines' <= right_in lines)%Q /\
    (inject_Z (triplets_in lines') - right_in lines' <= inject_Z (triplets_in lines) - right_in lines)%Q.
Proof. exact fewer_lines. Qed.
Print Assumptions C95_fewer.

Example C95_fewer_ex :
  evaluable plain_text ex_task_reg ex_cols ex_db pl_places pl_indexes pl_files /\ asymmetric Z.ltb /\
  evaluated string_dec plain_text pl_name Z.leb Z.ltb pl_distance ex_task_reg ex_cols ex_db pl_places pl_indexes pl_files (Some 1) p0_lines /\
  evaluable plain_text strict_task ex_cols ex_db pl_places pl_indexes pl_files /\
  evaluated string_dec plain_text pl_name Z.leb Z.ltb pl_distance strict_task ex_cols ex_db pl_places pl_indexes pl_files (Some 1) strict_lines /\
  (forall l, abx_lines strict_task ex_db l -> abx_lines ex_task_reg ex_db l) /\
  triplets_in p0_lines = 10 /\ triplets_in strict_lines = 6 /\ (right_in p0_lines == 5)%Q /\ (right_in strict_lines == 5 # 2)%Q.
Proof.
  split; [exact p0_evaluable|]. split; [exact lt_asym|]. split; [exact p0_evaluated|]. split; [exact strict_evaluable|].
  split; [exact strict_evaluated|]. split; [exact strict_fewer|]. repeat split; reflexivity.
Qed.

(** C95: tasks with the same triples of lines, however they are written and whatever their by columns
    and regressors, have as many triplets and the same right answers. *)
Theorem C95_same :
  forall (tm L F V : Type) (leq : forall x y : L, {x = y} + {x <> y}) (plain : L -> bool) (name : key -> string),
    (forall k k', name k = name k' -> k = k') ->
  forall (tle : tm -> tm -> bool) (vlt : V -> V -> bool) (distance : option bool -> list F -> list F -> res V), asymmetric vlt ->
  forall T T' cols cols' db (places : list (Distances.item tm)) (indexes indexes' : list (string * list L)) files normalize lines lines',
    evaluable plain T cols db places indexes files -> evaluable plain T' cols' db places indexes' files ->
    evaluated leq plain name tle vlt distance T cols db places indexes files normalize lines ->
    evaluated leq plain name tle vlt distance T' cols' db places indexes' files normalize lines' ->
    (forall l, abx_lines T' db l <-> abx_lines T db l) ->
    triplets_in lines' = triplets_in lines /\ (right_in lines' == right_in lines)%Q.
Proof. exact equal_lines. Qed.
Print Assumptions C95_same.

Example C95_same_ex :
  evaluable plain_text ex_task_reg ex_cols ex_db pl_places pl_indexes pl_files /\ asymmetric Z.ltb /\
  evaluated string_dec plain_text pl_name Z.leb Z.ltb pl_distance ex_task_reg ex_cols ex_db pl_places pl_indexes pl_files (Some 1) p0_lines /\
  evaluable plain_text twice_task ex_cols ex_db pl_places pl_indexes pl_files /\
  evaluated string_dec plain_text pl_name Z.leb Z.ltb pl_distance twice_task ex_cols ex_db pl_places pl_indexes pl_files (Some 1) twice_lines /\
  (forall l, abx_lines twice_task ex_db l <-> abx_lines ex_task_reg ex_db l) /\
  t_across twice_task = ["talker"; "talker"] /\ t_across ex_task_reg = ["talker"] /\ triplets_in twice_lines = 10 /\ (right_in twice_lines == 5)%Q.
Proof.
  split; [exact p0_evaluable|]. split; [exact lt_asym|]. split; [exact p0_evaluated|]. split; [exact twice_evaluable|].
  split; [exact twice_evaluated|]. split; [exact twice_same|]. repeat split; reflexivity.
Qed.
