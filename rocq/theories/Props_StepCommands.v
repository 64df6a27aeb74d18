(** Property theorems: the commands of the steps (C64). *)
From Coq Require Import Ascii String List Bool ZArith.
From Verif Require Import Prelude DistanceCommand Commands_spec StepCommands StepCommands_spec StepCommands_proofs StepCommands_ex.
Import ListNotations.
Local Open Scope string_scope.

(** C64: the task command makes the task from the files without the output it was given, and, with
    a seed that numpy takes, writes its triplets to that output or to one named after the item
    file, which it does not overwrite; without triplets it writes nothing. *)
Theorem C64_task : forall (C Tk : Type) make_task nb_triplets database print_stats write_task args (w : world C),
  to_stats_only args = false -> exists fs' dirs',
  cleared (w_files w) fs' (to_output args) /\ with_tempdir fs' (w_dirs w) dirs' (to_tempdir args) /\
  forall T : Tk, make_task (to_call args) fs' = Ok T ->
  (~ good_seed (to_seed args) ->
   task_main make_task nb_triplets database print_stats write_task args w = (mk_world fs' dirs' (w_seed w), Raised ValueError)) /\
  (good_seed (to_seed args) -> let w' := mk_world fs' dirs' (to_seed args) in
   (nb_triplets T = 0%Z -> task_main make_task nb_triplets database print_stats write_task args w = (w', Returned)) /\
   (nb_triplets T <> 0%Z -> forall o,
    to_output args = Some o \/
    to_output args = None /\ (exists dir s e, dir_part dir /\ plain_stem s /\ plain_ext e /\
                              database T = dir ++ s ++ "." ++ e /\ o = dir ++ s ++ ".abx") ->
    (fs' o <> None -> task_main make_task nb_triplets database print_stats write_task args w = (w', Raised ValueError)) /\
    (fs' o = None ->
     let r := write_task T (to_threshold args) (to_tempdir args) (to_seed args) o w' in
     task_main make_task nb_triplets database print_stats write_task args w
     = (mk_world (fst r) dirs' (to_seed args), match snd r with Ok _ => Returned | Err e => Raised e end)))).
Proof. exact @task_runs. Qed.
Print Assumptions C64_task.

Example C64_task_ex :
  (let r := sc_run (sc_task (Some "out.abx") "phone" false (Some "tmp2") (Some 3%Z)) in
   (w_files (fst r) "out.abx", w_dirs (fst r), w_seed (fst r), snd r) = (Some "new task", ["tmp2"; "tmp"], Some 3%Z, Returned)) /\
  (let r := sc_run (sc_task None "phone" false (Some "tmp") None) in
   (w_files (fst r) "data/a.abx", w_dirs (fst r), snd r) = (Some "earlier task", ["tmp"], Raised ValueError)) /\
  (let r := sc_run (sc_task (Some "out.abx") "talker" false None None) in
   (w_files (fst r) "out.abx", snd r) = (None, Returned)) /\
  snd (sc_run (sc_task (Some "out.abx") "phone" false None (Some (2 ^ 32)%Z))) = Raised ValueError.
Proof. repeat split. Qed.

(** C64: when the task cannot be made its exception is raised, ... *)
Theorem C64_task_stops : forall (C Tk : Type) make_task nb_triplets database print_stats write_task args (w : world C),
  exists fs', cleared (w_files w) fs' (to_output args) /\
  forall e, make_task (to_call args) fs' = Err e ->
  task_main make_task nb_triplets database print_stats (write_task : Tk -> _) args w
  = (mk_world fs' (w_dirs w) (w_seed w), Raised e).
Proof. exact @task_stops. Qed.
Print Assumptions C64_task_stops.

Example C64_task_stops_ex : snd (sc_run (sc_task None "none" false None None)) = Raised AssertionError.
Proof. reflexivity. Qed.

(** ... and with --stats-only the statistics are printed and no triplet is written. *)
Theorem C64_stats_only : forall (C Tk : Type) make_task nb_triplets database print_stats write_task args (w : world C),
  to_stats_only args = true -> exists fs',
  cleared (w_files w) fs' (to_output args) /\
  forall T : Tk, make_task (to_call args) fs' = Ok T ->
  task_main make_task nb_triplets database print_stats write_task args w
  = (mk_world fs' (w_dirs w) (w_seed w), match print_stats T with Ok _ => Returned | Err e => Raised e end).
Proof. exact @task_stats. Qed.
Print Assumptions C64_stats_only.

Example C64_stats_only_ex :
  let r := sc_run (sc_task None "phone" true None None) in
  (w_files (fst r) "data/a.abx", w_files (fst r) "out.abx", snd r) = (Some "earlier task", Some "another task", Returned).
Proof. reflexivity. Qed.

(** C64: that the earlier task is kept is false with --stats-only, which removes the named
    output, ... *)
Theorem C64_stats_only_refuted :
  sc_files "out.abx" = Some "another task" /\
  let r := sc_run (sc_task (Some "out.abx") "phone" true None None) in
  w_files (fst r) "out.abx" = None /\ snd r = Returned.
Proof. exact stats_refuted. Qed.
Print Assumptions C64_stats_only_refuted.

Example C64_stats_only_refuted_ex : sc_make (sc_call "phone") sc_files = Ok 12%Z.
Proof. reflexivity. Qed.

(** ... and when the task is refused. *)
Theorem C64_task_kept_refuted :
  let r := sc_run (sc_task (Some "out.abx") "none" false None None) in
  w_files (fst r) "out.abx" = None /\ snd r = Raised AssertionError.
Proof. exact refused_refuted. Qed.
Print Assumptions C64_task_kept_refuted.

Example C64_task_kept_refuted_ex : sc_files "out.abx" = Some "another task".
Proof. reflexivity. Qed.

(** C64: the score command writes to the named file, new, or raises AssertionError when the task
    or the distances are missing (when they are the output, too). *)
Theorem C64_score : forall (C : Type) write_scores task distance s (fs : files C),
  exists fs', without fs fs' s /\
  (fs' task = None \/ fs' distance = None -> score_main write_scores task distance (Some s) fs = (fs', Raised AssertionError)) /\
  (fs' task <> None -> fs' distance <> None ->
   score_main write_scores task distance (Some s) fs =
   let r := write_scores task distance s fs' in (fst r, match snd r with Ok _ => Returned | Err e => Raised e end)).
Proof. exact @score_runs. Qed.
Print Assumptions C64_score.

Example C64_score_ex :
  (let r := score_main sc_write_scores "data/a.abx" "data/a.distance" (Some "a.score") sc_files in
   (fst r "a.score", snd r) = (Some "scores of data/a.abx data/a.distance", Returned)) /\
  (let r := score_main sc_write_scores "b.abx" "data/a.distance" (Some "a.score") sc_files in
   (fst r "a.score", snd r) = (None, Raised AssertionError)).
Proof. split; reflexivity. Qed.

(** C64: that the score file can be omitted is false of the command: TypeError. *)
Theorem C64_score_omitted_refuted : forall (C : Type) write_scores task distance (fs : files C),
  score_main write_scores task distance None fs = (fs, Raised TypeError).
Proof. exact @score_omitted. Qed.
Print Assumptions C64_score_omitted_refuted.

Example C64_score_omitted_refuted_ex :
  snd (score_main sc_write_scores "data/a.abx" "data/a.distance" None sc_files) = Raised TypeError.
Proof. reflexivity. Qed.

(** C64: the function score names an omitted score file after the paths of the task and of the
    distances, both with their directories, and does not overwrite it. *)
Theorem C64_score_name : forall (C : Type) write_scores dt st et dd sd ed (fs : files C),
  dir_part dt -> plain_stem st -> plain_ext et -> dir_part dd -> plain_stem sd -> plain_ext ed ->
  let task := dt ++ st ++ "." ++ et in let distance := dd ++ sd ++ "." ++ ed in
  let name := dt ++ st ++ "_" ++ dd ++ sd ++ ".score" in
  fs task <> None -> fs distance <> None ->
  (fs name <> None -> score_files write_scores task distance None fs = (fs, Err AssertionError)) /\
  (fs name = None -> score_files write_scores task distance None fs = write_scores task distance name fs).
Proof. exact @score_default. Qed.
Print Assumptions C64_score_name.

Example C64_score_name_ex :
  let fs := fun n => if (String.eqb n "a.abx" || String.eqb n "b.distance")%bool then Some "x" else None in
  fst (score_files sc_write_scores "a.abx" "b.distance" None fs) "a_b.score" = Some "scores of a.abx b.distance".
Proof. reflexivity. Qed.

(** C64: that it is beside the task file is false when the distances are in a directory. *)
Theorem C64_score_name_refuted :
  let r := score_files sc_write_scores "data/a.abx" "data/a.distance" None sc_files in
  fst r "data/a_data/a.score" = Some "scores of data/a.abx data/a.distance" /\ fst r "data/a_a.score" = None.
Proof. exact score_name_refuted. Qed.
Print Assumptions C64_score_name_refuted.

Example C64_score_name_refuted_ex : sc_files "data/a.abx" = Some "earlier task" /\ sc_files "data/a.distance" = Some "distances".
Proof. split; reflexivity. Qed.

(** C64: the analyze command writes to the named file, new; ... *)
Theorem C64_analyze : forall (C : Type) analyze score task result (fs : files C),
  fs score <> None -> fs task <> None ->
  exists fs', without fs fs' result /\
  analyze_main analyze score task result fs =
  let r := analyze task score result fs' in (fst r, match snd r with Ok _ => Returned | Err e => Raised e end).
Proof. exact @analyze_runs. Qed.
Print Assumptions C64_analyze.

Example C64_analyze_ex :
  let r := analyze_main sc_analyze "a.score" "data/a.abx" "a.csv" sc_files in
  (fst r "a.csv", snd r) = (Some "analysis of a.score data/a.abx", Returned).
Proof. reflexivity. Qed.

(** ... without the scores or the task, it stops and keeps the earlier analysis. *)
Theorem C64_analyze_missing : forall (C : Type) analyze score task result (fs : files C),
  fs score = None \/ fs task = None -> analyze_main analyze score task result fs = (fs, Exited).
Proof. exact @analyze_missing. Qed.
Print Assumptions C64_analyze_missing.

Example C64_analyze_missing_ex :
  let r := analyze_main sc_analyze "a.score" "b.abx" "a.csv" sc_files in (fst r "a.csv", snd r) = (Some "earlier analysis", Exited).
Proof. reflexivity. Qed.
