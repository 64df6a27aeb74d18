(** Concrete commands for the examples of [Props_StepCommands]. *)
From Coq Require Import Ascii String List Bool ZArith.
From Verif Require Import Prelude DistanceCommand Commands_spec StepCommands StepCommands_spec.
Import ListNotations.
Local Open Scope string_scope.

Definition sc_files : files string := fun n =>
  if String.eqb n "data/a.item" then Some "items" else if String.eqb n "data/a.abx" then Some "earlier task"
  else if String.eqb n "out.abx" then Some "another task" else if String.eqb n "data/a.distance" then Some "distances"
  else if String.eqb n "a.score" then Some "earlier scores" else if String.eqb n "a.csv" then Some "earlier analysis" else None.

Definition sc_world : world string := mk_world sc_files ["tmp"] None.

Definition sc_call (on : string) : task_call := mk_task_call "data/a.item" on ["talker"] [] [] [] false.
(** A task is its number of triplets here; there is no column "none", no triplet on "talker". *)
Definition sc_make (c : task_call) (fs : files string) : res Z :=
  if String.eqb (tc_on c) "none" then Err AssertionError
  else match fs (tc_database c) with Some _ => Ok (if String.eqb (tc_on c) "talker" then 0%Z else 12%Z) | None => Err IOError end.
Definition sc_write_task (T : Z) (threshold : option Z) (tmp : option string) (seed : option Z) (o : string) (w : world string)
  : files string * res unit :=
  (fun n => if String.eqb n o then Some "new task" else w_files w n, Ok tt).
Definition sc_task (output : option string) (on : string) (stats : bool) (tmp : option string) (seed : option Z) : task_options :=
  mk_task_options output (sc_call on) stats tmp None seed.
Definition sc_run (a : task_options) : world string * outcome :=
  task_main sc_make (fun T => T) (fun _ => "data/a.item") (fun _ => Ok tt) sc_write_task a sc_world.

Definition sc_write_scores (t d s : string) (fs : files string) : files string * res unit :=
  (fun n => if String.eqb n s then Some ("scores of " ++ t ++ " " ++ d) else fs n, Ok tt).
Definition sc_analyze (t s r : string) (fs : files string) : files string * res unit :=
  (fun n => if String.eqb n r then Some ("analysis of " ++ s ++ " " ++ t) else fs n, Ok tt).

Lemma stats_refuted :
  sc_files "out.abx" = Some "another task" /\
  let r := sc_run (sc_task (Some "out.abx") "phone" true None None) in
  w_files (fst r) "out.abx" = None /\ snd r = Returned.
Proof. repeat split. Qed.

Lemma refused_refuted :
  let r := sc_run (sc_task (Some "out.abx") "none" false None None) in
  w_files (fst r) "out.abx" = None /\ snd r = Raised AssertionError.
Proof. repeat split. Qed.

Lemma score_name_refuted :
  let r := score_files sc_write_scores "data/a.abx" "data/a.distance" None sc_files in
  fst r "data/a_data/a.score" = Some "scores of data/a.abx data/a.distance" /\ fst r "data/a_a.score" = None.
Proof. repeat split. Qed.
