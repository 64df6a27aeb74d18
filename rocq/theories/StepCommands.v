(** Model of the commands of ABXpy/task.py (lines 1339-1371), ABXpy/score.py (lines 122-143) and
    ABXpy/analyze.py (lines 188-207), with the part of the functions they call that chooses and
    checks the names of the files. *)
From Coq Require Import Ascii String List Bool ZArith.
From Verif Require Import Prelude Text DistanceCommand.
Import ListNotations.
Set Implicit Arguments.
Local Open Scope string_scope.

Section Commands.
Variable C : Type.                                    (* contents of files *)

(** [os.path.exists]. (Directories are apart, below.) *)
Definition present (fs : files C) (name : string) : bool :=
  match fs name with Some _ => true | None => false end.

Definition ends (r : files C * res unit) : files C * outcome :=
  (fst r, match snd r with Ok _ => Returned | Err e => Raised e end).

(** ** task.py *)
Variable Tk : Type.                                   (* tasks *)

(** The arguments given to [Task] (task.py lines 1351-1357). *)
Record task_call := mk_task_call {
  tc_database : string; tc_on : string; tc_across : list string; tc_by : list string;
  tc_filters : list string; tc_regressors : list string; tc_verbose : bool
}.
Variable make_task : task_call -> files C -> res Tk.
Variable nb_triplets : Tk -> Z.                       (* stats['nb_triplets'] *)
Variable database : Tk -> string.
Variable print_stats : Tk -> res unit.

(** The state: files, directories and the seed of the generator of numpy ([None]: some other). *)
Record world := mk_world { w_files : files C; w_dirs : list string; w_seed : option Z }.
Definition upd (w : world) (fs : files C) : world := mk_world fs (w_dirs w) (w_seed w).

(** Lines 718 and following: the triplets and pairs written to a new file. *)
Variable write_task : Tk -> option Z -> option string -> option Z -> string -> world -> files C * res unit.

(** task.py lines 697-717: [generate_triplets]. *)
Definition generate (T : Tk) (output : option string) (threshold : option Z) (tmpdir : option string)
           (seed : option Z) (w : world) : world * res unit :=
  let ok := match seed with Some s => (0 <=? s)%Z && (s <? 2 ^ 32)%Z | None => true end in
  if negb ok then (w, Err ValueError)
  else
    let w := mk_world (w_files w) (w_dirs w) seed in
    if (nb_triplets T =? 0)%Z then (w, Ok tt)
    else
      let output := match output with
                    | None => splitext (database T) ++ ".abx"
                    | Some o => o
                    end in
      if present (w_files w) output then (w, Err ValueError)
      else let r := write_task T threshold tmpdir seed output w in (upd w (fst r), snd r).

(** The arguments of the command, parsed (task.py lines 1280-1336). *)
Record task_options := mk_task_options {
  to_output : option string; to_call : task_call; to_stats_only : bool;
  to_tempdir : option string; to_threshold : option Z; to_seed : option Z
}.

(** The value of a text argument that is given is true when it is not empty. *)
Definition given (s : string) : bool := negb (String.eqb s "").

(** task.py lines 1344-1371. ([os.makedirs] does not fail; an output that is a directory is not
    modelled.) *)
Definition task_main (args : task_options) (w : world) : world * outcome :=
  let w :=
    match to_output args with
    | Some o => if given o && present (w_files w) o then upd w (remove (w_files w) o) else w
    | None => w
    end in
  match make_task (to_call args) (w_files w) with
  | Err e => (w, Raised e)
  | Ok T =>
    if to_stats_only args then
      (w, match print_stats T with Ok _ => Returned | Err e => Raised e end)
    else
      let w :=
        match to_tempdir args with
        | Some d =>
          if given d && negb (present (w_files w) d || existsb (String.eqb d) (w_dirs w))
          then mk_world (w_files w) (d :: w_dirs w) (w_seed w) else w
        | None => w
        end in
      let '(w, r) := generate T (to_output args) (to_threshold args) (to_tempdir args) (to_seed args) w in
      (w, match r with Ok _ => Returned | Err e => Raised e end)
  end.

(** ** score.py *)

(** score.py lines 75 and following: the scores written to a new file. *)
Variable write_scores : string -> string -> string -> files C -> files C * res unit.

(** score.py lines 64-74: [score]. *)
Definition score_files (task_file distance_file : string) (score_file : option string) (fs : files C)
  : files C * res unit :=
  let score_file := match score_file with
                    | None => splitext task_file ++ "_" ++ splitext distance_file ++ ".score"
                    | Some s => s
                    end in
  if negb (present fs task_file) then (fs, Err AssertionError)
  else if negb (present fs distance_file) then (fs, Err AssertionError)
  else if present fs score_file then (fs, Err AssertionError)
  else write_scores task_file distance_file score_file fs.

(** score.py lines 139-142; [os.path.exists(None)] is a TypeError. *)
Definition score_main (task distance : string) (score : option string) (fs : files C) : files C * outcome :=
  match score with
  | None => (fs, Raised TypeError)
  | Some s =>
    let fs := if present fs s then remove fs s else fs in
    ends (score_files task distance score fs)
  end.

(** ** analyze.py *)

(** analyze.py lines 138-167: [analyze]; the result file is opened for writing first. *)
Variable analyze : string -> string -> string -> files C -> files C * res unit.

(** analyze.py lines 188-207. *)
Definition analyze_main (score_file task_file result_file : string) (fs : files C) : files C * outcome :=
  if negb (present fs score_file) then (fs, Exited)
  else if negb (present fs task_file) then (fs, Exited)
  else
    let fs := if present fs result_file then remove fs result_file else fs in
    ends (analyze task_file score_file result_file fs).

End Commands.
