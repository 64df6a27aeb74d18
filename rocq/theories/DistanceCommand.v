(** Model of [run] and [main] of ABXpy/distance.py (lines 72-155): the choice of the distance
    and the output file of the command. *)
From Coq Require Import Ascii String List Bool ZArith.
From Verif Require Import Prelude Text.
Import ListNotations.
Set Implicit Arguments.
Local Open Scope string_scope.

(** [s.split(c)] for a single character. *)
Fixpoint split_on (c : ascii) (s : string) : list string :=
  match s with
  | EmptyString => [""]
  | String a s' =>
    if Ascii.eqb a c then "" :: split_on c s'
    else match split_on c s' with
         | t :: ts => String a t :: ts
         | [] => [String a ""]
         end
  end.

(** [s.rstrip(c)] *)
Fixpoint rstrip (c : ascii) (s : string) : string :=
  match s with
  | EmptyString => ""
  | String a s' =>
    match rstrip c s' with
    | EmptyString => if Ascii.eqb a c then "" else String a ""
    | t => String a t
    end
  end.

(** [os.path.split] on a posix system. *)
Definition path_split (p : string) : string * string :=
  let i := rfind1 "/" p in
  let head := substring 0 i p in
  let tail := substring i (String.length p - i) p in
  if forallb (Ascii.eqb "/") (list_ascii_of_string head) then (head, tail)
  else (rstrip "/" head, tail).

(** The distance that lines 75-90 choose: one of this module, or a function of a module of the
    user, with the directory put first in [sys.path]. *)
Inductive chosen := Default | Levenshtein | DtwKl | Imported (path module fun_ : string).

Definition choose (distance : option string) : res chosen :=
  match distance with
  | None => Ok Default
  | Some d =>
    if String.eqb d "" then Ok Default
    else if String.eqb d "levenshtein" then Ok Levenshtein
    else if String.eqb d "dtw_kl" then Ok DtwKl
    else
      let distancepair := split_on "." d in
      distancemodule <- nth_res distancepair 0 ;;
      distancefunction <- nth_res distancepair 1 ;;
      let '(path, module) := path_split distancemodule in
      Ok (Imported path module distancefunction)
  end.

Section Command.
Variable D : Type.                                    (* functions *)
Variable default_distance edit_distance dtw_kl_distance : D.
(** [getattr(__import__(module), fun)] with [path] first in [sys.path]. *)
Variable import : string -> string -> string -> res D.
Variable C : Type.                                    (* contents of files *)

(** The files by name. *)
Definition files := string -> option C.
Definition remove (fs : files) (name : string) : files :=
  fun n => if String.eqb n name then None else fs n.

(** The arguments of [compute_distances] (lines 92-94). *)
Record call := mk_call {
  c_features : string; c_group : string; c_task : string; c_output : string;
  c_distance : D; c_normalized : option Z; c_cpus : Z
}.
Variable compute_distances : call -> files -> files * res unit.

(** Lines 72-94. *)
Definition run (features task output : string) (normalized : option Z) (distance : option string)
           (njobs : Z) (group : string) (fs : files) : files * res unit :=
  let distancefun :=
    ch <- choose distance ;;
    match ch with
    | Default => Ok default_distance
    | Levenshtein => Ok edit_distance
    | DtwKl => Ok dtw_kl_distance
    | Imported path module f => import path module f
    end in
  match distancefun with
  | Err e => (fs, Err e)
  | Ok d => compute_distances (mk_call features group task output d normalized njobs) fs
  end.

(** The arguments of the command, parsed (lines 98-136). *)
Record options := mk_options {
  o_features : string; o_group : string; o_task : string; o_output : string;
  o_distance : option string; o_njobs : Z; o_normalization : option Z
}.

(** How the command ends; [sys.exit] with a message is [Exited]. *)
Inductive outcome := Returned | Raised (e : exn) | Exited.

(** Lines 138-151. (An output that is a directory is not modelled.) *)
Definition main (args : options) (fs : files) : files * outcome :=
  let fs := match fs (o_output args) with
            | Some _ => remove fs (o_output args)
            | None => fs
            end in
  match o_distance args, o_normalization args with
  | None, None => (fs, Exited)
  | _, _ =>
    let '(fs, r) := run (o_features args) (o_task args) (o_output args) (o_normalization args)
                        (o_distance args) (o_njobs args) (o_group args) fs in
    (fs, match r with Ok _ => Returned | Err e => Raised e end)
  end.

End Command.
