(** Model of bin/ABXrun.py, the program that runs the four steps. *)
From Coq Require Import Ascii String List Bool.
From Verif Require Import Prelude Text PyCall.
Import ListNotations.
Set Implicit Arguments.
Local Open Scope string_scope.

(** The values of the arguments: None, texts, lists of texts (filters, for instance) and
    functions. *)
Inductive pyval := PNone | PStr (s : string) | PList (l : list string) | PFun (name : string).

(** [bool(v)] *)
Definition truthy (v : pyval) : bool :=
  match v with
  | PNone => false
  | PStr s => negb (String.eqb s "")
  | PList l => match l with [] => false | _ => true end
  | PFun _ => true
  end.

(** [str(v)]; how lists and functions are printed is not modelled. *)
Definition to_str (show : pyval -> string) (v : pyval) : string :=
  match v with PNone => "None" | PStr s => s | _ => show v end.

Definition dict := list (string * pyval).

(** Lines 20-24: [get_arg]. *)
Definition get_arg (key : string) (args : dict) : pyval :=
  match assoc args key with Some v => v | None => PNone end.

(** [args[key]] *)
Definition item (args : dict) (key : string) : res pyval :=
  match assoc args key with Some v => Ok v | None => Err KeyError end.

(** [os.path.basename] *)
Definition basename (p : string) : string :=
  let i := rfind1 "/" p in substring i (String.length p - i) p.

(** Lines 16-17: [get_name]. *)
Definition get_name (filename : string) : string := splitext (basename filename).

(** ** What is called *)

(** task.py lines 187-188. *)
Definition task_params : list (parameter pyval) :=
  [("db_name", None); ("on", None); ("across", Some PNone); ("by", Some PNone);
   ("filters", Some PNone); ("regressors", Some PNone); ("verbose", Some PNone)].
(** task.py lines 673-674. *)
Definition generate_params : list (parameter pyval) :=
  [("output", Some PNone); ("threshold", Some PNone); ("tmpdir", Some PNone); ("seed", Some PNone)].
(** distances.py lines 282-284. *)
Definition distances_params : list (parameter pyval) :=
  [("feature_file", None); ("feature_group", None); ("pair_file", None); ("distance_file", None);
   ("distance", None); ("normalized", None); ("n_cpu", Some PNone); ("mem", Some PNone);
   ("feature_file_as_list", Some PNone)].
(** score.py line 51. *)
Definition score_params : list (parameter pyval) :=
  [("task_file", None); ("distance_file", None); ("score_file", Some PNone);
   ("score_group", Some (PStr "scores"))].
(** analyze.py line 142. *)
Definition analyze_params : list (parameter pyval) :=
  [("task_file", None); ("score_file", None); ("result_file", None)].

Inductive callee := Task | Generate | Distances | Score | Analyze.
Definition params_of (f : callee) : list (parameter pyval) :=
  match f with
  | Task => task_params
  | Generate => generate_params
  | Distances => distances_params
  | Score => score_params
  | Analyze => analyze_params
  end.

Section Run.
Variable St : Type.                                         (* all the files *)
Variable body : callee -> list pyval -> St -> St * res unit.  (* what a called function does *)
Variable show : pyval -> string.

Definition call (f : callee) (pos : list pyval) (kw : dict) (st : St) : St * res unit :=
  match bind_call (params_of f) pos kw with
  | Ok args => body f args st
  | Err e => (st, Err e)
  end.

(** One step after another. *)
Definition next (r : St * res unit) (k : St -> St * res unit) : St * res unit :=
  match snd r with Ok _ => k (fst r) | Err e => (fst r, Err e) end.

Definition default (v : pyval) (w : pyval) : pyval := if truthy v then v else w.

(** Lines 31-72: [test_analyze]. The [filter] of line 45 drops empty texts. *)
Definition test_analyze (itemfile featurefile : string) (args : dict)
  (taskfile distance distancefile scorefile analyzefile filename : pyval) (st : St) : St * res unit :=
  let on := get_arg "on" args in
  if negb (truthy on) then (st, Err AssertionError)
  else
    let across := get_arg "across" args in
    let by_ := get_arg "by" args in
    let filters := get_arg "filters" args in
    let reg := get_arg "reg" args in
    let filename := default filename
      (PStr (String.concat "_" (filter (fun s => negb (String.eqb s ""))
         [get_name itemfile; get_name featurefile; to_str show on; to_str show across; to_str show by_]))) in
    let distancefile := default distancefile (PStr (to_str show filename ++ ".distance")) in
    let scorefile := default scorefile (PStr (to_str show filename ++ ".score")) in
    let analyzefile := default analyzefile (PStr (to_str show filename ++ ".csv")) in
    next (call Task [PStr itemfile; on; across; by_; filters; reg] [("features", PStr featurefile)] st) (fun st =>
    next (call Generate [] [] st) (fun st =>
    let distance := default distance (PFun "dtw_cosine_distance") in
    next (call Distances [PStr featurefile; PStr "/features/"; taskfile; distancefile; distance] [] st) (fun st =>
    next (call Score [taskfile; distancefile; scorefile] [] st) (fun st =>
    call Analyze [scorefile; taskfile; analyzefile] [] st)))).

(** The command line. *)
Record argv := mk_argv {
  v_itemfile : string; v_featurefile : string; v_config : string;
  v_taskfile : option string; v_distancefile : option string; v_analyzefile : option string;
  v_scorefile : option string; v_distance : option string; v_name : option string
}.

Definition optional (v : option string) : pyval := match v with Some s => PStr s | None => PNone end.

(** Lines 75-134: [parse_args]: the keys are the names of the arguments, not their metavars. *)
Definition parse_args (v : argv) : dict :=
  [("itemfile", PStr (v_itemfile v)); ("featurefile", PStr (v_featurefile v)); ("config", PStr (v_config v));
   ("taskfile", optional (v_taskfile v)); ("distancefile", optional (v_distancefile v));
   ("analyzefile", optional (v_analyzefile v)); ("scorefile", optional (v_scorefile v));
   ("distance", optional (v_distance v)); ("name", optional (v_name v))].

(** [os.path.exists] and [json.load(open(configfile))] in a state. A file that cannot be
    opened ends the program normally (lines 152-154). *)
Variable exists_ : St -> string -> bool.
Variable load_json : St -> string -> res dict.

Definition text (v : pyval) : res string := match v with PStr s => Ok s | _ => Err TypeError end.

(** An argument of the command line or of the configuration. *)
Definition either (key : string) (args config : dict) : pyval := default (get_arg key args) (get_arg key config).

(** Lines 137-187: [main]. *)
Definition main (v : argv) (st : St) : St * res unit :=
  let args := parse_args v in
  let prepared :=
    itemfile <- item args "itemfile" ;;
    itemfile <- text itemfile ;;
    assert! exists_ st itemfile else AssertionError ;;
    featurefile <- item args "featurefile" ;;
    featurefile <- text featurefile ;;
    assert! exists_ st featurefile else AssertionError ;;
    configfile <- item args "configfile" ;;
    configfile <- text configfile ;;
    assert! exists_ st configfile else AssertionError ;;
    Ok (itemfile, featurefile, configfile) in
  match prepared with
  | Err e => (st, Err e)
  | Ok (itemfile, featurefile, configfile) =>
    match load_json st configfile with
    | Err IOError => (st, Ok tt)
    | Err e => (st, Err e)
    | Ok config =>
      if negb (truthy (get_arg "on" config)) then (st, Err AssertionError)
      else
        test_analyze itemfile featurefile config (either "taskfile" args config) (either "distance" args config)
          (either "distancefile" args config) (either "scorefile" args config)
          (either "analyzefile" args config) (either "filename" args config) st
    end
  end.

End Run.
