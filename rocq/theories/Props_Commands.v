(** Properties of the commands (C60, C61, C62). *)
From Coq Require Import Ascii String List Bool ZArith Reals.
From Verif Require Import Prelude Metrics Dtw DefaultDistance Distances DistanceCommand RunAll Commands_spec Commands_proofs Commands_ex.
Import ListNotations.
Local Open Scope string_scope.

(** C60: without a name, or with an empty one, the default distance is chosen; the two
    documented names choose the other ones. *)
Theorem C60_names : choose None = Ok Default /\ choose (Some "") = Ok Default /\
  choose (Some "levenshtein") = Ok Levenshtein /\ choose (Some "dtw_kl") = Ok DtwKl.
Proof. exact choose_names. Qed.
Example C60_names_ex : choose (Some "Levenshtein") = Err IndexError.
Proof. reflexivity. Qed.
Print Assumptions C60_names.

(** C60: module.function chooses the function of the module. *)
Theorem C60_module : forall m f, no_char "." m -> no_char "/" m -> no_char "." f ->
  choose (Some (m ++ "." ++ f)) = Ok (Imported "" m f).
Proof. exact choose_plain. Qed.
Example C60_module_ex : choose (Some "my_distances.cosine") = Ok (Imported "" "my_distances" "cosine").
Proof. reflexivity. Qed.
Print Assumptions C60_module.

(** C60: directory/module.function chooses the function of the module of the directory, if
    there is no dot in the name of the directory. Missing: the other directories (false, see
    below). *)
Theorem C60_directory_partial : forall d a m f, a <> "/"%char -> no_char "." d -> a <> "."%char ->
  no_char "." m -> no_char "/" m -> no_char "." f ->
  choose (Some ((d ++ String a "") ++ "/" ++ m ++ "." ++ f)) = Ok (Imported (d ++ String a "") m f).
Proof. exact choose_dir. Qed.
Example C60_directory_partial_ex : choose (Some "/home/me/distances/mine.cosine") = Ok (Imported "/home/me/distances" "mine" "cosine").
Proof. reflexivity. Qed.
Print Assumptions C60_directory_partial.

(** C60 is false of directories with a dot in their names, as those relative to the current one:
    another module is looked for in another directory. *)
Theorem C60_directory_refuted : choose (Some "./mydistances.cosine") = Ok (Imported "" "" "/mydistances") /\
  choose (Some "/home/v1.0/mydistances.cosine") = Ok (Imported "/home" "v1" "0/mydistances").
Proof. exact choose_dotted. Qed.
Example C60_directory_refuted_ex : choose (Some "sub/mydistances.cosine") = Ok (Imported "sub" "mydistances" "cosine").
Proof. reflexivity. Qed.
Print Assumptions C60_directory_refuted.

(** C60: what follows a second dot is ignored. *)
Theorem C60_parts : forall m f rest, no_char "." m -> no_char "." f -> (rest = "" \/ exists r, rest = String "." r) ->
  choose (Some (m ++ "." ++ f ++ rest)) = Ok (Imported (fst (path_split m)) (snd (path_split m)) f).
Proof. exact choose_parts. Qed.
Example C60_parts_ex : choose (Some "pkg//module.fun.other") = Ok (Imported "pkg" "module" "fun") /\
  choose (Some "//module.fun") = Ok (Imported "//" "module" "fun").
Proof. split; reflexivity. Qed.
Print Assumptions C60_parts.

(** C60: any other name raises IndexError. *)
Theorem C60_other_name : forall d, no_char "." d -> d <> "" -> d <> "levenshtein" -> d <> "dtw_kl" ->
  choose (Some d) = Err IndexError.
Proof. exact choose_no_dot. Qed.
Example C60_other_name_ex : choose (Some "cosine") = Err IndexError.
Proof. reflexivity. Qed.
Print Assumptions C60_other_name.

(** C60: with -n, the default distance and the one with divergences normalise unless the value
    is 0; without it the former cannot be called and the latter normalises; the Levenshtein
    distance cannot be called with -n. *)
Theorem C60_normalisation : forall empty eval (x y : mat),
  (forall n, call_default empty (normalized_arg (Some n)) x y = default_distance empty x y (negb (n =? 0)%Z)) /\
  call_default empty (normalized_arg None) x y = Err TypeError /\
  (forall n, call_kl empty (normalized_arg (Some n)) x y
             = (r <- dtw_kl_distance empty [x; y] 0 1 (negb (n =? 0)%Z) ;; Ok (snd r))) /\
  call_kl empty (normalized_arg None) x y = (r <- dtw_kl_distance empty [x; y] 0 1 true ;; Ok (snd r)) /\
  (forall n, call_edit eval (normalized_arg (Some n)) x y = Err TypeError) /\
  call_edit eval (normalized_arg None) x y = edit_distance eval x y.
Proof. exact normalisation. Qed.
Example C60_normalisation_ex : normalized_arg (Some 0%Z) = Some false /\ normalized_arg (Some 7%Z) = Some true.
Proof. split; reflexivity. Qed.
Print Assumptions C60_normalisation.

(** C60: the Levenshtein distance of items with frames is that of the library, otherwise it is
    as the other ones. *)
Theorem C60_levenshtein : forall eval (x y : mat),
  (m_rows x <> [] -> m_rows y <> [] -> edit_distance eval x y = Ok (Value (eval (m_rows x) (m_rows y)))) /\
  (m_rows x = [] -> m_rows y = [] -> edit_distance eval x y = Ok (Value (Some 0%R))) /\
  (m_rows x = [] -> m_rows y <> [] -> edit_distance eval x y = Ok Infinite) /\
  (m_rows x <> [] -> m_rows y = [] -> edit_distance eval x y = Ok Infinite).
Proof. exact edit_value. Qed.
Example C60_levenshtein_ex :
  edit_distance (fun a b => Some (INR (List.length a + List.length b))) (mk_mat Integer 1 [[Some 3%R]]) (mk_mat Integer 1 [[None]; [None]])
  = Ok (Value (Some (INR 3))).
Proof. reflexivity. Qed.
Print Assumptions C60_levenshtein.

(** C61: the command computes the distances as asked, the output file being new, and its result
    is that of the computation. *)
Theorem C61_runs : forall (D C : Type) (dd ed kd : D) (import : string -> string -> string -> res D)
  (compute : DistanceCommand.call D -> files C -> files C * res unit) args fs ch d,
  o_distance args <> None \/ o_normalization args <> None ->
  choose (o_distance args) = Ok ch -> function_of dd ed kd import ch = Ok d ->
  exists fs', without fs fs' (o_output args) /\
  DistanceCommand.main dd ed kd import compute args fs =
  let r := compute (mk_call (o_features args) (o_group args) (o_task args) (o_output args) d (o_normalization args) (o_njobs args)) fs' in
  (fst r, match snd r with Ok _ => Returned | Err e => Raised e end).
Proof. exact main_runs. Qed.
Example C61_runs_ex :
  let r := DistanceCommand.main "cosine" "edit" "kl" ex_import ex_compute ex_options ex_files in
  (fst r "out.dist", fst r "in.abx", snd r) = (Some "kl 1 cpu 4", Some "triplets", Returned).
Proof. reflexivity. Qed.
Print Assumptions C61_runs.

(** C61: when the distance cannot be found its exception is raised. *)
Theorem C61_fails : forall (D C : Type) (dd ed kd : D) (import : string -> string -> string -> res D)
  (compute : DistanceCommand.call D -> files C -> files C * res unit) args fs e,
  o_distance args <> None \/ o_normalization args <> None ->
  (ch <- choose (o_distance args) ;; function_of dd ed kd import ch) = Err e ->
  exists fs', without fs fs' (o_output args) /\ DistanceCommand.main dd ed kd import compute args fs = (fs', Raised e).
Proof. exact main_fails. Qed.
Example C61_fails_ex :
  snd (DistanceCommand.main "cosine" "edit" "kl" ex_import ex_compute (ex_with (Some "cosine") (Some 1%Z)) ex_files) = Raised IndexError /\
  snd (DistanceCommand.main "cosine" "edit" "kl" ex_import ex_compute (ex_with (Some "my.dist") None) ex_files) = Raised AttributeError.
Proof. split; reflexivity. Qed.
Print Assumptions C61_fails.

(** C61: without -d and -n the command stops. *)
Theorem C61_exits : forall (D C : Type) (dd ed kd : D) (import : string -> string -> string -> res D)
  (compute : DistanceCommand.call D -> files C -> files C * res unit) args fs,
  o_distance args = None -> o_normalization args = None ->
  exists fs', without fs fs' (o_output args) /\ DistanceCommand.main dd ed kd import compute args fs = (fs', Exited).
Proof. exact main_exits. Qed.
Example C61_exits_ex :
  snd (DistanceCommand.main "cosine" "edit" "kl" ex_import ex_compute (ex_with None None) ex_files) = Exited.
Proof. reflexivity. Qed.
Print Assumptions C61_exits.

(** C61: that a command that is refused keeps the distances computed before is false: the file
    is removed first. *)
Theorem C61_kept_refuted :
  ex_files "out.dist" = Some "earlier distances" /\
  let r := DistanceCommand.main "cosine" "edit" "kl" ex_import ex_compute (ex_with None None) ex_files in
  (fst r "out.dist", snd r) = (None, Exited).
Proof. exact kept_refuted. Qed.
Example C61_kept_refuted_ex : o_output (ex_with None None) = "out.dist".
Proof. reflexivity. Qed.
Print Assumptions C61_kept_refuted.

(** C62: the program that runs the four steps never runs one: it raises AssertionError when a
    file is missing, else KeyError, whatever its arguments and the files. *)
Theorem C62_raises : forall (St : Type) (body : callee -> list pyval -> St -> St * res unit) show exists_ load_json v st,
  RunAll.main body show exists_ load_json v st
  = (st, Err (if exists_ st (v_itemfile v) && exists_ st (v_featurefile v) then KeyError else AssertionError)).
Proof. exact run_all_raises. Qed.
Example C62_raises_ex :
  RunAll.main ex_body ex_show (fun _ _ => true) (fun _ _ => Ok [("on", PStr "c0")]) ex_argv [] = ([], Err KeyError).
Proof. reflexivity. Qed.
Print Assumptions C62_raises.

(** C62: nor does its function for the four steps, which gives to the task an argument that it
    does not have: TypeError, or AssertionError when the configuration has no column for on. *)
Theorem C62_steps_raise : forall (St : Type) (body : callee -> list pyval -> St -> St * res unit) show
  itemfile featurefile args taskfile distance distancefile scorefile analyzefile filename st,
  let r := test_analyze body show itemfile featurefile args taskfile distance distancefile scorefile analyzefile filename st in
  ((forall v, In ("on", v) args -> v = PNone \/ v = PStr "" \/ v = PList []) -> r = (st, Err AssertionError)) /\
  (NoDup (map fst args) ->
   forall v, In ("on", v) args -> v <> PNone -> v <> PStr "" -> v <> PList [] -> r = (st, Err TypeError)).
Proof. exact test_analyze_raises. Qed.
Example C62_steps_raise_ex :
  test_analyze ex_body ex_show "data.item" "data.features" [("on", PStr "c0"); ("by", PStr "c1")]
    (PStr "data.abx") PNone PNone PNone PNone PNone [] = ([], Err TypeError) /\
  test_analyze ex_body ex_show "data.item" "data.features" [("on", PList ["c0"])]
    (PStr "data.abx") PNone PNone PNone PNone PNone [] = ([], Err TypeError) /\
  test_analyze ex_body ex_show "data.item" "data.features" [("by", PStr "c1")]
    (PStr "data.abx") PNone PNone PNone PNone PNone [] = ([], Err AssertionError).
Proof. repeat split. Qed.
Print Assumptions C62_steps_raise.

(** C62 is thus false: with all the files and a configuration, it does not return. *)
Theorem C62_complete_run_refuted :
  ~ (forall v : argv, exists st, RunAll.main ex_body ex_show (fun _ _ => true) (fun _ _ => Ok [("on", PStr "c0")]) v [] = (st, Ok tt)).
Proof. exact complete_run_refuted. Qed.
Example C62_complete_run_refuted_ex : v_config ex_argv = "data.conf".
Proof. reflexivity. Qed.
Print Assumptions C62_complete_run_refuted.
