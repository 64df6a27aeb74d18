(** Property theorems: filters and regressors given as texts (C96). *)
From Coq Require Import String.
From Coq Require Import List ZArith Permutation.
From Verif Require Import Prelude Sampler Sampler_proofs Task Task_spec Task_sort Task_main Task_total Task_ex Task_refuted Tree Tree_spec Compute Compute_spec Compute_ex SideOps SideOps_spec SideOps_final SideOps_ex
  FilterTexts FilterTexts_main FilterTexts_file FilterTexts_regressors FilterTexts_ex.
Import ListNotations.
Open Scope string_scope.
Open Scope list_scope.

(** C96: the extended names are those of the columns of the item file and of its side files, followed by
    one of the extensions. *)
Theorem C96_extended_names :
  forall forest on across by_ C, init_columns forest on across by_ = Ok C ->
  forall n, In n (extended_cols C) <-> exists c s, n = (c ++ s)%string /\ In c (flat_map names forest) /\ extension s.
Proof. exact extended_names. Qed.
Print Assumptions C96_extended_names.

Example C96_extended_names_ex :
  init_columns hx_forest "phone" ["talker"] ["lang"] = Ok ft_columns /\ List.length (extended_cols ft_columns) = 56%nat /\
  firstn 9 (extended_cols ft_columns) = ["n"; "n_A"; "n_B"; "n_X"; "n_AB"; "n_AX"; "n_1"; "n_2"; "phone"].
Proof. repeat split; reflexivity. Qed.

(** C96: a filter that is an extended name is that column... *)
Theorem C96_column :
  forall (V : Type) (mk_list : list V -> V) (items : V -> res (list V)) (truth : V -> res bool) (prim : string -> list V -> res V)
    (builtin : string -> option V) (import_ : string -> res V) (inlined : bool) (order : list string -> list string)
    (read : string -> res string) (ast_parse : string -> res (list (stmt V))) (table : string -> res dbfun)
    (of_column : list Z -> V) (to_result : V -> res result) C t,
    (exists c s, named C t c s) -> filter_fun mk_list items truth prim builtin import_ inlined order read ast_parse table of_column to_result C t = Ok (SideOps.DBfun_Column t).
Proof. exact column_text. Qed.
Print Assumptions C96_column.

Example C96_column_ex : named ft_columns "talker_A" "talker" "_A" /\ ft_fun ft_columns "talker_A" = Ok (SideOps.DBfun_Column "talker_A").
Proof. split; [|reflexivity]. split; [reflexivity|]. split; [cbn; tauto|unfold extension; tauto]. Qed.

(** ... or else, when it ends by .dbfun, a lookup table... *)
Theorem C96_table :
  forall (V : Type) (mk_list : list V -> V) (items : V -> res (list V)) (truth : V -> res bool) (prim : string -> list V -> res V)
    (builtin : string -> option V) (import_ : string -> res V) (inlined : bool) (order : list string -> list string)
    (read : string -> res string) (ast_parse : string -> res (list (stmt V))) (table : string -> res dbfun)
    (of_column : list Z -> V) (to_result : V -> res result) C t,
    ~ (exists c s, named C t c s) -> (exists p, t = (p ++ ".dbfun")%string) -> filter_fun mk_list items truth prim builtin import_ inlined order read ast_parse table of_column to_result C t = table t.
Proof. exact table_text. Qed.
Print Assumptions C96_table.

Example C96_table_ex : "a.dbfun" = ("a" ++ ".dbfun")%string /\ ft_fun ft_columns "a.dbfun" = Err IOError.
Proof. split; reflexivity. Qed.

(** ... or else a script, or the name of its file when it ends by .py. Its inputs are the extended names that occur in the
    script, each once; errors are those of reading and parsing the script. *)
Theorem C96_script :
  forall (V : Type) (mk_list : list V -> V) (items : V -> res (list V)) (truth : V -> res bool) (prim : string -> list V -> res V)
    (builtin : string -> option V) (import_ : string -> res V) (inlined : bool) (order : list string -> list string)
    (read : string -> res string) (ast_parse : string -> res (list (stmt V))) (table : string -> res dbfun)
    (of_column : list Z -> V) (to_result : V -> res result), (forall l, Permutation (order l) l) ->
  forall C t, ~ (exists c s, named C t c s) -> ~ (exists p, t = (p ++ ".dbfun")%string) ->
    (forall e, filter_fun mk_list items truth prim builtin import_ inlined order read ast_parse table of_column to_result C t = Err e <->
               Compute.DBfun_Compute read ast_parse order t (extended_cols C) = Err e) /\
    forall f, filter_fun mk_list items truth prim builtin import_ inlined order read ast_parse table of_column to_result C t = Ok f ->
      exists script text p, (t = text /\ ~ (exists q, t = (q ++ ".py")%string) \/ read t = Ok text /\ exists q, t = (q ++ ".py")%string) /\
        ast_parse text = Ok script /\ parse order (extended_cols C) script = Ok p /\
        f = script_fun mk_list items truth prim builtin import_ inlined of_column to_result p /\
        NoDup (input_names f) /\
        (forall n, In n (input_names f) <-> (exists c s, named C n c s) /\ occurs_in n script).
Proof. exact script_text. Qed.
Print Assumptions C96_script.

Example C96_script_ex :
  (f <- ft_fun ft_columns "f.py" ;; Ok (input_names f)) = Ok ["talker_A"; "talker_B"] /\
  (f <- ft_fun ft_columns "[a == b for a, b in zip(talker_A, talker_B)]" ;; Ok (input_names f)) = Ok ["talker_A"; "talker_B"] /\
  (f <- ft_fun ft_columns "f.py" ;; SideOps.evaluate f [("talker_A", [1; 2; 1]%Z); ("talker_B", [1; 1; 3]%Z)]) = Ok (Flat [true; false; false]) /\
  said (ft_fun ft_columns "g.py") = Some IOError.
Proof. repeat split; vm_compute; reflexivity. Qed.

(** C96: so the columns of a filter that is a column or a script are always known... *)
Theorem C96_known :
  forall (V : Type) (mk_list : list V -> V) (items : V -> res (list V)) (truth : V -> res bool) (prim : string -> list V -> res V)
    (builtin : string -> option V) (import_ : string -> res V) (inlined : bool) (order : list string -> list string)
    (read : string -> res string) (ast_parse : string -> res (list (stmt V))) (table : string -> res dbfun)
    (of_column : list Z -> V) (to_result : V -> res result), (forall l, Permutation (order l) l) ->
  forall C t f, filter_fun mk_list items truth prim builtin import_ inlined order read ast_parse table of_column to_result C t = Ok f ->
    (exists c s, named C t c s) \/ ~ (exists p, t = (p ++ ".dbfun")%string) -> all_named C f.
Proof. exact text_named. Qed.
Print Assumptions C96_known.

Example C96_known_ex :
  (f <- ft_fun ft_columns "[n == n_A]" ;; Ok (input_names f)) = Ok ["n"; "n_A"] /\ In "n" (all_cols ft_columns).
Proof. split; [reflexivity|]. left. reflexivity. Qed.

(** C96: the filters of a task are the functions of their texts, in order (so that C03 and C04 hold of texts)... *)
Theorem C96_functions :
  forall (V : Type) (mk_list : list V -> V) (items : V -> res (list V)) (truth : V -> res bool) (prim : string -> list V -> res V)
    (builtin : string -> option V) (import_ : string -> res V) (inlined : bool) (order : list string -> list string)
    (read : string -> res string) (ast_parse : string -> res (list (stmt V))) (table : string -> res dbfun)
    (of_column : list Z -> V) (to_result : V -> res result) forest on across by_ C texts m, init_columns forest on across by_ = Ok C ->
    (texts_manager mk_list items truth prim builtin import_ inlined order read ast_parse table of_column to_result forest on across by_ texts = Ok m <->
     exists fs, Forall2 (fun t f => filter_fun mk_list items truth prim builtin import_ inlined order read ast_parse table of_column to_result C t = Ok f) texts fs /\
       filter_manager forest on across by_ fs = Ok m).
Proof. exact texts_functions. Qed.
Print Assumptions C96_functions.

Example C96_functions_ex :
  (m <- ft_manager hx_forest "phone" ["talker"] ["lang"] ["lang"; "f.py"; "n"; "n_X"] ;;
   Ok (map (fun st => map input_names (m_funs m st)) [By; Generic; Oab; StA; StB; StX; StABX])) =
  Ok [[["lang"]]; [["n"]]; []; []; []; [["n_X"]]; [["talker_A"; "talker_B"]]].
Proof. vm_compute. reflexivity. Qed.

(** C96: ... so that the rows of the task file are the triplets on which all the filters given as texts are true... *)
Theorem C96_triplets :
  forall (V : Type) (mk_list : list V -> V) (items : V -> res (list V)) (truth : V -> res bool) (prim : string -> list V -> res V)
    (builtin : string -> option V) (import_ : string -> res V) (inlined : bool) (order : list string -> list string)
    (read : string -> res string) (ast_parse : string -> res (list (stmt V))) (table : string -> res dbfun)
    (of_column : list Z -> V) (to_result : V -> res result),
  forall korder enum argsort (R : rng) (fuel : nat),
    lists_keys korder -> lists_set enum -> argsort_spec argsort ->
  forall forest truthy tps T m cols db T' bs st,
    NoDup (flat_map names forest) -> incl (flat_map names forest) cols -> hierarchical forest db ->
    texts_manager mk_list items truth prim builtin import_ inlined order read ast_parse table of_column to_result
      forest (t_on T) (match t_across T with [] => ["#across"] | l => l end) (match t_by T with [] => ["#by"] | l => l end) (map fst tps) = Ok m ->
    t_filters T = staged truthy m ->
  forall fps,
    Forall2 (fun tp fp => filter_fun mk_list items truth prim builtin import_ inlined order read ast_parse table of_column to_result (m_cols m) (fst tp) = Ok (fst fp) /\
                          snd fp = snd tp) tps fps ->
    (forall f p, In (f, p) fps -> elementwise f p /\ usable (m_cols m) f) -> accepted_first T db (m_cols m) fps ->
    task_init korder enum T cols db = Ok (T', bs, st) ->
  forall thr c bs' f,
    generate_triplets korder enum argsort R fuel T' thr bs st c = Ok (bs', Some f) ->
    no_threshold thr -> storable T db (capacity (s_nb_triplets st)) ->
    Forall2 (fun k ij => NoDup (rows_of ij (fl_triplets f)) /\
                forall a b x, In (a, b, x) (rows_of ij (fl_triplets f)) <-> filtered T db (m_cols m) fps k a b x)
      (fl_bys f) (fl_by_index f) /\
    (forall k, In k (fl_bys f) <-> exists a b x, filtered T db (m_cols m) fps k a b x) /\
    Zlen (fl_triplets f) = s_nb_triplets st.
Proof. exact texts_file. Qed.
Print Assumptions C96_triplets.

Example C96_triplets_ex :
  map fst seven_texts = ["0.dbfun"; "1.dbfun"; "2.dbfun"; "3.dbfun"; "4.dbfun"; "5.dbfun"; "6.dbfun"] /\
  seven_manager hx_forest (t_on hx_task) (t_across hx_task) (t_by hx_task) (map fst seven_texts) = Ok hx_manager /\
  Forall2 (fun tp fp => seven_fun (m_cols hx_manager) (fst tp) = Ok (fst fp) /\ snd fp = snd tp) seven_texts hx_fps /\
  (forall f p, In (f, p) hx_fps -> elementwise f p /\ usable (m_cols hx_manager) f) /\
  accepted_first hx_task hx_db (m_cols hx_manager) hx_fps /\
  match task_init idk idz hx_task hx_cols hx_db with
  | Ok (T', bs, st) =>
      match generate_triplets idk idz argsort_ins ex_rng 9 T' None bs st 0%nat with
      | Ok (_, Some f) =>
          (fl_triplets f = [(2, 0, 3); (2, 4, 3); (3, 1, 2); (3, 5, 2); (0, 2, 5); (1, 3, 0); (1, 3, 4); (5, 3, 0); (5, 3, 4); (0, 2, 3)] /\
           fl_bys f = [[7]; [8]])%Z
      | _ => False
      end
  | Err _ => False
  end.
Proof.
  split; [reflexivity|]. split; [exact seven_manager_ok|]. split; [exact seven_read|]. split; [exact hx_fps_ok|].
  split; [exact hx_accepted_first|]. vm_compute. auto.
Qed.

(** ... and columns and scripts are accepted exactly when each can be read and uses its columns with the right extensions
    (see C43 for what is not right in that). *)
Theorem C96_accepted :
  forall (V : Type) (mk_list : list V -> V) (items : V -> res (list V)) (truth : V -> res bool) (prim : string -> list V -> res V)
    (builtin : string -> option V) (import_ : string -> res V) (inlined : bool) (order : list string -> list string)
    (read : string -> res string) (ast_parse : string -> res (list (stmt V))) (table : string -> res dbfun)
    (of_column : list Z -> V) (to_result : V -> res result), (forall l, Permutation (order l) l) ->
  forall forest on across by_ C texts, Forall SideOps_spec.plain (flat_map names forest) -> init_columns forest on across by_ = Ok C ->
    (forall t, In t texts -> (exists c s, named C t c s) \/ ~ (exists p, t = (p ++ ".dbfun")%string)) ->
    ((exists m, texts_manager mk_list items truth prim builtin import_ inlined order read ast_parse table of_column to_result forest on across by_ texts = Ok m) <->
     forall t, In t texts -> exists f, filter_fun mk_list items truth prim builtin import_ inlined order read ast_parse table of_column to_result C t = Ok f /\ placed C f /\ unmixed C f).
Proof. exact texts_accepted. Qed.
Print Assumptions C96_accepted.

Example C96_accepted_ex :
  map (fun t => said (ft_manager hx_forest "phone" ["talker"] ["lang"] [t]))
    ["talker_A"; "f.py"; "[n == n_A]"; "x = n_A"; "g.py"; "age"; "phone_1"; "n_1"] =
  [None; None; Some ValueError; Some ValueError; Some IOError; Some ValueError; None; Some ValueError].
Proof. vm_compute. reflexivity. Qed.

(** C96: a task has the regressors of its on column and of the columns determined by its across columns, even when none is given:
    _1 is a value of the block of triplets, _2 is one of B for what on determines, one of X otherwise, and both are values of
    the by group for what by determines. *)
Theorem C96_default_regressors :
  forall (V : Type) (mk_list : list V -> V) (items : V -> res (list V)) (truth : V -> res bool) (prim : string -> list V -> res V)
    (builtin : string -> option V) (import_ : string -> res V) (inlined : bool) (order : list string -> list string)
    (read : string -> res string) (ast_parse : string -> res (list (stmt V))) (table : string -> res dbfun)
    (of_column : list Z -> V) (to_result : V -> res result) (sorted : list Z -> list Z), (forall l, Permutation (order l) l) ->
  forall db forest on across by_ C, NoDup (flat_map names forest) -> Forall SideOps_spec.plain (flat_map names forest) ->
    init_columns forest on across by_ = Ok C ->
  exists m, regressor_manager mk_list items truth prim builtin import_ inlined order read ast_parse table of_column to_result sorted
              db forest on across by_ [] = Ok m /\
    (forall n, In n (map input_names (m_funs m By)) <->
       exists c s, n = [(c ++ s)%string] /\ (c = on \/ In c (across_cols C)) /\ (s = "_1" \/ s = "_2") /\ In c (by_cols C)) /\
    (forall n, In n (map input_names (m_funs m Oab)) <->
       exists c, n = [(c ++ "_1")%string] /\ (c = on \/ In c (across_cols C)) /\ ~ In c (by_cols C)) /\
    (forall n, In n (map input_names (m_funs m StB)) <->
       exists c, n = [(c ++ "_2")%string] /\ (c = on \/ In c (across_cols C)) /\ ~ In c (by_cols C) /\ In c (on_cols C)) /\
    (forall n, In n (map input_names (m_funs m StX)) <->
       exists c, n = [(c ++ "_2")%string] /\ In c (across_cols C) /\ ~ In c (by_cols C) /\ ~ In c (on_cols C)) /\
    m_funs m Generic = [] /\ m_funs m StA = [] /\ m_funs m StABX = [].
Proof. exact default_stages. Qed.
Print Assumptions C96_default_regressors.

Example C96_default_regressors_ex :
  (m <- ft_regressors ex_db hx_forest "phone" ["talker"] ["lang"] [] ;;
   Ok (map (fun st => map input_names (m_funs m st)) [By; Generic; Oab; StA; StB; StX; StABX])) =
  Ok [[]; []; [["phone_1"]; ["talker_1"]; ["sex_1"]; ["old_1"]]; []; [["phone_2"]]; [["talker_2"]; ["sex_2"]; ["old_2"]]; []].
Proof. vm_compute. reflexivity. Qed.

(** C96: a regressor is read from its text as a filter is, but that the values of a column become codes (see C96_codes)... *)
Theorem C96_regressor :
  forall (V : Type) (mk_list : list V -> V) (items : V -> res (list V)) (truth : V -> res bool) (prim : string -> list V -> res V)
    (builtin : string -> option V) (import_ : string -> res V) (inlined : bool) (order : list string -> list string)
    (read : string -> res string) (ast_parse : string -> res (list (stmt V))) (table : string -> res dbfun)
    (of_column : list Z -> V) (to_result : V -> res result) (sorted : list Z -> list Z) C db t, Forall SideOps_spec.plain (all_cols C) ->
    (forall c s, named C t c s -> regressor_fun mk_list items truth prim builtin import_ inlined order read ast_parse table of_column to_result sorted C db t = Ok (DBfun_Column_indexed sorted t (map (fun r => r c) db))) /\
    (~ (exists c s, named C t c s) -> regressor_fun mk_list items truth prim builtin import_ inlined order read ast_parse table of_column to_result sorted C db t = filter_fun mk_list items truth prim builtin import_ inlined order read ast_parse table of_column to_result C t).
Proof. exact regressor_text. Qed.
Print Assumptions C96_regressor.

Example C96_regressor_ex :
  Forall SideOps_spec.plain (all_cols ft_columns) /\ named ft_columns "talker_X" "talker" "_X" /\
  (f <- ft_regressor ft_columns hx_db "talker_X" ;; SideOps.evaluate f [("talker_X", map (fun r : row => r "talker") (firstn 5 hx_db))]) =
    Ok (Nested [0; 2; 0; 2; 0]%Z) /\
  (f <- ft_regressor ft_columns hx_db "f.py" ;; SideOps.evaluate f [("talker_A", [1; 2; 1]%Z); ("talker_B", [1; 1; 3]%Z)]) = Ok (Flat [true; false; false]).
Proof.
  split; [apply plain_check; vm_compute; reflexivity|]. split; [|split; vm_compute; reflexivity].
  split; [reflexivity|]. split; [cbn; tauto|unfold extension; tauto].
Qed.

(** ... the task is made when each regressor that is given can be read, uses known columns with the right extensions, and a plain name only
    for what by determines; the regressors of the on and across columns never prevent it... *)
Theorem C96_regressors_accepted :
  forall (V : Type) (mk_list : list V -> V) (items : V -> res (list V)) (truth : V -> res bool) (prim : string -> list V -> res V)
    (builtin : string -> option V) (import_ : string -> res V) (inlined : bool) (order : list string -> list string)
    (read : string -> res string) (ast_parse : string -> res (list (stmt V))) (table : string -> res dbfun)
    (of_column : list Z -> V) (to_result : V -> res result) (sorted : list Z -> list Z), (forall l, Permutation (order l) l) ->
  forall db forest on across by_ C regs, NoDup (flat_map names forest) -> Forall SideOps_spec.plain (flat_map names forest) ->
    init_columns forest on across by_ = Ok C ->
    ((exists m, regressor_manager mk_list items truth prim builtin import_ inlined order read ast_parse table of_column to_result sorted db forest on across by_ regs = Ok m) <->
     forall t, In t regs -> exists f, regressor_fun mk_list items truth prim builtin import_ inlined order read ast_parse table of_column to_result sorted C db t = Ok f /\
       all_named C f /\ placed C f /\
       forall n c s, In n (input_names f) -> named C n c s -> ~ In c (by_cols C) -> s <> "").
Proof. exact regressors_accepted. Qed.
Print Assumptions C96_regressors_accepted.

Example C96_regressors_accepted_ex :
  NoDup (flat_map names hx_forest) /\ Forall SideOps_spec.plain (flat_map names hx_forest) /\
  init_columns hx_forest "phone" ["talker"] ["lang"] = Ok ft_columns /\
  map (fun t => said (ft_regressors hx_db hx_forest "phone" ["talker"] ["lang"] [t]))
    ["talker_A"; "f.py"; "lang"; "n"; "[n == n_A]"; "x = n_A"; "g.py"; "phone_1"; "n_1"; "sex_AX"; "place_AX"] =
  [None; None; None; Some ValueError; Some ValueError; Some ValueError; Some IOError; None; Some ValueError; None; Some ValueError].
Proof. split; [exact hx_names|]. split; [apply hx_well_named|]. split; vm_compute; reflexivity. Qed.

(** ... and then its regressors are the functions of the texts and those of the on and across columns, each at one stage. *)
Theorem C96_regressors_kept :
  forall (V : Type) (mk_list : list V -> V) (items : V -> res (list V)) (truth : V -> res bool) (prim : string -> list V -> res V)
    (builtin : string -> option V) (import_ : string -> res V) (inlined : bool) (order : list string -> list string)
    (read : string -> res string) (ast_parse : string -> res (list (stmt V))) (table : string -> res dbfun)
    (of_column : list Z -> V) (to_result : V -> res result) (sorted : list Z -> list Z), (forall l, Permutation (order l) l) ->
  forall db forest on across by_ C regs m, init_columns forest on across by_ = Ok C ->
    regressor_manager mk_list items truth prim builtin import_ inlined order read ast_parse table of_column to_result sorted db forest on across by_ regs = Ok m ->
    exists ds fs, Forall2 (fun t f => regressor_fun mk_list items truth prim builtin import_ inlined order read ast_parse table of_column to_result sorted C db t = Ok f) (regs ++ ds) fs /\
      (forall n, In n ds <-> exists c s, n = (c ++ s)%string /\ (c = on \/ In c (across_cols C)) /\ (s = "_1" \/ s = "_2")) /\
      Permutation (flat_map (m_funs m) [By; Generic; Oab; StA; StB; StX; StABX]) fs.
Proof. exact regressors_kept. Qed.
Print Assumptions C96_regressors_kept.

Example C96_regressors_kept_ex :
  (m <- ft_regressors hx_db hx_forest "phone" ["talker"] ["lang"] ["talker_A"; "f.py"; "lang"; "sex_AX"] ;;
   Ok (map (fun st => map input_names (m_funs m st)) [By; Generic; Oab; StA; StB; StX; StABX])) =
  Ok [[["lang"]]; []; [["sex_AX"]; ["phone_1"]; ["talker_1"]; ["sex_1"]; ["old_1"]]; [["talker_A"]]; [["phone_2"]];
      [["talker_2"]; ["sex_2"]; ["old_2"]]; [["talker_A"; "talker_B"]]].
Proof. vm_compute. reflexivity. Qed.

(** C96: the value of a column regressor is the place of the value in the list of the distinct values of the column. *)
Theorem C96_codes :
  forall (sorted : list Z -> list Z), (forall l, Permutation (sorted l) l) ->
  forall n values ctx l, dict_get ctx n = Ok l -> incl l values -> l <> [] ->
    NoDup (sorted (nodup Z.eq_dec values)) /\ (forall v, In v (sorted (nodup Z.eq_dec values)) <-> In v values) /\
    exists codes, SideOps.evaluate (DBfun_Column_indexed sorted n values) ctx = Ok (Nested codes) /\
      Forall2 (fun v i => (0 <= i)%Z /\ nth_error (sorted (nodup Z.eq_dec values)) (Z.to_nat i) = Some v) l codes.
Proof. exact column_codes. Qed.
Print Assumptions C96_codes.

Example C96_codes_ex :
  SideOps.evaluate (DBfun_Column_indexed (@rev Z) "talker_X" [5; 7; 5; 9; 7]%Z) [("talker_X", [7; 7; 9; 5]%Z)] = Ok (Nested [0; 0; 1; 2]%Z) /\
  rev (nodup Z.eq_dec [5; 7; 5; 9; 7]%Z) = [7; 9; 5]%Z.
Proof. split; reflexivity. Qed.

(** C96: a value that the column does not have is refused; of an item file without lines the values would be kept. *)
Theorem C96_codes_other :
  forall (sorted : list Z -> list Z), (forall l, Permutation (sorted l) l) ->
  forall n values ctx l, dict_get ctx n = Ok l ->
    (forall v, values <> [] -> In v l -> ~ In v values -> SideOps.evaluate (DBfun_Column_indexed sorted n values) ctx = Err ValueError) /\
    (values = [] -> SideOps.evaluate (DBfun_Column_indexed sorted n values) ctx = Ok (Nested l)).
Proof. exact column_codes_other. Qed.
Print Assumptions C96_codes_other.

Example C96_codes_other_ex :
  dict_get [("talker_X", [7; 8; 5]%Z)] "talker_X" = Ok [7; 8; 5]%Z /\
  SideOps.evaluate (DBfun_Column_indexed (@rev Z) "talker_X" [5; 7; 5; 9; 7]%Z) [("talker_X", [7; 8; 5]%Z)] = Err ValueError /\
  SideOps.evaluate (DBfun_Column_indexed (@rev Z) "talker_X" []) [("talker_X", [7; 8; 5]%Z)] = Ok (Nested [7; 8; 5]%Z).
Proof. repeat split; reflexivity. Qed.
