(** Property theorems: the names of the regressors of a task, and regressors given by scripts (C97). *)
From Coq Require Import String.
From Coq Require Import List ZArith Permutation.
From Verif Require Import Prelude TypeFitting Task Tree Tree_spec Compute SideOps SideOps_spec SideOps_ex FilterTexts FilterTexts_ex
  AnalyzeText AnalyzeText_spec H5Names H5io H5io_spec H5ioFile H5ioFile_spec H5ioFile_ex Pipeline TaskGroups TaskGroups_ex
  RegressorInfo RegressorInfo_main RegressorInfo_texts RegressorInfo_ex.
Import ListNotations.
Local Open Scope string_scope.
Local Open Scope list_scope.
Local Open Scope nat_scope.

(** C97: the regressors come in the order by, on/across/by, A, B, X, ABX; those that have names keep them,
    the others are numbered [reg_0], [reg_1], ... over all the stages. *)
Theorem C97_names :
  forall (L : Type) (str : nat -> string) (by_ oab a b x abx : list (specs L)),
  let all := by_ ++ oab ++ a ++ b ++ x ++ abx in
  exists blocks, fst (get_regressor_info str by_ oab a b x abx) = concat blocks /\ List.length blocks = List.length all /\
    forall i s, nth_error all i = Some s ->
      (forall l, sp_names s = Some l -> nth_error blocks i = Some l) /\
      (sp_names s = None -> nth_error blocks i = Some (map (fun n =>
         ("reg_" ++ str (list_sum (map (fun s => match sp_names s with None => sp_number s | Some _ => 0 end) (firstn i all)) + n))%string) (seq 0 (sp_number s)))).
Proof. exact info_names. Qed.
Print Assumptions C97_names.

Example C97_names_ex :
  get_regressor_info digits [script_specs string] [talker_specs; mk_specs 2 None []] [phone_specs] [] [script_specs string] [] =
  (["reg_0"; "talker"; "reg_1"; "reg_2"; "phone"; "reg_3"], [("talker", ["t2"; "t1"]); ("phone", ["aa"; "ee"; "oo"])]).
Proof. vm_compute. reflexivity. Qed.

(** C97: each name has one list of values, the last that was given for it; the lists come in the order of
    the regressors when no name comes twice. *)
Theorem C97_indexes :
  forall (L : Type) (str : nat -> string) (by_ oab a b x abx : list (specs L)),
  let all := flat_map (@sp_indexes L) (by_ ++ oab ++ a ++ b ++ x ++ abx) in
  let indexes := snd (get_regressor_info str by_ oab a b x abx) in
  NoDup (map fst indexes) /\
  (forall n i, In (n, i) indexes <-> exists l1 l2, all = l1 ++ (n, i) :: l2 /\ ~ In n (map fst l2)) /\
  (NoDup (map fst all) -> indexes = all).
Proof. exact info_indexes. Qed.
Print Assumptions C97_indexes.

Example C97_indexes_ex :
  snd (get_regressor_info digits [] [talker_specs; phone_specs] [phone_specs] [column_specs "talker" ["t1"]] [] []) =
    [("talker", ["t1"]); ("phone", ["aa"; "ee"; "oo"])] /\
  snd (get_regressor_info digits [phone_specs] [] [] [script_specs string] [talker_specs] []) =
    [("phone", ["aa"; "ee"; "oo"]); ("talker", ["t2"; "t1"])].
Proof. vm_compute. split; reflexivity. Qed.

(** C97: when all the regressors are given as columns, their names are those that were given and those of the
    default regressors, each as often as it comes; each name has the list of the values of its column. *)
Theorem C97_columns :
  forall (V : Type) (mk_list : list V -> V) (items : V -> res (list V)) (truth : V -> res bool) (prim : string -> list V -> res V)
    (builtin : string -> option V) (import_ : string -> res V) (inlined : bool) (order : list string -> list string)
    (read : string -> res string) (ast_parse : string -> res (list (stmt V))) (table : string -> res dbfun)
    (of_column : list Z -> V) (to_result : V -> res result) (sorted : list Z -> list Z),
  (forall l, Permutation (order l) l) -> (forall l, Permutation (sorted l) l) ->
  forall (L : Type) (label : Z -> L) (str : nat -> string) db forest on across by_ C regs m,
  NoDup (flat_map names forest) -> Forall SideOps_spec.plain (flat_map names forest) ->
  init_columns forest on across by_ = Ok C ->
  regressor_manager mk_list items truth prim builtin import_ inlined order read ast_parse table of_column to_result sorted db forest on across by_ regs = Ok m ->
  (forall t, In t regs -> exists c s, named C t c s) ->
  exists ds (ts : stage -> list (string * string)),
    (forall n, In n ds <-> exists c s, n = (c ++ s)%string /\ (c = on \/ In c (across_cols C)) /\ (s = "_1" \/ s = "_2")) /\
    (forall st, Forall (fun e => named C (fst e ++ snd e)%string (fst e) (snd e)) (ts st) /\
       m_funs m st = map (fun e => DBfun_Column_indexed sorted (fst e ++ snd e)%string (map (fun r => r (fst e)) db)) (ts st)) /\
    m_funs m Generic = [] /\
    let specs st := map (fun e => column_specs (fst e ++ snd e)%string (map label (sorted (nodup Z.eq_dec (map (fun r => r (fst e)) db))))) (ts st) in
    let info := get_regressor_info str (specs By) (specs Oab) (specs StA) (specs StB) (specs StX) (specs StABX) in
    Permutation (fst info) (regs ++ ds) /\
    (db <> [] -> forall n i, In (n, i) (snd info) <->
       In n (regs ++ ds) /\ exists c s, named C n c s /\ i = map label (sorted (nodup Z.eq_dec (map (fun r => r c) db)))).
Proof. exact regressors_named. Qed.
Print Assumptions C97_columns.

Example C97_columns_ex :
  (m <- ft_regressors hx_db hx_forest "phone" ["talker"] ["lang"] ["talker_A"; "lang"; "talker_1"] ;;
   Ok (map (fun st => map input_names (m_funs m st)) [By; Generic; Oab; StA; StB; StX; StABX])) =
  Ok [[["lang"]]; []; [["talker_1"]; ["phone_1"]; ["talker_1"]; ["sex_1"]; ["old_1"]]; [["talker_A"]]; [["phone_2"]];
      [["talker_2"]; ["sex_2"]; ["old_2"]]; []] /\
  (let sp c s := column_specs (c ++ s)%string (nodup Z.eq_dec (map (fun r => r c) hx_db)) in
   get_regressor_info digits [sp "lang" ""] [sp "talker" "_1"; sp "phone" "_1"; sp "talker" "_1"] [sp "talker" "_A"] [sp "phone" "_2"] [sp "talker" "_2"] []) =
  (["lang"; "talker_1"; "phone_1"; "talker_1"; "talker_A"; "phone_2"; "talker_2"],
   [("lang", [5; 7; 6; 8]); ("talker_1", [1; 3; 2]); ("phone_1", [1; 3; 2]); ("talker_A", [1; 3; 2]); ("phone_2", [1; 3; 2]); ("talker_2", [1; 3; 2])])%Z.
Proof. vm_compute. split; reflexivity. Qed.

(** C97: a column that is asked for as a regressor once more changes nothing to the groups of the task file. *)
Theorem C97_twice :
  forall (L : Type) (leq : forall x y : L, {x = y} + {x <> y}) (plain : L -> bool) (str : nat -> string)
    (by_ oab a b x abx by' oab' a' b' x' abx' l1 l2 : list (specs L)) n i names indexes names' indexes',
  by_ ++ oab ++ a ++ b ++ x ++ abx = l1 ++ l2 -> by' ++ oab' ++ a' ++ b' ++ x' ++ abx' = l1 ++ column_specs n i :: l2 ->
  In (column_specs n i) l1 -> (forall i', In (n, i') (flat_map (@sp_indexes L) (l1 ++ l2)) -> i' = i) ->
  get_regressor_info str by_ oab a b x abx = (names, indexes) -> get_regressor_info str by' oab' a' b' x' abx' = (names', indexes') ->
  indexes' = indexes /\ (forall s, In s names' <-> In s names) /\
  (incl names (map fst indexes) -> forall blocks, regressor_group leq plain names' indexes blocks = regressor_group leq plain names indexes blocks).
Proof. exact regressor_twice. Qed.
Print Assumptions C97_twice.

Example C97_twice_ex :
  get_regressor_info digits [talker_specs] [phone_specs] [] [] [] [] = (["talker"; "phone"], reg_indexes) /\
  get_regressor_info digits [talker_specs] [phone_specs; talker_specs] [] [] [] [] = (["talker"; "phone"; "talker"], reg_indexes) /\
  (forall i', In ("talker", i') (flat_map (@sp_indexes string) ([talker_specs; phone_specs] ++ [])) -> i' = ["t2"; "t1"]) /\
  incl ["talker"; "phone"] (map fst reg_indexes) /\
  forall kb, In kb tg_blocks -> snd kb <> [] ->
    exists g, regressor_group String.string_dec plain_text ["talker"; "phone"; "talker"] reg_indexes (snd kb) = Ok g.
Proof.
  split; [reflexivity|]. split; [reflexivity|]. split; [|split; [intros s H; exact H|]].
  - intros i' [E|[E|[]]]; [injection E as <-; reflexivity|discriminate].
  - intros kb [<-|[<-|[<-|[]]]] H; [|exfalso; apply H; reflexivity|]; vm_compute; eexists; reflexivity.
Qed.

(** C97: whatever its origin, a regressor without a list of values prevents the task file from being written. *)
Theorem C97_without_index :
  forall (L : Type) (leq : forall x y : L, {x = y} + {x <> y}) (plain : L -> bool) names (indexes : list (string * list L)),
  incl (map fst indexes) names -> (forall n, In n names -> ascii_only n) -> (exists n, In n names /\ ~ In n (map fst indexes)) ->
  forall f0 l, well_formed f0 -> free f0 ["regressors"] -> l <> [] -> (forall k, In k (map fst l) -> simple k) ->
  snd (write_bys leq plain false f0 names indexes l) = Err TypeError.
Proof. exact without_index. Qed.
Print Assumptions C97_without_index.

Example C97_without_index_ex :
  incl (map fst [("talker", ["t2"; "t1"])]) ["phone"; "talker"] /\ (forall n, In n ["phone"; "talker"] -> ascii_only n) /\
  (exists n, In n ["phone"; "talker"] /\ ~ In n (map fst [("talker", ["t2"; "t1"])])) /\
  well_formed tg_file /\ free tg_file ["regressors"] /\ tg_blocks <> [] /\ (forall k, In k (map fst tg_blocks) -> simple k) /\
  snd (write_bys String.string_dec plain_text false tg_file ["phone"; "talker"] [("talker", ["t2"; "t1"])] tg_blocks) = Err TypeError.
Proof.
  split; [intros n [<-|[]]; right; left; reflexivity|]. split; [|split; [|split; [apply tg_ok|split; [apply tg_ok|split; [discriminate|split; [|reflexivity]]]]]].
  - intros n [<-|[<-|[]]]; [apply (proj2 (reg_simple "phone" (or_intror (or_introl eq_refl))))|apply (proj2 (reg_simple "talker" (or_introl eq_refl)))].
  - exists "phone". split; [left; reflexivity|]. intros [E|[]]. discriminate.
  - intros k [<-|[<-|[<-|[]]]]; (split; [discriminate|]); cbn; intuition discriminate.
Qed.

(** C97: with a regressor given by a script, no task file can be written: the group of the first by that
    has triplets cannot be declared. *)
Theorem C97_script :
  forall (L : Type) (leq : forall x y : L, {x = y} + {x <> y}) (plain : L -> bool) (str : nat -> string)
    (by_ oab a b x abx : list (specs L)) names indexes,
  get_regressor_info str by_ oab a b x abx = (names, indexes) ->
  (forall s, In s (by_ ++ oab ++ a ++ b ++ x ++ abx) -> s = script_specs L \/ exists n i, s = column_specs n i /\ i <> [] /\ ascii_only n /\ forall k, n <> ("reg_" ++ str k)%string) ->
  (forall k, ascii_only (str k)) ->
  In (script_specs L) (by_ ++ oab ++ a ++ b ++ x ++ abx) ->
  forall f0 l, well_formed f0 -> free f0 ["regressors"] -> l <> [] -> (forall k, In k (map fst l) -> simple k) ->
  snd (write_bys leq plain false f0 names indexes l) = Err TypeError.
Proof. exact script_regressor. Qed.
Print Assumptions C97_script.

Example C97_script_ex :
  let all := [talker_specs] ++ [phone_specs] ++ [] ++ [] ++ [script_specs string] ++ [] in
  get_regressor_info digits [talker_specs] [phone_specs] [] [] [script_specs string] [] = (["talker"; "phone"; "reg_0"], reg_indexes) /\
  (forall s, In s all -> s = script_specs string \/ exists n i, s = column_specs n i /\ i <> [] /\ ascii_only n /\ forall k, n <> ("reg_" ++ digits k)%string) /\
  (forall k, ascii_only (digits k)) /\ In (script_specs string) all /\
  well_formed tg_file /\ free tg_file ["regressors"] /\ tg_blocks <> [] /\ (forall k, In k (map fst tg_blocks) -> simple k).
Proof.
  cbv zeta. split; [reflexivity|]. split; [|split; [exact digits_ascii|split; [right; right; left; reflexivity|split; [apply tg_ok|split; [apply tg_ok|split; [discriminate|]]]]]].
  - intros s [<-|[<-|[<-|[]]]]; [right|right|left; reflexivity].
    + exists "talker", ["t2"; "t1"]. split; [reflexivity|]. split; [discriminate|]. split; [apply (proj2 (reg_simple "talker" (or_introl eq_refl)))|apply not_reg; reflexivity].
    + exists "phone", ["aa"; "ee"; "oo"]. split; [reflexivity|]. split; [discriminate|]. split; [apply (proj2 (reg_simple "phone" (or_intror (or_introl eq_refl))))|apply not_reg; reflexivity].
  - intros k [<-|[<-|[<-|[]]]]; (split; [discriminate|]); cbn; intuition discriminate.
Qed.

(** C97: "a regressor given by a script is written to the task file" is false: the task that can be written
    without it cannot be written with it. *)
Theorem C97_script_refuted :
  exists (columns scripts : list (specs string)) l f,
    scripts = [script_specs string] /\
    (let '(names, indexes) := get_regressor_info digits [] columns [] [] [] [] in
     write_bys String.string_dec plain_text false tg_file names indexes l = (f, Ok tt)) /\
    (let '(names, indexes) := get_regressor_info digits [] columns [] [] [] scripts in
     snd (write_bys String.string_dec plain_text false tg_file names indexes l) = Err TypeError).
Proof.
  exists [talker_specs; phone_specs], [script_specs string], tg_blocks.
  eexists. split; [reflexivity|]. split; vm_compute; reflexivity.
Qed.
Print Assumptions C97_script_refuted.

(** C97: "a regressor without a list of values is in the results" is false with an h5py that can store lists of
    texts, and reads them as texts, as well: with one by it is written at the root of the file and the analysis does not read it; with a
    second by the file cannot be written. *)
Theorem C97_apart_refuted :
  exists names (one two : string * list (list (string * list Z))) f,
    names = ["talker"; "phone"; "reg_0"] /\
    write_bys String.string_dec plain_text true tg_file names reg_indexes [one] = (f, Ok tt) /\
    get f ["reg_0"] = Some (Dataset (Table string I64 1 [[5]; [6]]%Z)) /\ get f ["regressors"; fst one; "reg_0"] = None /\
    table_of (fst (tg_analyze f [fst one] [(0, 2)] [1; -1]%Z)) =
      Some [["talker"; "phone"; "by"; "score"; "n"]; ["t2"; "ee"; "t2"; "1/1"; "1"]; ["t2"; "oo"; "t2"; "0/1"; "1"]] /\
    snd (write_bys String.string_dec plain_text true tg_file names reg_indexes [one; two]) = Err IOError.
Proof.
  exists ["talker"; "phone"; "reg_0"], ("t2", [[("talker", [0; 0]); ("phone", [1; 2]); ("reg_0", [5; 6])]])%Z, ("t1", [[("talker", [1]); ("phone", [0]); ("reg_0", [3])]])%Z.
  eexists. split; [reflexivity|]. split; [vm_compute; reflexivity|]. vm_compute. repeat split.
Qed.
Print Assumptions C97_apart_refuted.
