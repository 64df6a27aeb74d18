(** Property theorems: the filters of a task, from the column names to the triplets (C03, C04,
    C05, C42, C43). *)
From Coq Require Import Ascii String.
From Verif Require Import Prelude Sampler Sampler_proofs Task Task_spec Task_sort Task_main Task_total Task_ex Task_refuted Tree Tree_spec SideOps SideOps_spec SideOps_proofs
  SideOps_legal SideOps_final SideOps_ex.
Open Scope string_scope.
Open Scope list_scope.
Open Scope Z_scope.

(** C03: whatever the stage of each filter, the rows of the file are the triplets of the items
    on which all the filters are true; a filter on plain columns is about each of the items. *)
Theorem C03_filters_by_meaning :
  forall korder enum argsort (R : rng) (fuel : nat),
    lists_keys korder -> lists_set enum -> argsort_spec argsort ->
  forall forest truthy fps T m cols db T' bs st,
    NoDup (flat_map names forest) -> incl (flat_map names forest) cols -> hierarchical forest db ->
    task_manager forest T (map fst fps) = Ok m -> t_filters T = staged truthy m ->
    (forall f p, In (f, p) fps -> elementwise f p /\ usable (m_cols m) f) -> accepted_first T db (m_cols m) fps ->
    task_init korder enum T cols db = Ok (T', bs, st) ->
  forall thr c bs' f,
    generate_triplets korder enum argsort R fuel T' thr bs st c = Ok (bs', Some f) ->
    no_threshold thr -> storable T db (capacity (s_nb_triplets st)) ->
    Forall2 (fun k ij => NoDup (rows_of ij (fl_triplets f)) /\
                forall a b x, In (a, b, x) (rows_of ij (fl_triplets f)) <-> filtered T db (m_cols m) fps k a b x)
      (fl_bys f) (fl_by_index f) /\
    (forall k, In k (fl_bys f) <-> exists a b x, filtered T db (m_cols m) fps k a b x) /\
    Zlen (fl_triplets f) = s_nb_triplets st.
Proof. exact filtered_file. Qed.
Print Assumptions C03_filters_by_meaning.

Example C03_filters_by_meaning_ex :
  NoDup (flat_map names hx_forest) /\ incl (flat_map names hx_forest) hx_cols /\ hierarchical hx_forest hx_db /\
  task_manager hx_forest hx_task (map fst hx_fps) = Ok hx_manager /\
  (forall f p, In (f, p) hx_fps -> elementwise f p /\ usable (m_cols hx_manager) f) /\
  accepted_first hx_task hx_db (m_cols hx_manager) hx_fps /\
  map (fun st => List.length (m_funs hx_manager st)) [By; Generic; Oab; StA; StB; StX; StABX] = [1; 1; 1; 1; 1; 1; 1]%nat /\
  match task_init idk idz hx_task hx_cols hx_db with
  | Ok (T', bs, st) =>
      s_nb_triplets st = 10 /\
      match generate_triplets idk idz argsort_ins ex_rng 9 T' None bs st 0 with
      | Ok (_, Some f) =>
          fl_triplets f = [(2, 0, 3); (2, 4, 3); (3, 1, 2); (3, 5, 2); (0, 2, 5); (1, 3, 0); (1, 3, 4);
                           (5, 3, 0); (5, 3, 4); (0, 2, 3)] /\ fl_bys f = [[7]; [8]]
      | _ => False
      end
  | Err _ => False
  end.
Proof.
  split; [exact hx_names|]. split; [exact hx_incl|]. split; [exact hx_hierarchical|]. split; [exact hx_manager_ok|].
  split; [exact hx_fps_ok|]. split; [exact hx_accepted_first|]. split; [vm_compute; reflexivity|].
  vm_compute. auto.
Qed.

(** The stage of a filter does not matter: a block of triplets passes when each filter is true
    of the items its columns name. *)
Theorem C03_stages_meaning :
  forall forest truthy fps on across by_ m, Forall plain (flat_map names forest) ->
    filter_manager forest on across by_ (map fst fps) = Ok m ->
    (forall f p, In (f, p) fps -> elementwise f p /\ usable (m_cols m) f) ->
  forall a b x, agree (by_cols (m_cols m)) a b -> agree (by_cols (m_cols m)) a x -> agree (on_cols (m_cols m)) a x ->
    (passes (staged truthy m) a b x <-> forall f p, In (f, p) fps -> accepts (m_cols m) f p a b x).
Proof. exact stages_meaning. Qed.
Print Assumptions C03_stages_meaning.

Example C03_stages_meaning_ex :
  Forall plain (flat_map names hx_forest) /\
  let row i := nth i hx_db (ln 0 0 0 0) in
  let C := m_cols hx_manager in
  map (row 2%nat) (on_cols C) = map (row 3%nat) (on_cols C) /\
  map (row 2%nat) (by_cols C) = map (row 0%nat) (by_cols C) /\ map (row 2%nat) (by_cols C) = map (row 3%nat) (by_cols C) /\
  match f_ABX (staged truthyZ hx_manager) with
  | Some f => f (row 2%nat) (row 2%nat) (row 0%nat) (row 3%nat) = true /\ f (row 0%nat) (row 0%nat) (row 2%nat) (row 1%nat) = false
  | None => False
  end.
Proof. split; [apply hx_well_named|]. vm_compute. auto. Qed.

(** C04: vector filters applied one after the other to what is left keep the positions on which
    all are true, in order... *)
Theorem C04_vector_filters :
  forall truthy fs ps lines ctx, Forall2 elementwise fs ps -> (forall f, In f fs -> input_names f <> []) ->
    has_columns ctx (flat_map input_names fs) lines ->
    exists kept, vectorial_filter truthy fs ctx (List.length lines) = Ok kept /\ StronglySorted lt kept /\
      forall i, In i kept <-> exists e, nth_error lines i = Some e /\ forall p, In p ps -> p e = true.
Proof. exact vectorial_filter_conjunction. Qed.
Print Assumptions C04_vector_filters.

Example C04_vector_filters_ex :
  let f := compute ["n_A"] (fun e => e "n_A" <? 3) in
  let g := compute ["n_A"; "n_X"] (fun e => e "n_X" =? e "n_A") in
  let ctx := [("n_X", [1; 2; 5; 0; 2]); ("n_A", [1; 2; 5; 1; 2])] in
  let lines := map (fun p n => if string_dec n "n_X" then fst p else snd p) [(1, 1); (2, 2); (5, 5); (0, 1); (2, 2)] in
  Forall2 elementwise [fst f; fst g] [snd f; snd g] /\ has_columns ctx ["n_A"; "n_A"; "n_X"] lines /\
  vectorial_filter truthyZ [fst f; fst g] ctx 5 = Ok [0; 1; 4]%nat.
Proof.
  split; [|split; [split|]].
  - repeat constructor; apply compute_elementwise; intros e e' He; rewrite !He by (cbn; tauto); reflexivity.
  - intros n [<-|[<-|[<-|[]]]]; reflexivity.
  - intros n l [E|[E|[]]]; injection E as <- <-; reflexivity.
  - vm_compute. reflexivity.
Qed.

(** ... a filter on one line of values is a conjunction too... *)
Theorem C04_block_filters :
  forall fs ps ctx line, Forall2 elementwise fs ps ->
    (forall n, In n (flat_map input_names fs) -> dict_get ctx n = Ok [line n]) ->
    singleton_filter fs ctx = Ok (forallb (fun p => p line) ps).
Proof. exact singleton_filter_ok. Qed.
Print Assumptions C04_block_filters.

Example C04_block_filters_ex :
  let f := compute ["lang"] (fun e => e "lang" <? 3) in
  let g := compute ["talker_AB"; "lang"] (fun e => e "lang" <? e "talker_AB") in
  singleton_filter [fst f; fst g] [("talker_AB", [4]); ("lang", [2])] = Ok true /\
  singleton_filter [fst f; fst g] [("talker_AB", [1]); ("lang", [2])] = Ok false.
Proof. vm_compute. auto. Qed.

(** ... and what is evaluated at each stage on the columns of the whole table is what one would
    evaluate on each line. *)
Theorem C04_stages_elementwise :
  forall forest truthy fps on across by_ m, Forall plain (flat_map names forest) ->
    filter_manager forest on across by_ (map fst fps) = Ok m ->
    (forall f p, In (f, p) fps -> elementwise f p /\ usable (m_cols m) f) ->
    (forall v, by_filter m v = Ok (f_by (staged truthy m) v)) /\
    (forall v db, generic_filter truthy m v db = Ok (filter (f_generic (staged truthy m) v) db)) /\
    (forall v, on_across_by_filter m v = Ok (f_oab (staged truthy m) v)) /\
    (forall f v fr l, f_A (staged truthy m) = Some f -> A_filter truthy m v fr l = single_filter f v fr l) /\
    (forall f v fr l, f_B (staged truthy m) = Some f -> B_filter truthy m v fr l = single_filter f v fr l) /\
    (forall f v fr l, f_X (staged truthy m) = Some f -> X_filter truthy m v fr l = single_filter f v fr l) /\
    (forall f v fr ts kept, f_ABX (staged truthy m) = Some f ->
       (SideOps.ABX_filter truthy m v fr ts = Ok kept <-> Task.ABX_filter f v fr ts = Ok kept)).
Proof. exact runs_staged. Qed.
Print Assumptions C04_stages_elementwise.

Example C04_stages_elementwise_ex :
  let fr := combine [0; 1; 2; 3; 4] hx_db in
  let v := nth 0 hx_db (ln 0 0 0 0) in
  A_filter truthyZ hx_manager v (combine [0; 1] [nth 7 hx_db v; v]) [0; 1; 0] = Ok [1]%nat /\
  SideOps.ABX_filter truthyZ hx_manager v fr [(0, 2, 1); (0, 2, 3); (2, 0, 3)] = Ok [1; 2]%nat.
Proof. vm_compute. auto. Qed.

(** C05: a column name used as filter does not filter. At the by stage it accepts every value... *)
Theorem C05_column_filter_refuted :
  ~ (forall forest on across by_ c m v, Forall plain (flat_map names forest) ->
       filter_manager forest on across by_ [DBfun_Column c] = Ok m -> In c by_ ->
       by_filter m v = Ok (truthyZ (v c))).
Proof. exact column_filter_by_refuted. Qed.
Print Assumptions C05_column_filter_refuted.

Example C05_column_filter_refuted_ex :
  by_filter (column_manager "lang") (fun _ => 0) = Ok true /\ truthyZ 0 = false.
Proof. vm_compute. auto. Qed.

(** ... always... *)
Theorem C05_column_filter_accepts_all :
  forall forest on across by_ c m v, Forall plain (flat_map names forest) ->
    filter_manager forest on across by_ [DBfun_Column c] = Ok m ->
    In c (by_cols (m_cols m)) -> In c (all_cols (m_cols m)) -> by_filter m v = Ok true.
Proof. exact column_filter_by. Qed.
Print Assumptions C05_column_filter_accepts_all.

Example C05_column_filter_accepts_all_ex :
  In "lang" (by_cols (m_cols (column_manager "lang"))) /\ In "lang" (all_cols (m_cols (column_manager "lang"))).
Proof. vm_compute. tauto. Qed.

(** ... and on items it keeps the first one, as many times as the column has true values. *)
Theorem C05_item_column_refuted :
  exists v fr l kept, A_filter truthyZ (column_manager "n_A") v fr l = Ok kept /\
    map snd fr = [ln 0 0 0 0; ln 0 0 0 1; ln 0 0 0 2] /\ l = [0; 1; 2] /\ kept = [0; 0]%nat.
Proof. exact column_filter_item_refuted. Qed.
Print Assumptions C05_item_column_refuted.

Example C05_item_column_refuted_ex : np_where (map (fun r => truthyZ (r "n")) [ln 0 0 0 0; ln 0 0 0 1; ln 0 0 0 2]) = [1; 2]%nat.
Proof. reflexivity. Qed.

(** C42: an extended column name determines the column and the extension... *)
Theorem C42_extended_names_unique :
  forall c s c' s', plain c -> plain c' -> extension s -> extension s' ->
    (c ++ s)%string = (c' ++ s')%string -> c = c' /\ s = s'.
Proof. exact extended_unique. Qed.
Print Assumptions C42_extended_names_unique.

Example C42_extended_names_unique_ex :
  plain "talker" /\ extension "_AX" /\ ("a_A" ++ "_B")%string = ("a" ++ "_A_B")%string.
Proof. split; [intros H; cbn in H; intuition discriminate|]. split; [unfold extension; tauto|reflexivity]. Qed.

(** ... which parsing returns... *)
Theorem C42_parse :
  forall C c s, Forall plain (all_cols C) -> In c (all_cols C) -> extension s ->
    parse_extended_column C (c ++ s)%string = Ok (c, s).
Proof. exact parse_named. Qed.
Print Assumptions C42_parse.

Example C42_parse_ex :
  Forall plain (all_cols (m_cols hx_manager)) /\
  parse_extended_column (m_cols hx_manager) "talker_AX" = Ok ("talker", "_AX") /\
  parse_extended_column (m_cols hx_manager) "talker" = Ok ("talker", "") /\
  parse_extended_column (m_cols hx_manager) "talker_2" = Ok ("talker", "_2").
Proof. split; [apply plain_check; vm_compute; reflexivity|]. vm_compute. auto. Qed.

(** ... and nothing else is accepted. *)
Theorem C42_parse_only :
  forall C n,
    (forall c s, parse_extended_column C n = Ok (c, s) -> named C n c s) /\
    ((forall c s, ~ named C n c s) -> parse_extended_column C n = Err NameError).
Proof. exact (fun C n => conj (fun c s => @parse_sound C n c s) (@parse_reject C n)). Qed.
Print Assumptions C42_parse_only.

Example C42_parse_only_ex :
  parse_extended_column (m_cols hx_manager) "talker_C" = Err NameError /\ parse_extended_column (m_cols hx_manager) "age_A" = Err NameError.
Proof. vm_compute. auto. Qed.

(** The columns of a task that is created have no underscore. *)
Theorem C42_names_checked :
  forall cols on across by_ u, check_database cols on across by_ = Ok u ->
    Forall plain cols /\ (forall c, In c cols -> ~ In "#"%char (list_ascii_of_string c)).
Proof. exact check_database_names. Qed.
Print Assumptions C42_names_checked.

Example C42_names_checked_ex :
  check_database ["phone"; "talker"] "phone" ["talker"] [] = Ok tt /\
  check_database ["phone"; "talker_A"] "phone" [] [] = Err AssertionError.
Proof. vm_compute. auto. Qed.

(** C43: the columns determined by the on, across and by columns are those below them in the
    hierarchy... *)
Theorem C43_columns :
  forall forest on across by_ C, NoDup (flat_map names forest) -> init_columns forest on across by_ = Ok C ->
    all_cols C = flat_map names forest /\
    (forall c, In c (on_cols C) <-> descends forest on c) /\
    (forall c, In c (across_cols C) <-> exists col, In col across /\ descends forest col c) /\
    (forall c, In c (by_cols C) <-> exists col, In col by_ /\ descends forest col c).
Proof. exact init_columns_ok. Qed.
Print Assumptions C43_columns.

Example C43_columns_ex :
  init_columns hx_forest "phone" ["talker"; "#across"] ["lang"] =
    Ok (mk_columns ["n"; "phone"; "place"; "talker"; "sex"; "old"; "lang"] ["phone"; "place"] ["talker"; "sex"; "old"] ["lang"]) /\
  init_columns hx_forest "age" [] [] = Err NameError.
Proof. vm_compute. auto. Qed.

(** ... and filters are accepted exactly when their names are known, [_1] and [_2] are on what the
    on or across columns determine, [_AX] on what the across columns determine, and plain names
    are not mixed with extended ones. What is missing: [_AB] is not restricted, and [_AX] is
    restricted to the wrong columns, see [C43_extensions_refuted]. *)
Theorem C43_accepted_partial :
  forall forest on across by_ C fs, Forall plain (flat_map names forest) -> init_columns forest on across by_ = Ok C ->
    ((exists m, filter_manager forest on across by_ fs = Ok m) <-> forall f, In f fs -> all_named C f /\ placed C f /\ unmixed C f).
Proof. exact manager_decision. Qed.
Print Assumptions C43_accepted_partial.

Example C43_accepted_partial_ex :
  let accepts names := is_ok (filter_manager hx_forest "phone" ["talker"] ["lang"] [DBfun_Compute names (fun _ => true)]) in
  map accepts [["place_1"]; ["sex_2"]; ["n_1"]; ["n"; "n_A"]; ["n"; "place"; "lang_A"]; ["n_A"; "lang"]; ["sex_AX"]] =
    [true; true; false; false; true; true; true].
Proof. vm_compute. reflexivity. Qed.

(** The exceptions. *)
Theorem C43_rejected :
  forall m, Forall plain (all_cols (m_cols m)) -> forall f,
    ((exists m', add false m f = Ok m') <-> all_named (m_cols m) f /\ placed (m_cols m) f /\ unmixed (m_cols m) f) /\
    (~ all_named (m_cols m) f -> add false m f = Err NameError) /\
    (all_named (m_cols m) f -> ~ (placed (m_cols m) f /\ unmixed (m_cols m) f) -> add false m f = Err ValueError).
Proof. exact add_decision. Qed.
Print Assumptions C43_rejected.

Example C43_rejected_ex :
  add false hx_manager (DBfun_Compute ["n_1"] (fun _ => true)) = Err ValueError /\
  add false hx_manager (DBfun_Compute ["n"; "n_A"] (fun _ => true)) = Err ValueError /\
  add false hx_manager (DBfun_Compute ["age"] (fun _ => true)) = Err NameError.
Proof. vm_compute. auto. Qed.

(** A and X share the value of the on column, but [_AX] of the on column is rejected and [_AX] of
    an across column, which always has two different values, is accepted. A and B need not share
    any other column, but [_AB] of it is accepted, and cannot be evaluated. *)
Theorem C43_extensions_refuted :
  let manager names := filter_manager hx_forest "phone" ["talker"] ["lang"] [DBfun_Compute names (fun _ => true)] in
  manager ["phone_AX"] = Err ValueError /\ is_ok (manager ["talker_AX"]) = true /\
  (m <- manager ["n_AB"] ;; on_across_by_filter m (ln 1 1 1 1)) = Err NameError.
Proof. exact extensions_refuted. Qed.
Print Assumptions C43_extensions_refuted.

Example C43_extensions_refuted_ex :
  (m <- filter_manager hx_forest "phone" ["talker"] ["lang"] [DBfun_Compute ["talker_AB"] (fun e => e "talker_AB" =? 1)] ;;
   on_across_by_filter m (ln 1 1 1 1)) = Ok true.
Proof. vm_compute. reflexivity. Qed.
