(** Properties of the names of the groups of regressors in a task file (C71). *)
From Coq Require Import Ascii String.
From Coq Require Import List ZArith QArith Permutation.
From Verif Require Import Prelude TypeFitting Rounding Sampler Sampler_proofs Task Task_spec Task_ex Distances Analyze AnalyzeText Analyze_ex AnalyzeText_spec AnalyzeText_ex H5Names H5io H5io_spec H5io_ex
  H5ioFile H5ioFile_spec H5ioFile_ex Pipeline Pipeline_ex TaskGroups TaskGroups_proofs TaskGroups_ex
  TaskGroups_pipeline TaskGroups_pipeline_ex.
Import ListNotations.
Local Open Scope string_scope.
Local Open Scope list_scope.
Local Open Scope Z_scope.

(** C71: the groups of regressors that a task writes in its file for all its bys, empty ones included,
    are those the analysis finds: the result file is the one made from the groups themselves, in
    whatever order. Nothing else of the file is changed. Missing: labels of bys and names of columns
    with slashes (false, see below), or that are empty or ".". *)
Theorem C71_groups_partial : forall (L : Type) (leq : forall x y : L, {x = y} + {x <> y}) (plain : L -> bool) texts names
    (indexes : list (string * list L)),
  NoDup (map fst indexes) -> (forall s, In s (map fst indexes) -> simple s /\ ascii_only s) -> incl names (map fst indexes) ->
  forall rnd argsort str_label str_float l f0 groups,
  l <> [] -> well_formed f0 -> free f0 ["regressors"] -> NoDup (map fst l) -> (forall b, In b (map fst l) -> simple b) ->
  mapM (fun kb : string * list (list (string * list Z)) =>
          g <- regressor_group leq plain names indexes (snd kb) ;; Ok (fst kb, g)) l = Ok groups ->
  exists f, write_bys leq plain texts f0 names indexes l = (f, Ok tt) /\ well_formed f /\ elsewhere ["regressors"] f0 f /\
    (forall n, In n (listing f ["regressors"]) <-> In n (map fst l)) /\
    forall groups' bys by_index scores, Permutation groups groups' ->
      (forall b, In b bys -> exists blocks, In (b, blocks) l /\ blocks <> []) ->
      analyze_h5 rnd argsort str_label str_float f bys by_index scores =
      analyze_text rnd argsort str_label str_float (mk_analyzed bys by_index groups') scores.
Proof. exact analyzed_file. Qed.
Example C71_groups_partial_ex :
  NoDup (map fst reg_indexes) /\ (forall s, In s (map fst reg_indexes) -> simple s /\ ascii_only s) /\ incl tg_names (map fst reg_indexes) /\
  well_formed tg_file /\ free tg_file ["regressors"] /\
  mapM (fun kb : string * list (list (string * list Z)) =>
          g <- regressor_group String.string_dec plain_text tg_names reg_indexes (snd kb) ;; Ok (fst kb, g)) tg_blocks = Ok tg_groups /\
  snd (tg_write tg_blocks) = Ok tt /\ listing (fst (tg_write tg_blocks)) ["regressors"] = ["none"; "t1"; "t2"] /\
  table_of (fst (tg_analyze (fst (tg_write tg_blocks)) ["t2"; "t1"] [(0, 3); (3, 5)]%nat [1; -1; 1; 1; 0])) =
    Some [["talker"; "phone"; "by"; "score"; "n"]; ["t2"; "ee"; "t2"; "1/1"; "2"]; ["t2"; "oo"; "t2"; "0/1"; "1"]; ["t1"; "aa"; "t1"; "3/4"; "2"]].
Proof.
  split; [exact reg_nodup|]. split; [exact reg_simple|]. split; [intros s Hs; exact Hs|]. split; [apply tg_ok|]. split; [apply tg_ok|].
  split; [vm_compute; reflexivity|]. split; [vm_compute; reflexivity|]. split; vm_compute; reflexivity.
Qed.
Print Assumptions C71_groups_partial.

(** C71: the task file of a whole evaluation: its groups of regressors can be written, and analysing the
    file where they are written gives the result file made from the groups themselves, whatever the
    scores (C40_result_file says what is in it). Missing: the same as above, for all the bys of the
    table. *)
Theorem C71_evaluation_partial :
  forall (tm L : Type) (leq : forall x y : L, {x = y} + {x <> y}) (plain : L -> bool) texts (name : key -> string),
    (forall k k', name k = name k' -> k = k') ->
  forall gorder : list (string * by_group L) -> list (string * by_group L), (forall l, Permutation (gorder l) l) ->
  forall korder enum argsort (R : rng) (fuel : nat), lists_keys korder ->
  forall (rlen wlen clen : Z -> nat) (memory o_buffer : Z)
    T cols db (places : list (Distances.item tm)) (indexes : list (string * list L)) thr c (x : abx_file tm L),
  NoDup (map fst indexes) -> (forall s, In s (map fst indexes) -> simple s /\ ascii_only s) ->
  incl (regressor_names (t_regressors T)) (map fst indexes) -> (forall k, by_rows T db k <> [] -> simple (name k)) ->
  make_file leq plain name gorder korder enum argsort R fuel rlen wlen clen memory o_buffer T cols db places indexes thr c = Ok (Some x) ->
  exists T' bs st bs' tf,
    task_init korder enum T cols db = Ok (T', bs, st) /\
    generate_triplets korder enum argsort R fuel T' thr bs st c = Ok (bs', Some tf) /\
    forall f0, well_formed f0 -> free f0 ["regressors"] ->
    exists f,
      write_bys leq plain texts f0 (regressor_names (t_regressors T)) indexes
        (map (fun kb => (name (fst kb), snd kb)) (fl_regressors tf)) = (f, Ok tt) /\
      well_formed f /\ elsewhere ["regressors"] f0 f /\
      forall rnd argsort' str_label str_float scores,
        analyze_h5 rnd argsort' str_label str_float f (x_bys x) (map nat_range (x_by_index x)) scores =
        analyze_text rnd argsort' str_label str_float (for_analysis x) scores.
Proof. exact evaluation_groups. Qed.
Example C71_evaluation_partial_ex :
  (forall k k', pl_name k = pl_name k' -> k = k') /\ NoDup (map fst tp_indexes) /\
  (forall s, In s (map fst tp_indexes) -> simple s /\ ascii_only s) /\
  incl (regressor_names (t_regressors ex_task_reg)) (map fst tp_indexes) /\
  (forall k, by_rows ex_task_reg ex_db k <> [] -> simple (pl_name k)) /\
  tp_make = Ok (Some tp_x) /\ x_bys tp_x = ["+11;"; "+000;"] /\
  well_formed tg_file /\ free tg_file ["regressors"] /\
  snd tp_h5 = Ok tt /\ listing (fst tp_h5) ["regressors"] = ["+000;"; "+01;"; "+11;"] /\
  table_of (fst (tg_analyze (fst tp_h5) (x_bys tp_x) (map nat_range (x_by_index tp_x)) [0; -1; -1; -1; 0; 1; -1; 1; 1; 1])) =
    Some [["phone_B"; "talker_X"; "phone_1"; "lang"; "n_A"; "by"; "score"; "n"];
          ["a"; "ann"; "b"; "en"; "4"; "+11;"; "0/1"; "2"]; ["a"; "bob"; "b"; "en"; "2"; "+11;"; "1/4"; "2"];
          ["b"; "ann"; "a"; "en"; "1"; "+11;"; "1/2"; "2"]; ["b"; "ann"; "a"; "en"; "13"; "+11;"; "1/1"; "2"];
          ["b"; "bob"; "a"; "en"; "0"; "+11;"; "1/2"; "1"]; ["b"; "cid"; "a"; "fr"; "5"; "+000;"; "1/1"; "1"]].
Proof.
  split; [exact pl_name_inj|]. split; [apply nodup_strings; reflexivity|]. split; [exact tp_simple|].
  split; [intros s Hs; repeat (destruct Hs as [<-|Hs]; [vm_compute; tauto|]); destruct Hs|].
  split; [exact tp_names|]. split; [exact tp_made|]. split; [reflexivity|]. split; [apply tg_ok|]. split; [apply tg_ok|].
  split; [reflexivity|]. split; vm_compute; reflexivity.
Qed.
Print Assumptions C71_evaluation_partial.

(** C71, refuted: "any label can be used for by": the task file of a by with a slash in its label is
    written, but the analysis raises KeyError and the result file is empty; it is analysed when there is
    another by before it in alphabetical order. *)
Theorem C71_by_refuted :
  snd (tg_write [tg_one "s1/s2"]) = Ok tt /\
  tg_analyze (fst (tg_write [tg_one "s1/s2"])) ["s1/s2"] [(0, 2)]%nat [1; 0] = ("", Err KeyError) /\
  snd (tg_write [tg_one "s1/s2"; tg_one "s0"]) = Ok tt /\
  table_of (fst (tg_analyze (fst (tg_write [tg_one "s1/s2"; tg_one "s0"])) ["s1/s2"; "s0"] [(0, 2); (2, 4)]%nat [1; 0; -1; -1])) =
    Some [["talker"; "phone"; "by"; "score"; "n"]; ["t1"; "aa"; "s1/s2"; "3/4"; "2"]; ["t1"; "aa"; "s0"; "0/1"; "2"]].
Proof. vm_compute. repeat split. Qed.
Print Assumptions C71_by_refuted.

(** C71, refuted: "any name can be used for a column": with a slash in its name, the task file cannot be
    written. *)
Theorem C71_column_refuted :
  init plain_text (DList ["talker/speaker"]) [("talker/speaker", ["t1"; "t2"])] [] <> Err AttributeError /\
  snd (write_bys String.string_dec plain_text false tg_file ["talker/speaker"] [("talker/speaker", ["t1"; "t2"])]
         [("b", [[("talker/speaker", [0; 1])]])]) = Err AttributeError.
Proof. vm_compute. split; [discriminate|reflexivity]. Qed.
Print Assumptions C71_column_refuted.
