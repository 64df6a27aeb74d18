(** Property theorems: the text of the result file (C69). *)
From Coq Require Import Ascii String.
From Coq Require Import List ZArith QArith.
From Verif Require Import Prelude Rounding Analyze Analyze_spec Analyze_ex AnalyzeText AnalyzeText_spec AnalyzeText_proofs AnalyzeText_ex.
Import ListNotations.
Open Scope string_scope.
Open Scope list_scope.
Open Scope Z_scope.

(** C69: the result file of an analysis, read as lines of fields separated by tabs, is the header
    and one row for each line of the analysis, with its labels, its by, its score and its number
    of triplets in decimal, when no name and no label has a tab or a newline. *)
Theorem C69_readable : forall (L : Type) rnd argsort (str_label : L -> string) (str_float : Q -> string)
    (T : analyzed_task L) scores names lines,
  analyze rnd argsort T scores = Ok (names, lines) ->
  Forall field names -> Forall (line_fields str_label str_float) lines ->
  exists text rows, analyze_text rnd argsort str_label str_float T scores = (text, Ok tt) /\
    table_of text = Some ((names ++ ["by"; "score"; "n"]) :: rows) /\
    Forall2 (row_of str_label str_float) lines rows.
Proof. exact result_text. Qed.
Example C69_readable_ex :
  analyze rnd64 argsort_ins ex_task ex_scores = Ok (["phone"; "talker"], ex_lines) /\
  Forall field ["phone"; "talker"] /\ Forall (line_fields (fun s => s) ex_float) ex_lines /\
  table_of (fst (analyze_text rnd64 argsort_ins (fun s => s) ex_float ex_task ex_scores)) =
    Some [["phone"; "talker"; "by"; "score"; "n"]; ["aa"; "t1"; "b0"; "1/1"; "1"]; ["aa"; "t2"; "b0"; "0/1"; "1"];
          ["oo"; "t1"; "b0"; "1/2"; "3"]; ["ee"; "t2"; "b1"; "3/4"; "2"]].
Proof.
  split; [vm_compute; reflexivity|]. split.
  { constructor; [|constructor; [|constructor]]; apply field_of; reflexivity. }
  split; [|vm_compute; reflexivity].
  constructor; [|constructor; [|constructor; [|constructor; [|constructor]]]];
    (split; [constructor; [|constructor; [|constructor]]|split]; apply field_of; vm_compute; reflexivity).
Qed.
Print Assumptions C69_readable.

(** C69: the result file of an analysis that raises an exception is empty when the task file has no
    regressors; otherwise it is a table with the header, all the lines of the bys before the one
    that raises it and the lines made before for that one. *)
Theorem C69_failed : forall (L : Type) rnd argsort (str_label : L -> string) (str_float : Q -> string)
    (T : analyzed_task L) scores e,
  analyze rnd argsort T scores = Err e ->
  (a_groups T = [] /\ e = IndexError /\ analyze_text rnd argsort str_label str_float T scores = ("", Err e)) \/
  exists g k by_ done part,
    nth_error (map snd (a_groups T)) 0 = Some g /\ nth_error (a_bys T) k = Some by_ /\
    collapse rnd argsort T scores 0 (firstn k (a_bys T)) = Ok done /\
    collapse_by rnd argsort T scores k by_ = Err e /\ begun rnd argsort T scores k by_ e part /\
    exists text, analyze_text rnd argsort str_label str_float T scores = (text, Err e) /\
      (Forall field (g_names g) -> Forall (line_fields str_label str_float) (done ++ part) ->
       exists rows, table_of text = Some ((g_names g ++ ["by"; "score"; "n"]) :: rows) /\
         Forall2 (row_of str_label str_float) (done ++ part) rows).
Proof. exact failed_text. Qed.
Example C69_failed_ex :
  analyze rnd64 argsort_ins lost_task ex_scores = Err KeyError /\
  collapse rnd64 argsort_ins lost_task ex_scores 0 ["b0"] = Ok (firstn 3 ex_lines) /\
  table_of (fst (analyze_text rnd64 argsort_ins (fun s => s) ex_float lost_task ex_scores)) =
    Some [["phone"; "talker"; "by"; "score"; "n"]; ["aa"; "t1"; "b0"; "1/1"; "1"]; ["aa"; "t2"; "b0"; "0/1"; "1"];
          ["oo"; "t1"; "b0"; "1/2"; "3"]].
Proof. split; [vm_compute; reflexivity|]. split; vm_compute; reflexivity. Qed.
Print Assumptions C69_failed.

(** C69 is false of labels with tabs, which are not quoted: the row has a field too many. *)
Theorem C69_tab_refuted :
  analyze rnd64 argsort_ins tab_task [1; 0] =
    Ok (["phone"; "talker"], [mk_line [String "a" (String "009" "b"); "t2"] "b" (3 # 4) 2]) /\
  table_of (fst (analyze_text rnd64 argsort_ins (fun s => s) ex_float tab_task [1; 0])) =
    Some [["phone"; "talker"; "by"; "score"; "n"]; ["a"; "b"; "t2"; "b"; "3/4"; "2"]].
Proof. exact tab_refuted. Qed.
Example C69_tab_refuted_ex : ~ field (String "a" (String "009" "b")).
Proof. intros H. destruct (H "009"%char) as [N _]; [cbn; auto|congruence]. Qed.
Print Assumptions C69_tab_refuted.
