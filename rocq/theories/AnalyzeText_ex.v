(** Examples and witnesses for the text of the result file. *)
From Coq Require Import Ascii String.
From Coq Require Import List ZArith QArith Lia.
From Verif Require Import Prelude Rounding Analyze Analyze_spec Analyze_ex AnalyzeText AnalyzeText_spec.
Import ListNotations.
Local Open Scope string_scope.
Local Open Scope list_scope.
Local Open Scope Z_scope.

(** A text for the numbers of the examples. *)
Definition ex_float (q : Q) : string :=
  let q := Qred q in String.concat "" [str_int (Qnum q); "/"; str_int (Zpos (Qden q))].

Definition ex_lines : list (line string) :=
  [mk_line ["aa"; "t1"] "b0" (2 # 2) 1; mk_line ["aa"; "t2"] "b0" (0 # 2) 1;
   mk_line ["oo"; "t1"] "b0" (3 # 6) 3; mk_line ["ee"; "t2"] "b1" (3 # 4) 2].

Lemma field_of s : forallb (fun c => negb (Ascii.eqb c "009") && negb (Ascii.eqb c "010")) (list_ascii_of_string s) = true -> field s.
Proof.
  intros H c Hc. rewrite forallb_forall in H. specialize (H c Hc). apply andb_prop in H as [H1 H2].
  split; intros ->; discriminate.
Qed.

(** The group of the second by is missing. *)
Definition lost_task : analyzed_task string :=
  mk_analyzed ["b0"; "b1"] [(0, 5); (5, 7)]%nat [("b0", ex_g0)].

(** A label with a tab. *)
Definition tab_indexes := [("phone", ["aa"; String "a" (String "009" "b"); "oo"]); ("talker", ["t1"; "t2"])].
Definition tab_g : by_group string := mk_group U8 2 [[1; 1]; [1; 1]] ["phone"; "talker"] tab_indexes.
Definition tab_task : analyzed_task string := mk_analyzed ["b"] [(0, 2)]%nat [("b", tab_g)].

Lemma tab_refuted :
  analyze rnd64 argsort_ins tab_task [1; 0] =
    Ok (["phone"; "talker"], [mk_line [String "a" (String "009" "b"); "t2"] "b" (3 # 4) 2]) /\
  table_of (fst (analyze_text rnd64 argsort_ins (fun s => s) ex_float tab_task [1; 0])) =
    Some [["phone"; "talker"; "by"; "score"; "n"]; ["a"; "b"; "t2"; "b"; "3/4"; "2"]].
Proof. split; vm_compute; reflexivity. Qed.
