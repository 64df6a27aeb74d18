(** Model of the text written by ABXpy/analyze.py in the result file. *)
From Coq Require Import Ascii String DecimalString.
From Coq Require Import List ZArith QArith.
From Verif Require Import Prelude Distances Analyze.
Import ListNotations.
Local Open Scope list_scope.
Local Open Scope string_scope.
Set Implicit Arguments.

(** What has been given to [fid.write], and how the function ended. The file is closed by
    [with] in both cases, so that all of it is in the file. *)
Definition written := (string * res unit)%type.

(** Writes, then goes on if nothing was raised. *)
Definition go_on (w next : written) : written :=
  match snd w with
  | Err e => w
  | Ok _ => (fst w ++ fst next, snd next)
  end.

Definition tab : string := String "009" "".
Definition newline : string := String "010" "".

Section Text.
Variable L : Type.
Variable rnd : Q -> Q.
Variable argsort : list Z -> list nat.
(** [str] of a label of a regressor and of a score. *)
Variable str_label : L -> string.
Variable str_float : Q -> string.

(** [str] of an integer. *)
Definition str_int (z : Z) : string := NilZero.string_of_int (Z.to_int z).

(** Lines 115-116: [str] of the by, which is a string, is the by itself. *)
Definition line_text (ln : line L) : string :=
  String.concat tab (map str_label (l_labels ln) ++ [l_by ln; str_float (l_score ln); str_int (l_n ln)])%list
  ++ newline.

(** Lines 109-116: the loop that makes the lines and writes them. *)
Fixpoint write_lines (by_ : string) (indexes : list (list L)) (table : list (list Q * Q * nat)) : written :=
  match table with
  | [] => ("", Ok tt)
  | x :: table' =>
    match make_line by_ indexes x with
    | Err e => ("", Err e)
    | Ok ln => go_on (line_text ln, Ok tt) (write_lines by_ indexes table')
    end
  end.

(** Lines 71-116. *)
Definition collapse_by_text (T : analyzed_task L) (scores : list Z) (by_idx : nat) (by_ : string) : written :=
  match by_table rnd argsort T scores by_idx by_ with
  | Err e => ("", Err e)
  | Ok (table, indexes) => write_lines by_ indexes table
  end.

(** Lines 70-116. *)
Fixpoint collapse_text (T : analyzed_task L) (scores : list Z) (by_idx : nat) (bys : list string) : written :=
  match bys with
  | [] => ("", Ok tt)
  | by_ :: bys' => go_on (collapse_by_text T scores by_idx by_) (collapse_text T scores (S by_idx) bys')
  end.

(** Lines 160-163. *)
Definition header_text (names : list string) : string :=
  String.concat "" (map (fun reg => reg ++ tab) names) ++ "by" ++ tab ++ "score" ++ tab ++ "n" ++ newline.

(** Lines 155-166: [analyze]. [list(aux)[0]] fails when there is no group; the result file is
    empty then. The names in the groups are always there. *)
Definition analyze_text (T : analyzed_task L) (scores : list Z) : written :=
  match nth_res (map snd (a_groups T)) 0 with
  | Err e => ("", Err e)
  | Ok g => go_on (header_text (g_names g), Ok tt) (collapse_text T scores 0 (a_bys T))
  end.

End Text.
