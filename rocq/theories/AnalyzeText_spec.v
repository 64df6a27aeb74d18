(** How the result file is read, and what must be read in it. *)
From Coq Require Import Ascii String DecimalString.
From Coq Require Import List ZArith QArith.
From Verif Require Import Prelude Analyze.
Import ListNotations.
Local Open Scope list_scope.
Set Implicit Arguments.

(** The pieces of a text between the characters [c]. *)
Fixpoint cut (c : ascii) (s : string) : list string :=
  match s with
  | EmptyString => [EmptyString]
  | String a s' =>
    if Ascii.eqb a c then EmptyString :: cut c s'
    else match cut c s' with
         | piece :: pieces => String a piece :: pieces
         | [] => []
         end
  end.

(** The table in a text: lines ended by a newline, fields separated by tabs. [None] when the last
    line is not ended. *)
Definition table_of (text : string) : option (list (list string)) :=
  let pieces := cut "010" text in
  if String.eqb (last pieces EmptyString) EmptyString
  then Some (map (cut "009") (removelast pieces))
  else None.

(** A field: no tab and no newline. *)
Definition field (s : string) : Prop :=
  forall c, In c (list_ascii_of_string s) -> c <> "009"%char /\ c <> "010"%char.

(** The integer read in a field. *)
Definition integer (s : string) : option Z := option_map Z.of_int (NilZero.int_of_string s).

Section Spec.
Variable L : Type.
Variable str_label : L -> string.
Variable str_float : Q -> string.

(** The fields that are the line [ln]. *)
Definition row_of (ln : line L) (fields : list string) : Prop :=
  exists n, fields = map str_label (l_labels ln) ++ [l_by ln; str_float (l_score ln); n] /\
            integer n = Some (l_n ln).

(** The labels, the by and the score of a line can be written. *)
Definition line_fields (ln : line L) : Prop :=
  Forall (fun x => field (str_label x)) (l_labels ln) /\ field (l_by ln) /\ field (str_float (l_score ln)).

(** The lines of a by whose analysis raises [e]: none, or those before the one that raises it. *)
Definition begun (rnd : Q -> Q) (argsort : list Z -> list nat) (T : analyzed_task L) (scores : list Z) (i : nat)
           (by_ : string) (e : exn) (part : list (line L)) : Prop :=
  (by_table rnd argsort T scores i by_ = Err e /\ part = []) \/
  exists tb indexes n x,
    by_table rnd argsort T scores i by_ = Ok (tb, indexes) /\
    mapM (make_line by_ indexes) (firstn n tb) = Ok part /\
    nth_error tb n = Some x /\ make_line by_ indexes x = Err e.

End Spec.
