(** The arguments of a Task: forms of on, across and by. *)
From Coq Require Import Ascii String.
From Coq Require Import List ZArith.
From Verif Require Import Prelude Task.
Import ListNotations.
Local Open Scope string_scope.
Local Open Scope list_scope.
Local Open Scope Z_scope.

(** A Python value given for [on], [across] or [by]. [AOther] is a value that is not a string and
    cannot be iterated over, a number for example. Simplification: tuples, sets, and lists of
    other things than strings are not represented. *)
Inductive arg :=
| ANone
| AStr (s : string)
| AList (l : list string)
| AOther.

(** task.py lines 248-256: [_init_as_list]. *)
Definition init_as_list (a : arg) : arg :=
  match a with
  | ANone => AList []
  | AStr s => AList [s]
  | a => a
  end.

(** [cols.issuperset(a)] for what [init_as_list] returns; task.py lines 271-273. *)
Definition issuperset (cols : list string) (a : arg) : res bool :=
  match a with
  | AList l => Ok (forallb (mem_string cols) l)
  | AStr s => Ok (forallb (fun c => mem_string cols (String c EmptyString)) (list_ascii_of_string s))
  | ANone | AOther => Err TypeError
  end.

(** task.py lines 258-283: [_init_check_database] on arguments of any form. The lines 275-279 go
    through a set, and raise the same exception wherever they stop. *)
Definition check_args (cols : list string) (on : string) (across by_ : arg) : res unit :=
  o <- issuperset cols (AList [on]) ;;
  assert! o else AssertionError ;;
  a <- issuperset cols across ;;
  assert! a else AssertionError ;;
  b <- issuperset cols by_ ;;
  assert! b else AssertionError ;;
  assert! forallb (fun c => negb (has_char "_"%char c) && negb (has_char "#"%char c)) cols
    else AssertionError ;;
  Ok tt.

Section New.
Variable korder : list key -> list key.
Variable enum : list Z -> list Z.

(** [os.path.isfile] and [database.load] (the names of the columns, and the lines); the second is
    modelled in Database.v. *)
Variable isfile : string -> bool.
Variable load : string -> res (list string * list row).

(** task.py lines 187-246: [__init__]; the filters and regressors are already read. After the
    checks, [task_init] does the rest, its own checks being those of [check_args] (proved in
    TaskArgs_main.v). *)
Definition new_task (db_name : string) (on across by_ : arg) (F : filters) (G : regressors)
  : res (task * list by_block * stats) :=
  assert! isfile db_name else AssertionError ;;
  match on with
  | AStr on =>
      let across := init_as_list across in
      let by_ := init_as_list by_ in
      cd <- load db_name ;;
      _ <- check_args (fst cd) on across by_ ;;
      match across, by_ with
      | AList across, AList by_ => task_init korder enum (mk_task on across by_ F G) (fst cd) (snd cd)
      | _, _ => Err TypeError
      end
  | _ => Err AssertionError
  end.

End New.
