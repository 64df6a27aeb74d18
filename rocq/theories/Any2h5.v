(** Model of [ABXpy/misc/any2h5features.py]. *)

From Coq Require Import List Bool Arith Lia Ascii String.
From Verif Require Import Prelude Text.
Import ListNotations.
Set Implicit Arguments.
Local Open Scope nat_scope.
Local Open Scope list_scope.

(** [os.path.join(path, f)] for a relative [f]. *)
Definition path_join (path f : string) : string :=
  match path with
  | EmptyString => f
  | _ => if match String.get (String.length path - 1) path with
            | Some c => Ascii.eqb c "/"
            | None => false
            end
         then (path ++ f)%string
         else (path ++ "/" ++ f)%string
  end.

Section Any2h5.

(** Features and times of a file. *)
Variables F T : Type.

(** The arguments of a call to [h5features.write]: internal names, times and features. *)
Definition call : Type := (list string * list T * list F)%type.

(** The [load] argument, and whether a call to the writer succeeds after the calls done
    before. *)
Variable load : string -> res (F * T).
Variable write : list call -> call -> res unit.

(** The variables of the loop of lines 44-56: [features], [times], [internal_files] and
    [i]. *)
Record state := mk_state {
  s_features : list F;
  s_times : list T;
  s_files : list string;
  s_i : nat
}.

(** The calls done so far, and the outcome. *)
Definition outcome (A : Type) : Type := (list call * res A)%type.

(** any2h5features.py lines 44-56. *)
Fixpoint loop (path : string) (batch_size : nat) (files : list string) (s : state)
    (done : list call) : outcome state :=
  match files with
  | [] => (done, Ok s)
  | f :: files' =>
    let continue_ (s : state) (done : list call) :=
      match load (path_join path f) with
      | Err e => (done, Err e)
      | Ok data =>
        loop path batch_size files'
          (mk_state (s_features s ++ [fst data]) (s_times s ++ [snd data])
                    (s_files s ++ [splitext f]) (s_i s + 1)) done
      end in
    if s_i s =? batch_size
    then let c := (s_files s, s_times s, s_features s) in
         match write done c with
         | Err e => (done, Err e)
         | Ok _ => continue_ (mk_state [] [] [] 0) (done ++ [c])
         end
    else continue_ s done
  end.

(** any2h5features.py lines 18-59. *)
Definition any_to_h5features (path : string) (files : list string) (batch_size : nat)
  : outcome unit :=
  match loop path batch_size files (mk_state [] [] [] 0) [] with
  | (done, Err e) => (done, Err e)
  | (done, Ok s) =>
    match s_features s with
    | [] => (done, Ok tt)
    | _ => let c := (s_files s, s_times s, s_features s) in
           match write done c with
           | Err e => (done, Err e)
           | Ok _ => (done ++ [c], Ok tt)
           end
    end
  end.

(** any2h5features.py lines 62-80: the files are those of the folder in the order of
    [os.listdir], 500 at a time. The writer gets the group /features/. *)
Definition convert (folder : string) (listdir : string -> list string) : outcome unit :=
  any_to_h5features folder (listdir folder) 500.

End Any2h5.
