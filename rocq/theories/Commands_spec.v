(** Vocabulary of the statements about the commands. *)
From Coq Require Import Ascii String List.
From Verif Require Import Prelude DistanceCommand.

(** [c] is not in [s]. *)
Definition no_char (c : ascii) (s : string) : Prop := Forall (fun a => a <> c) (list_ascii_of_string s).

(** The function that a choice designates. *)
Definition function_of {D : Type} (default edit kl : D) (import : string -> string -> string -> res D) (ch : chosen) : res D :=
  match ch with
  | Default => Ok default
  | Levenshtein => Ok edit
  | DtwKl => Ok kl
  | Imported path module f => import path module f
  end.

(** The same files without the one named [name]. *)
Definition without {C : Type} (fs fs' : string -> option C) (name : string) : Prop :=
  fs' name = None /\ forall n, n <> name -> fs' n = fs n.
