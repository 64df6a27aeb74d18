(** Vocabulary of the statements about the commands of the steps. *)
From Coq Require Import Ascii String List ZArith.
From Verif Require Import Prelude Commands_spec.
Import ListNotations.
Local Open Scope string_scope.

(** The seeds that numpy takes. *)
Definition good_seed (seed : option Z) : Prop :=
  match seed with Some s => (0 <= s < 4294967296)%Z | None => True end.

(** The files when a command has made room for its output: an output named on the command line
    is removed. *)
Definition cleared {C : Type} (fs fs' : string -> option C) (output : option string) : Prop :=
  match output with
  | None => fs' = fs
  | Some o => (o = "" /\ fs' = fs) \/ (o <> "" /\ without fs fs' o)
  end.

(** The directories when the one for temporary files is there. *)
Definition with_tempdir {C : Type} (fs : string -> option C) (dirs dirs' : list string) (tempdir : option string) : Prop :=
  match tempdir with
  | None => dirs' = dirs
  | Some d => (d = "" \/ fs d <> None \/ In d dirs) /\ dirs' = dirs \/
              (d <> "" /\ fs d = None /\ ~ In d dirs) /\ dirs' = d :: dirs
  end.

(** A name without directory: some characters other than slashes, not all dots; an extension. *)
Definition plain_stem (s : string) : Prop :=
  Forall (fun c => c <> "/"%char) (list_ascii_of_string s) /\
  ~ Forall (fun c => c = "."%char) (list_ascii_of_string s).
Definition plain_ext (s : string) : Prop :=
  Forall (fun c => c <> "/"%char /\ c <> "."%char) (list_ascii_of_string s).
(** Empty or ending with a slash. *)
Definition dir_part (d : string) : Prop := d = "" \/ exists d', d = d' ++ "/".
