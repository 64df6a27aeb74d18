(** What an item file says, independently of the way it is loaded. *)

From Coq Require Import ZArith List Bool Arith Lia Ascii String Permutation.
From Verif Require Import Prelude Task Database.
Import ListNotations.
Set Implicit Arguments.
Local Open Scope nat_scope.
Local Open Scope list_scope.

(** A column name without a sharp in front. *)
Definition plain (c : string) : Prop :=
  exists a c', c = String a c' /\ a <> "#"%char.

(** The header documented for item files: [#file onset offset], other columns locating the
    item, then the attributes, the first of which is marked with a sharp. *)
Definition item_header (h : list string) (mid : list string) (a : string) (rest : list string)
  : Prop :=
  h = ["#file"; "onset"; "offset"]%string ++ mid ++ String "#" a :: rest /\
  Forall plain mid /\ Forall plain rest.

Definition distinct_names (mid : list string) (a : string) (rest : list string) : Prop :=
  NoDup (["file"; "onset"; "offset"]%string ++ mid ++ a :: rest).

(** Every line has a cell per column. *)
Definition rectangular (f : file) : Prop :=
  Forall (fun l => List.length l = List.length (header f)) (body f).

(** The number of columns locating the item, and the two parts of a line. *)
Definition width (mid : list string) : nat := 3 + List.length mid.
Definition place (mid : list string) (l : list cell) : list cell := firstn (width mid) l.
Definition attributes (mid : list string) (l : list cell) : list cell := skipn (width mid) l.

(** All the attributes of the line are there. *)
Definition complete (mid : list string) (l : list cell) : Prop :=
  Forall (fun c => c <> None) (attributes mid l).

Definition completeb (mid : list string) (l : list cell) : bool :=
  forallb (fun c => match c with Some _ => true | None => false end) (attributes mid l).

(** The row [r] holds the attributes of the line [l]. *)
Definition describes (mid : list string) (names : list string) (l : list cell) (r : row)
  : Prop :=
  forall j c z, nth_error names j = Some c -> nth_error (attributes mid l) j = Some (Some z) ->
                r c = z.

(** No auxiliary file for the attributes. *)
Definition no_aux (aux : string -> option (list string)) (names : list string) : Prop :=
  forall c, In c names -> c <> "item"%string -> aux c = None.

Definition no_space (s : string) : Prop := ~ In " "%char (list_ascii_of_string s).
