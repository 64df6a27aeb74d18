(** The filters that use columns together that are never given together. *)
From Coq Require Import String.
From Verif Require Import Prelude Task Tree SideOps SideOps_spec.
Set Implicit Arguments.
Open Scope string_scope.
Open Scope list_scope.

(** One of the names is a column determined by the by columns. *)
Definition some_by (C : columns) (inputs : list string) : Prop :=
  exists n c s, In n inputs /\ named C n c s /\ In c (by_cols C).

(** One of the names is another column, without extension. *)
Definition some_plain (C : columns) (inputs : list string) : Prop :=
  exists n c, In n inputs /\ named C n c "" /\ ~ In c (by_cols C).

(** One of the names has the extension [_AB] and is a column that nothing determines. *)
Definition lone_AB (C : columns) (inputs : list string) : Prop :=
  exists n c, In n inputs /\ named C n c "_AB" /\ ~ In c (by_cols C) /\ ~ In c (on_cols C) /\ ~ In c (across_cols C).

(** The item is in the table. *)
Definition located (fr : frame) (i : Z) : Prop := exists r, loc fr i = Ok r.
