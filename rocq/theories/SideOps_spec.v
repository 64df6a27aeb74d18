(** What filters mean, stated on the items of a triplet. *)
From Coq Require Import Ascii String.
From Verif Require Import Prelude Task Task_spec Tree Tree_spec SideOps.
Set Implicit Arguments.
Open Scope string_scope.
Open Scope list_scope.
Local Open Scope nat_scope.

(** A name without underscore. *)
Definition plain (c : string) : Prop := ~ In "_"%char (list_ascii_of_string c).

(** The extensions of column names. *)
Definition extension (s : string) : Prop :=
  s = "" \/ s = "_A" \/ s = "_B" \/ s = "_X" \/ s = "_AB" \/ s = "_AX" \/ s = "_1" \/ s = "_2".

(** Column [c] is determined by column [col]: it is [col] or below it in the hierarchy. *)
Definition descends (forest : list tree) (col c : string) : Prop :=
  exists t p s q r, In t forest /\ below t p s /\ name s = col /\ below s q r /\ name r = c.

(** A filter computes [p] on each line of its columns. *)
Definition elementwise (f : dbfun) (p : (string -> Z) -> bool) : Prop :=
  forall ctx (lines : list (string -> Z)),
    (forall n, In n (input_names f) -> dict_get ctx n = Ok (map (fun e => e n) lines)) ->
    (input_names f = [] -> List.length lines = 1) ->
    evaluate f ctx = Ok (Flat (map p lines)).

(** A context that has the columns [names] of [lines], and only columns of this length. *)
Definition has_columns (ctx : context) (names : list string) (lines : list (string -> Z)) : Prop :=
  (forall n, In n names -> dict_get ctx n = Ok (map (fun e => e n) lines)) /\
  (forall n l, In (n, l) ctx -> List.length l = List.length lines).

(** The meaning of an extended column on a triplet. [_AB], [_AX] and [_1] mean the value of A,
    and [_2] that of B for what the on column determines, otherwise that of X. *)
Inductive means (on_cols : list string) (a b x : row) : string -> string -> Z -> Prop :=
| means_A : forall c s, s = "" \/ s = "_A" \/ s = "_AB" \/ s = "_AX" \/ s = "_1" -> means on_cols a b x c s (a c)
| means_B : forall c s, s = "_B" \/ s = "_2" /\ In c on_cols -> means on_cols a b x c s (b c)
| means_X : forall c s, s = "_X" \/ s = "_2" /\ ~ In c on_cols -> means on_cols a b x c s (x c).

(** The extended columns, read on a triplet. *)
Definition reads_triplet (C : columns) (a b x : row) (env : string -> Z) : Prop :=
  forall c s, In c (all_cols C) -> extension s -> means (on_cols C) a b x c s (env (c ++ s)%string).

(** [n] is the column [c] with the extension [s]. *)
Definition named (C : columns) (n c s : string) : Prop := n = (c ++ s)%string /\ In c (all_cols C) /\ extension s.

(** A filter on plain columns. *)
Definition generic_names (C : columns) (names : list string) : Prop :=
  names <> [] /\ forall n, In n names -> exists c, named C n c "" /\ ~ In c (by_cols C).

(** The filters that can be evaluated: on columns of the by values, or on plain columns, or
    such that [_AB] and [_AX] extend columns determined by the on or across columns. *)
Definition usable (C : columns) (f : dbfun) : Prop :=
  NoDup (input_names f) /\
  (forall n, In n (input_names f) -> exists c s, named C n c s) /\
  ((forall n c s, In n (input_names f) -> named C n c s -> In c (by_cols C)) \/
   generic_names C (input_names f) \/
   forall n c s, In n (input_names f) -> named C n c s ->
     In c (by_cols C) \/ s <> "" /\ (s = "_AB" \/ s = "_AX" -> In c (on_cols C) \/ In c (across_cols C))).

(** What a filter computing [p] says of a triplet; a filter on plain columns is about each
    of its items. *)
Definition accepts (C : columns) (f : dbfun) (p : (string -> Z) -> bool) (a b x : row) : Prop :=
  (generic_names C (input_names f) ->
     forall y env, y = a \/ y = b \/ y = x -> reads_triplet C y y y env -> p env = true) /\
  (~ generic_names C (input_names f) -> forall env, reads_triplet C a b x env -> p env = true).

(** In the table, what is below a column in the hierarchy is determined by it. *)
Definition hierarchical (forest : list tree) (db : list row) : Prop :=
  forall col c r r', descends forest col c -> In r db -> In r' db -> r col = r' col -> r c = r' c.

(** The names of the columns of a hierarchy. *)
Definition well_named (forest : list tree) : Prop :=
  NoDup (flat_map names forest) /\ Forall plain (flat_map names forest) /\
  ~ In "#by" (flat_map names forest) /\ ~ In "#across" (flat_map names forest).

(** The filters on plain columns accept the item. *)
Definition item_accepted (C : columns) (fps : list (dbfun * ((string -> Z) -> bool))) (r : row) : Prop :=
  forall f p, In (f, p) fps -> generic_names C (input_names f) -> forall env, reads_triplet C r r r env -> p env = true.

(** In every by group the items they accept come first. *)
Definition accepted_first (T : task) (db : list row) (C : columns) (fps : list (dbfun * ((string -> Z) -> bool))) : Prop :=
  forall k i j ri rj, (i <= j)%Z -> item (by_rows T db k) i ri -> item (by_rows T db k) j rj ->
    item_accepted C fps rj -> item_accepted C fps ri.

(** The triplets of a task all of whose filters are true of it. *)
Definition filtered (T : task) (db : list row) (C : columns) (fps : list (dbfun * ((string -> Z) -> bool))) (k : key) (a b x : Z) : Prop :=
  exists ra rb rx,
    item (by_rows T db k) a ra /\ item (by_rows T db k) b rb /\ item (by_rows T db k) x rx /\
    abx T a x ra rb rx /\ forall f p, In (f, p) fps -> accepts C f p ra rb rx.

(** What the manager asks of the columns of a filter: known names, [_1] and [_2] on what the
    on or across columns determine, [_AX] on what the across columns determine, and no mix of
    plain and extended names. *)
Definition all_named (C : columns) (f : dbfun) : Prop := forall n, In n (input_names f) -> exists c s, named C n c s.

Definition placed (C : columns) (f : dbfun) : Prop := forall n c s, In n (input_names f) -> named C n c s ->
  (s = "_1" \/ s = "_2" -> In c (on_cols C) \/ In c (across_cols C)) /\ (s = "_AX" -> In c (across_cols C)).

Definition unmixed (C : columns) (f : dbfun) : Prop := forall n c s n' c' s',
  In n (input_names f) -> named C n c s -> ~ In c (by_cols C) -> In n' (input_names f) -> named C n' c' s' -> ~ In c' (by_cols C) ->
  s = "" -> s' = "".
