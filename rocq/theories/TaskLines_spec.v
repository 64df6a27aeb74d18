(** The triplets of a task file as lines of the item file. *)
From Coq Require Import String.
From Coq Require Import List ZArith.
From Verif Require Import Prelude Task Task_spec.
Import ListNotations.
Local Open Scope list_scope.
Local Open Scope Z_scope.

(** The lines of a by group, numbered in the item table (from 0). *)
Definition group_lines (T : task) (db : list row) (k : key) : list (nat * row) :=
  filter (fun p => match t_by T with
                   | [] => if key_dec k [0] then true else false
                   | cols => if key_dec (map (snd p) cols) k then true else false
                   end)
         (combine (seq 0 (length db)) db).

(** Item [i] of the by group [k] is on the line [n]. *)
Definition on_line (T : task) (db : list row) (k : key) (i : Z) (n : nat) : Prop :=
  0 <= i /\ exists r, nth_error (group_lines T db k) (Z.to_nat i) = Some (n, r).

(** Three lines of the item table; A, B and X. *)
Definition lines := (nat * nat * nat)%type.

(** The task file has the triplet made of these lines. *)
Definition has (T : task) (db : list row) (o : option task_file) (l : lines) : Prop :=
  let '(na, nb, nx) := l in
  match o with
  | None => False
  | Some f => exists k ij a b x, In (k, ij) (combine (fl_bys f) (fl_by_index f)) /\ In (a, b, x) (rows_of ij (fl_triplets f)) /\
      on_line T db k a na /\ on_line T db k b nb /\ on_line T db k x nx
  end.

(** The definition of a triplet, on lines of the item table. *)
Definition abx_lines (T : task) (db : list row) (l : lines) : Prop :=
  let '(na, nb, nx) := l in
  exists ra rb rx, nth_error db na = Some ra /\ nth_error db nb = Some rb /\ nth_error db nx = Some rx /\
    (forall c, In c (t_by T) -> rb c = ra c /\ rx c = ra c) /\
    rx (t_on T) = ra (t_on T) /\ rb (t_on T) <> ra (t_on T) /\
    (forall c, In c (t_across T) -> rb c = ra c /\ rx c <> ra c) /\
    nx <> na /\
    passes (t_filters T) ra rb rx.

(** The three lines have the same values in the columns [m]. *)
Definition agree_on (db : list row) (m : list string) (l : lines) : Prop :=
  let '(na, nb, nx) := l in
  forall ra rb rx c, nth_error db na = Some ra -> nth_error db nb = Some rb -> nth_error db nx = Some rx -> In c m ->
    rb c = ra c /\ rx c = ra c.

(** A and B have the same values in the columns [m], X has other ones. *)
Definition across_on (db : list row) (m : list string) (l : lines) : Prop :=
  let '(na, nb, nx) := l in
  forall ra rb rx c, nth_error db na = Some ra -> nth_error db nb = Some rb -> nth_error db nx = Some rx -> In c m ->
    rb c = ra c /\ rx c <> ra c.

(** A task is made from the table and its triplets are generated, without threshold and with
    item numbers that can be stored; [n] is the announced number and [o] the file. *)
Definition generated (korder : list key -> list key) (enum : list Z -> list Z) (argsort : list Z -> list nat)
  (T : task) (cols : list string) (db : list row) (n : Z) (o : option task_file) : Prop :=
  exists R fuel c T' bs st bs',
    task_init korder enum T cols db = Ok (T', bs, st) /\ n = s_nb_triplets st /\
    generate_triplets korder enum argsort R fuel T' None bs st c = Ok (bs', o) /\
    storable T db (capacity (s_nb_triplets st)).

(** What is asked of filters, see Task_spec.v. *)
Definition fine (cols : list string) (T : task) (db : list row) : Prop :=
  reads cols (t_filters T) /\ determined T db /\ kept_first T db.

(** [T] with other by or across columns. *)
Definition with_by (T : task) (m : list string) : task :=
  mk_task (t_on T) (t_across T) (t_by T ++ m) (t_filters T) (t_regressors T).
Definition with_across (T : task) (m : list string) : task :=
  mk_task (t_on T) (t_across T ++ m) (t_by T) (t_filters T) (t_regressors T).
