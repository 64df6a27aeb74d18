(** What the statistics of a task must count, stated on the item table as the user gave it. *)
From Coq Require Import String.
From Verif Require Import Prelude Task Task_spec.
Set Implicit Arguments.
Open Scope Z_scope.

(** Item [i] of group [k] is the line [r], and the generic filters keep it. *)
Definition kept_item (T : task) (db : list row) (k : key) (i : Z) (r : row) : Prop :=
  item (by_rows T db k) i r /\ f_generic (t_filters T) r r = true.

(** [l] lists once each item kept in group [k]. *)
Definition lists_items (T : task) (db : list row) (k : key) (l : list Z) : Prop :=
  NoDup l /\ forall i, In i l <-> exists r, kept_item T db k i r.

(** [L] lists once each combination of values of the columns [cs] in group [k]. *)
Definition lists_values (T : task) (db : list row) (k : key) (cs : list string) (L : list key) : Prop :=
  NoDup L /\ forall v, In v L <-> exists i r, kept_item T db k i r /\ map r cs = v.

(** A and B of a block that the on/across/by filters keep: B differs on the on column and
    agrees on the across columns. *)
Definition across_pair (T : task) (db : list row) (k : key) (a b : Z) : Prop :=
  exists ra rb, kept_item T db k a ra /\ kept_item T db k b rb /\ f_oab (t_filters T) ra = true /\
    rb (t_on T) <> ra (t_on T) /\ forall c, In c (t_across T) -> rb c = ra c.

(** A and X of a block that the on/across/by filters keep: X agrees on the on column, and is
    not in the block of A. *)
Definition on_pair (T : task) (db : list row) (k : key) (a x : Z) : Prop :=
  exists ra rx, kept_item T db k a ra /\ kept_item T db k x rx /\ f_oab (t_filters T) ra = true /\
    rx (t_on T) = ra (t_on T) /\
    match t_across T with
    | [] => x <> a
    | _ => exists c, In c (t_across T) /\ rx c <> ra c
    end.

Definition lists_pairs (P : Z -> Z -> Prop) (l : list (Z * Z)) : Prop :=
  NoDup l /\ forall a b, In (a, b) l <-> P a b.
