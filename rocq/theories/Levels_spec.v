(** What the number of levels must count, stated on the item table as the user gave it. *)
From Coq Require Import String.
From Verif Require Import Prelude Task Task_spec Task_stats_spec.
Set Implicit Arguments.
Open Scope Z_scope.

(** The items [a], [b] and [x] of group [k] are the lines [ra], [rb] and [rx]. *)
Definition three (T : task) (db : list row) (k : key) (a b x : Z) (ra rb rx : row) : Prop :=
  item (by_rows T db k) a ra /\ item (by_rows T db k) b rb /\ item (by_rows T db k) x rx.

(** The type of a triplet: on and across values of A, on value of B, across values of X. *)
Definition type_of (T : task) (ra rb rx : row) : key * Z * key :=
  (map ra (t_on T :: t_across T), rb (t_on T), map rx (t_across T)).

(** [L] lists once each type of the triplets of group [k]. *)
Definition lists_types (T : task) (db : list row) (k : key) (L : list (key * Z * key)) : Prop :=
  NoDup L /\ forall v, In v L <->
    exists a b x ra rb rx, three T db k a b x ra rb rx /\ wanted T db k a b x /\ v = type_of T ra rb rx.

(** Without across: item A and on value of B. *)
Definition lists_item_types (T : task) (db : list row) (k : key) (L : list (Z * Z)) : Prop :=
  NoDup L /\ forall v, In v L <->
    exists a b x ra rb rx, three T db k a b x ra rb rx /\ wanted T db k a b x /\ v = (a, rb (t_on T)).

(** The types of the pairs A, B with the pairs A, X, where X differs from A in some across column. *)
Definition lists_pair_types (T : task) (db : list row) (k : key) (L : list (key * Z * key)) : Prop :=
  NoDup L /\ forall v, In v L <->
    exists a b x ra rb rx, three T db k a b x ra rb rx /\ across_pair T db k a b /\ on_pair T db k a x /\
      v = type_of T ra rb rx.
