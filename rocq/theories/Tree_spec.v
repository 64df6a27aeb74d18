(** Nodes of ordered trees, and their orders. *)
From Coq Require Import List Sorting String.
From Verif Require Import Tree.
Import ListNotations.
Set Implicit Arguments.

(** The node reached from [t] by following the children numbered [p] is [s]. *)
Inductive below : tree -> list nat -> tree -> Prop :=
| below_self : forall t, below t [] t
| below_child : forall n c i s p r, nth_error c i = Some s -> below s p r -> below (Node n c) (i :: p) r.

(** A node comes before its descendants, and children come in order. *)
Inductive before : list nat -> list nat -> Prop :=
| before_descendant : forall i p, before [] (i :: p)
| before_sibling : forall i j p q, i < j -> before (i :: p) (j :: q)
| before_within : forall i p q, before p q -> before (i :: p) (i :: q).

(** The same with the descendants first. *)
Inductive before_post : list nat -> list nat -> Prop :=
| post_descendant : forall i p, before_post (i :: p) []
| post_sibling : forall i j p q, i < j -> before_post (i :: p) (j :: q)
| post_within : forall i p q, before_post p q -> before_post (i :: p) (i :: q).

(** [l] lists the nodes of [t] once each, in the given order. *)
Definition visits (order : list nat -> list nat -> Prop) (t : tree) (l : list (list nat)) : Prop :=
  StronglySorted order l /\ forall p, In p l <-> exists s, below t p s.

(** The node of [t] at [p] satisfies all of [funcs]. *)
Definition selected (t : tree) (funcs : list (tree -> bool)) (p : list nat) : Prop :=
  exists s, below t p s /\ forall f, In f funcs -> f s = true.

(** [o] is the first, in [order], of the positions satisfying [P]. *)
Definition first_such (order : list nat -> list nat -> Prop) (P : list nat -> Prop) (o : option (list nat)) : Prop :=
  match o with
  | Some p => P p /\ forall q, P q -> q = p \/ order p q
  | None => forall q, ~ P q
  end.

(** The names written in a nested list, in the order of writing. *)
Fixpoint spelled (i : spec_item) : list string :=
  match i with
  | Leaf t => [name t]
  | Sub l => flat_map spelled l
  end.

(** The trees of a nested list are single nodes. *)
Fixpoint single_nodes (i : spec_item) : Prop :=
  match i with
  | Leaf t => children t = []
  | Sub l => fold_right and True (map single_nodes l)
  end.
