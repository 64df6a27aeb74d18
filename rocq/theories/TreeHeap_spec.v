(** Ordered trees of objects, and what it means that a memory holds them. *)
From Coq Require Import String.
From Coq Require Import List Arith Permutation.
From Verif Require Import Prelude TreeHeap.
Import ListNotations.
Set Implicit Arguments.

(** A tree: an object and the trees below it. *)
Inductive shape := At (i : nat) (below : list shape).
Definition top (t : shape) : nat := match t with At i _ => i end.
Definition below (t : shape) : list shape := match t with At _ c => c end.

(** The objects of a tree, in pre-order and in post-order. *)
Fixpoint objects (t : shape) : list nat := match t with At i c => i :: flat_map objects c end.
Fixpoint objects_post (t : shape) : list nat := match t with At i c => flat_map objects_post c ++ [i] end.

(** Where a tree is inside another one: what is around it, from the inside to the outside. Each level is
    an object with the trees on the left and on the right of the way. *)
Definition way := list (nat * list shape * list shape).
Fixpoint put (w : way) (t : shape) : shape :=
  match w with
  | [] => t
  | (p, l, r) :: w' => put w' (At p (l ++ t :: r))
  end.
Definition up (w : way) : list nat := map (fun x => fst (fst x)) w.

Section Memory.
Variable V : Type.

(** The fields of the objects of [t] are those of this tree, whose top has the parent [parent]. *)
Inductive holds (m : memory V) : option nat -> shape -> Prop :=
| holds_at parent i c : n_children (m i) = map top c -> n_parent (m i) = parent ->
    (forall t, In t c -> holds m (Some i) t) -> holds m parent (At i c).

(** The memory holds these trees, which share no object. *)
Definition forest (m : memory V) (ts : list shape) : Prop :=
  (forall t, In t ts -> holds m None t) /\ NoDup (flat_map objects ts).

(** The attributes are the same, and so are all the fields of the objects that are not in [l]. *)
Definition only (l : list nat) (m m' : memory V) : Prop :=
  (forall i, n_attrs (m' i) = n_attrs (m i)) /\ (forall i, ~ In i l -> m' i = m i).
End Memory.

(** The trees spelled by a nested list of objects: the list after an object gives children to it, after
    those it has already. *)
Inductive spells (has : nat -> list shape) : list thing -> list shape -> Prop :=
| spells_nil : spells has [] []
| spells_leaf i l ts : match l with Sequence _ :: _ => False | _ => True end -> spells has l ts -> spells has (Tree i :: l) (At i (has i) :: ts)
| spells_node i l' l cs ts : spells has l' cs -> spells has l ts -> spells has (Tree i :: Sequence l' :: l) (At i (has i ++ cs) :: ts).

(** The value of an attribute: the last that was set. *)
Definition valued (V : Type) (m : memory V) (name : string) (i : nat) (v : V) : Prop :=
  exists later earlier, n_attrs (m i) = later ++ (name, v) :: earlier /\ forall v', ~ In (name, v') later.

(** An object that functions and values of attributes select. *)
Definition selected (V : Type) (veq : V -> V -> bool) (m : memory V) (func : list (nat -> bool)) (kwargs : list (string * V)) (i : nat) : Prop :=
  (forall f, In f func -> f i = true) /\ forall name v, In (name, v) kwargs -> exists v', valued m name i v' /\ veq v' v = true.

(** The nearest value of an attribute along a list of objects. *)
Definition nearest (V : Type) (m : memory V) (name : string) (l : list nat) (o : option V) : Prop :=
  match o with
  | Some v => exists before i after, l = before ++ i :: after /\ valued m name i v /\ forall j v', In j before -> ~ valued m name j v'
  | None => forall j v', In j l -> ~ valued m name j v'
  end.

(** The first of a list with a property, if there is one. *)
Definition first_with (P : nat -> Prop) (l : list nat) (o : option nat) : Prop :=
  match o with
  | Some i => exists before after, l = before ++ i :: after /\ P i /\ forall j, In j before -> ~ P j
  | None => forall j, In j l -> ~ P j
  end.

(** The objects of a nested list. *)
Fixpoint mentioned (x : thing) : list nat :=
  match x with
  | Tree i => [i]
  | Sequence l => flat_map mentioned l
  | Other => []
  end.

(** Objects and lists of them, without anything else. *)
Fixpoint pure (x : thing) : Prop :=
  match x with
  | Tree _ => True
  | Sequence l => fold_right (fun y P => pure y /\ P) True l
  | Other => False
  end.
