(** Model of ABXpy/misc/tinytree.py: ordered trees. A node is designated by its position, the
    list of the numbers of the children to follow from the root, which stands for the identity
    of the Python object. Trees are immutable here: what removes, replaces or reparents nodes
    is not modelled (ABXpy does not use it). *)
From Coq Require Import String.
From Verif Require Import Prelude.
Set Implicit Arguments.

(** tinytree.py lines 54-62: a node has children, and database.py line 79 gives it a name. *)
Inductive tree := Node (name : string) (children : list tree).

Definition position := list nat.

Definition name (t : tree) : string := match t with Node n _ => n end.
Definition children (t : tree) : list tree := match t with Node _ c => c end.

(** tinytree.py lines 233-241: [preOrder]. *)
Fixpoint pre_order (t : tree) : list position :=
  match t with
  | Node _ c =>
      [] :: (fix children n l := match l with
                                 | [] => []
                                 | s :: l' => map (cons n) (pre_order s) ++ children (S n) l'
                                 end) 0 c
  end.

(** tinytree.py lines 243-251: [postOrder]. *)
Fixpoint post_order (t : tree) : list position :=
  match t with
  | Node _ c =>
      (fix children n l := match l with
                           | [] => []
                           | s :: l' => map (cons n) (post_order s) ++ children (S n) l'
                           end) 0 c ++ [[]]
  end.

(** The node at a position, below [t]. *)
Fixpoint node_at (t : tree) (p : position) : option tree :=
  match p with
  | [] => Some t
  | i :: p' => match nth_error (children t) i with Some s => node_at s p' | None => None end
  end.

(** tinytree.py lines 253-270: [_find] with selector functions (no attribute selectors): the
    first of the positions whose node all selectors accept. *)
Fixpoint find_in (t : tree) (itr : list position) (funcs : list (tree -> bool)) : option position :=
  match itr with
  | [] => None
  | p :: itr' =>
      match node_at t p with
      | Some s => if forallb (fun f => f s) funcs then Some p else find_in t itr' funcs
      | None => find_in t itr' funcs
      end
  end.

(** tinytree.py lines 272-286: [findChild]. *)
Definition find_child (t : tree) (funcs : list (tree -> bool)) : option position :=
  find_in t (pre_order t) funcs.

(** tinytree.py lines 203-214: [pathToRoot], from the node at [p]. *)
Fixpoint path_to_root (p : position) : list position :=
  match p with
  | [] => [[]]
  | i :: p' => map (cons i) (path_to_root p') ++ [[]]
  end.

(** tinytree.py lines 216-223: [pathFromRoot]. *)
Definition path_from_root (p : position) : list position := rev (path_to_root p).

Definition position_eqb (p q : position) : bool := if list_eq_dec Nat.eq_dec p q then true else false.

(** The rest of a list after the first occurrence of [p]. *)
Fixpoint after (p : position) (l : list position) : list position :=
  match l with
  | [] => []
  | q :: l' => if position_eqb q p then l' else after p l'
  end.

(** tinytree.py lines 305-321: [findForwards] from the node at [p] of the tree [root]. *)
Definition find_forwards (root : tree) (p : position) (funcs : list (tree -> bool)) : option position :=
  find_in root (after p (pre_order root)) funcs.

(** tinytree.py lines 323-339: [findBackwards]. *)
Definition find_backwards (root : tree) (p : position) (funcs : list (tree -> bool)) : option position :=
  find_in root (after p (rev (pre_order root))) funcs.

(** tinytree.py lines 341-351: [getPrevious] and [getNext]. *)
Definition get_previous (root : tree) (p : position) : option position := find_backwards root p [fun _ => true].
Definition get_next (root : tree) (p : position) : option position := find_forwards root p [fun _ => true].

(** tinytree.py lines 353-358: [getDepth]. *)
Definition get_depth (p : position) : nat := length (path_to_root p).

(** tinytree.py lines 422-426: [count]. *)
Definition count (t : tree) : nat := length (pre_order t).

(** What [addChildrenFromList] is given: trees, and lists of them. *)
Inductive spec_item := Leaf (t : tree) | Sub (l : list spec_item).

(** tinytree.py lines 64-94: [addChildrenFromList] ([addChild] refuses what is not a tree).
    The list after a tree gives children to it. *)
Fixpoint sub_children (i : spec_item) : res (list tree) :=
  match i with
  | Leaf _ => Err ValueError
  | Sub l =>
      (fix go l := match l with
                   | [] => Ok []
                   | Sub _ :: _ => Err ValueError
                   | Leaf t :: l' =>
                       match l' with
                       | (Sub _ as s) :: l'' => c <- sub_children s ;; r <- go l'' ;; Ok (Node (name t) (children t ++ c) :: r)
                       | _ => r <- go l' ;; Ok (t :: r)
                       end
                   end) l
  end.

Definition add_children (t : tree) (l : list spec_item) : res tree :=
  c <- sub_children (Sub l) ;; Ok (Node (name t) (children t ++ c)).

(** [node.name for node in tree.preOrder()] (side_operations_manager.py lines 24-25, 41, 53). *)
Definition names (t : tree) : list string :=
  flat_map (fun p => match node_at t p with Some s => [name s] | None => [] end) (pre_order t).
