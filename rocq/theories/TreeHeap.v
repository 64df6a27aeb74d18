(** Model of ABXpy/misc/tinytree.py with the nodes as Python objects: what adds, removes, replaces
    and reparents nodes changes the objects. (Tree.v models navigation in a tree that does not
    change.) An object is designated by a number; the memory gives its fields. Attributes other
    than children and parent, set by the users of the class, are in a dictionary. *)
From Coq Require Import String.
From Coq Require Import List Arith Bool.
From Verif Require Import Prelude.
Import ListNotations.
Set Implicit Arguments.

Section Memory.
Variable V : Type.                     (* values of attributes *)
Variable veq : V -> V -> bool.         (* == *)
Variable vtrue : V -> bool.            (* the truth of a value *)

(** tinytree.py lines 55-62: the fields of a node. *)
Record node := mk_node { n_children : list nat; n_parent : option nat; n_attrs : list (string * V) }.
Definition memory := nat -> node.
Definition set (m : memory) (i : nat) (n : node) : memory := fun j => if Nat.eqb j i then n else m j.
Definition set_children (m : memory) (i : nat) (c : list nat) : memory :=
  set m i (mk_node c (n_parent (m i)) (n_attrs (m i))).
Definition set_parent (m : memory) (i : nat) (p : option nat) : memory :=
  set m i (mk_node (n_children (m i)) p (n_attrs (m i))).

(** What a method does: the memory when it ends, and what it returns or raises. *)
Definition outcome (A : Type) := (memory * res A)%type.
Definition andthen {A B : Type} (o : outcome A) (k : memory -> A -> outcome B) : outcome B :=
  match o with
  | (m, Ok a) => k m a
  | (m, Err e) => (m, Err e)
  end.

(** What a method can be given: a node, a list (or a tuple) of such things, or something else, a text
    or a number. *)
Inductive thing := Tree (i : nat) | Sequence (l : list thing) | Other.

(** tinytree.py lines 97-103: [register]. *)
Definition register (m : memory) (i parent : nat) : memory := set_parent m i (Some parent).

(** tinytree.py lines 84-95: [addChild]. *)
Definition add_child (m : memory) (self : nat) (child : thing) : outcome unit :=
  match child with
  | Tree i => (register (set_children m self (n_children (m self) ++ [i])) i self, Ok tt)
  | _ => (m, Err ValueError)
  end.

(** tinytree.py lines 38-46: [_isSequenceLike]; texts are refused. *)
Definition is_sequence (x : thing) : bool := match x with Sequence _ => true | _ => false end.

(** tinytree.py lines 64-82: [addChildrenFromList]. The pairs of neighbours are read in turn: the first
    of a pair is added as a child, and when the second is a list, it gives children to the first
    and is not the first of a pair itself. (Called on something that is not a list, it raises TypeError
    here; a text would be refused character by character.) *)
Fixpoint add_children (m : memory) (self : nat) (children : thing) {struct children} : outcome unit :=
  match children with
  | Sequence l =>
      (fix go (m : memory) (l : list thing) {struct l} : outcome unit :=
         match l with
         | [] => (m, Ok tt)
         | x :: l' =>
             andthen (add_child m self x) (fun m _ =>
             match l' with
             | y :: l'' =>
                 if is_sequence y
                 then match x with
                      | Tree i => andthen (add_children m i y) (fun m _ => go m l'')
                      | _ => (m, Err AttributeError)
                      end
                 else go m l'
             | [] => (m, Ok tt)
             end)
         end) m l
  | _ => (m, Err TypeError)
  end.

(** tinytree.py lines 55-62: [__init__] of the new object [self]. An empty list is not looked at. *)
Definition new_tree (m : memory) (self : nat) (children : option (list thing)) : outcome unit :=
  let m := set m self (mk_node [] None []) in
  match children with
  | None | Some [] => (m, Ok tt)
  | Some l => andthen (add_children m self (Sequence l)) (fun m _ => (set_parent m self None, Ok tt))
  end.

(** [list.index] on identities. *)
Fixpoint index_of (i : nat) (l : list nat) : res nat :=
  match l with
  | [] => Err ValueError
  | j :: l' => if Nat.eqb j i then Ok 0 else n <- index_of i l' ;; Ok (S n)
  end.

(** tinytree.py lines 105-114: [index]. *)
Definition index (m : memory) (self : nat) : res nat :=
  match n_parent (m self) with
  | None => Err ValueError
  | Some p => index_of self (n_children (m p))
  end.

(** tinytree.py lines 116-124: [remove]. *)
Definition remove (m : memory) (self : nat) : outcome nat :=
  match index m self with
  | Err e => (m, Err e)
  | Ok idx =>
      match n_parent (m self) with
      | None => (m, Err AttributeError)
      | Some p => (set_parent (set_children m p (firstn idx (n_children (m p)) ++ skipn (S idx) (n_children (m p)))) self None, Ok idx)
      end
  end.

(** tinytree.py lines 126-134: [clear]. *)
Fixpoint remove_all (m : memory) (l : list nat) : outcome unit :=
  match l with
  | [] => (m, Ok tt)
  | i :: l' => andthen (remove m i) (fun m _ => remove_all m l')
  end.
Definition clear (m : memory) (self : nat) : outcome (list nat) :=
  let n := n_children (m self) in andthen (remove_all m n) (fun m _ => (m, Ok n)).

(** [l[idx:idx] = nodes]. *)
Definition insert_at (idx : nat) (nodes l : list nat) : list nat := firstn idx l ++ nodes ++ skipn idx l.

(** tinytree.py lines 136-148: [replace]. *)
Definition replace (m : memory) (self : nat) (nodes : list nat) : outcome unit :=
  let parent := n_parent (m self) in
  andthen (remove m self) (fun m idx =>
  match parent with
  | None => (m, Err AttributeError)
  | Some p =>
      let m := set_children m p (insert_at idx nodes (n_children (m p))) in
      (fold_left (fun m i => register m i p) nodes m, Ok tt)
  end).

(** tinytree.py lines 150-162: [inject]. *)
Fixpoint move_all (m : memory) (node : nat) (l : list nat) : outcome unit :=
  match l with
  | [] => (m, Ok tt)
  | i :: l' => andthen (remove m i) (fun m _ => andthen (add_child m node (Tree i)) (fun m _ => move_all m node l'))
  end.
Definition inject (m : memory) (self node : nat) : outcome nat :=
  andthen (move_all m node (n_children (m self))) (fun m _ =>
  andthen (clear m self) (fun m _ =>
  andthen (add_child m self (Tree node)) (fun m _ => (m, Ok node)))).

(** tinytree.py lines 164-173: [reparent]. *)
Definition reparent (m : memory) (self node : nat) : outcome nat :=
  andthen (replace m self [node]) (fun m _ =>
  andthen (add_child m node (Tree self)) (fun m _ => (m, Ok node))).

(** tinytree.py lines 203-214: [pathToRoot]; [fuel] bounds the number of steps. *)
Fixpoint path_to_root (fuel : nat) (m : memory) (self : nat) : res (list nat) :=
  match fuel with
  | O => Err OutOfFuel
  | S fuel =>
      match n_parent (m self) with
      | None => Ok [self]
      | Some p => l <- path_to_root fuel m p ;; Ok (self :: l)
      end
  end.

(** tinytree.py lines 216-223: [pathFromRoot]. *)
Definition path_from_root (fuel : nat) (m : memory) (self : nat) : res (list nat) :=
  l <- path_to_root fuel m self ;; Ok (rev l).

(** tinytree.py lines 225-231: [getRoot]: the last of the path. *)
Definition get_root (fuel : nat) (m : memory) (self : nat) : res nat :=
  l <- path_to_root fuel m self ;; Ok (last l self).

(** tinytree.py lines 192-201: [siblings]. *)
Definition siblings (m : memory) (self : nat) : list nat :=
  match n_parent (m self) with
  | None => [self]
  | Some p => n_children (m p)
  end.

(** tinytree.py lines 175-190: [isDescendantOf] and [isSiblingOf]. *)
Definition is_descendant_of (fuel : nat) (m : memory) (self node : nat) : res bool :=
  l <- path_to_root fuel m node ;; Ok (existsb (Nat.eqb self) l).
Definition is_sibling_of (m : memory) (self node : nat) : bool := existsb (Nat.eqb self) (siblings m node).

(** tinytree.py lines 233-241: [preOrder]. *)
Fixpoint pre_order (fuel : nat) (m : memory) (self : nat) : res (list nat) :=
  match fuel with
  | O => Err OutOfFuel
  | S fuel => l <- mapM (pre_order fuel m) (n_children (m self)) ;; Ok (self :: concat l)
  end.

(** tinytree.py lines 243-251: [postOrder]. *)
Fixpoint post_order (fuel : nat) (m : memory) (self : nat) : res (list nat) :=
  match fuel with
  | O => Err OutOfFuel
  | S fuel => l <- mapM (post_order fuel m) (n_children (m self)) ;; Ok (concat l ++ [self])
  end.

(** The value of an attribute. *)
Fixpoint attr (l : list (string * V)) (name : string) : option V :=
  match l with
  | [] => None
  | (k, v) :: l' => if String.eqb k name then Some v else attr l' name
  end.

(** tinytree.py lines 253-270: [_find], with functions and values of attributes. *)
Definition matches (m : memory) (kwargs : list (string * V)) (i : nat) : bool :=
  forallb (fun kv => match attr (n_attrs (m i)) (fst kv) with Some v => veq v (snd kv) | None => false end) kwargs.
Fixpoint find_in (m : memory) (itr : list nat) (func : list (nat -> bool)) (kwargs : list (string * V)) : option nat :=
  match itr with
  | [] => None
  | i :: itr' => if (matches m kwargs i && forallb (fun f => f i) func)%bool then Some i else find_in m itr' func kwargs
  end.

(** tinytree.py lines 272-285: [findChild]. *)
Definition find_child (fuel : nat) (m : memory) (self : nat) func kwargs : res (option nat) :=
  l <- pre_order fuel m self ;; Ok (find_in m l func kwargs).

(** tinytree.py lines 287-303: [findParent]: the node itself is left out. *)
Definition find_parent (fuel : nat) (m : memory) (self : nat) func kwargs : res (option nat) :=
  l <- path_to_root fuel m self ;; Ok (find_in m (skipn 1 l) func kwargs).

(** What follows [self] in a list. *)
Fixpoint after (self : nat) (l : list nat) : list nat :=
  match l with
  | [] => []
  | i :: l' => if Nat.eqb i self then l' else after self l'
  end.

(** tinytree.py lines 305-321: [findForwards]. *)
Definition find_forwards (fuel : nat) (m : memory) (self : nat) func kwargs : res (option nat) :=
  r <- get_root fuel m self ;; l <- pre_order fuel m r ;; Ok (find_in m (after self l) func kwargs).

(** tinytree.py lines 323-339: [findBackwards]. *)
Definition find_backwards (fuel : nat) (m : memory) (self : nat) func kwargs : res (option nat) :=
  r <- get_root fuel m self ;; l <- pre_order fuel m r ;;
  n <- index_of self (rev l) ;; Ok (find_in m (skipn (S n) (rev l)) func kwargs).

(** tinytree.py lines 341-351: [getPrevious] and [getNext]. *)
Definition get_previous (fuel : nat) (m : memory) (self : nat) : res (option nat) := find_backwards fuel m self [fun _ => true] [].
Definition get_next (fuel : nat) (m : memory) (self : nat) : res (option nat) := find_forwards fuel m self [fun _ => true] [].

(** tinytree.py lines 353-358: [getDepth]. *)
Definition get_depth (fuel : nat) (m : memory) (self : nat) : res nat :=
  l <- path_to_root fuel m self ;; Ok (length l).

(** tinytree.py lines 360-371: [findAttr]. *)
Fixpoint first_attr (m : memory) (l : list nat) (name : string) (default : V) : V :=
  match l with
  | [] => default
  | i :: l' => match attr (n_attrs (m i)) name with Some v => v | None => first_attr m l' name default end
  end.
Definition find_attr (fuel : nat) (m : memory) (self : nat) (name : string) (default : V) : res V :=
  l <- path_to_root fuel m self ;; Ok (first_attr m l name default).

(** tinytree.py lines 373-384: [attrsToRoot]. *)
Definition attrs_to_root (fuel : nat) (m : memory) (self : nat) (name : string) : res (list V) :=
  l <- path_to_root fuel m self ;;
  Ok (flat_map (fun i => match attr (n_attrs (m i)) name with Some v => if vtrue v then [v] else [] | None => [] end) l).

(** tinytree.py lines 396-402: reading a [treeProp]. *)
Fixpoint tree_prop (fuel : nat) (m : memory) (self : nat) (name : string) : res V :=
  match fuel with
  | O => Err OutOfFuel
  | S fuel =>
      match attr (n_attrs (m self)) name with
      | Some v => Ok v
      | None => match n_parent (m self) with
                | None => Err ValueError
                | Some p => tree_prop fuel m p name
                end
      end
  end.

(** tinytree.py lines 404-405: setting it. *)
Definition set_prop (m : memory) (self : nat) (name : string) (v : V) : memory :=
  set m self (mk_node (n_children (m self)) (n_parent (m self)) ((name, v) :: n_attrs (m self))).

(** tinytree.py lines 408-420: [dump] calls [unicode], which Python 3 does not have; nothing is written
    before. The first node of the traversal is [self]. *)
Definition dump (fuel : nat) (m : memory) (self : nat) : res unit :=
  d <- get_depth fuel m self ;; Err NameError.

(** tinytree.py lines 422-426: [count]. *)
Definition count (fuel : nat) (m : memory) (self : nat) : res nat :=
  l <- pre_order fuel m self ;; Ok (length l).

(** tinytree.py lines 429-445: [constructFromList]. *)
Fixpoint construct (m : memory) (before : option thing) (l : list thing) : outcome (list thing) :=
  match l with
  | [] => (m, Ok [])
  | x :: l' =>
      if is_sequence x
      then match before with
           | None => (m, Err ValueError)
           | Some y =>
               if is_sequence y then (m, Err ValueError)
               else match y with
                    | Tree i => andthen (add_children m i x) (fun m _ => construct m (Some x) l')
                    | _ => (m, Err AttributeError)
                    end
           end
      else andthen (construct m (Some x) l') (fun m heads => (m, Ok (x :: heads)))
  end.
Definition construct_from_list (m : memory) (l : list thing) : outcome (list thing) := construct m None l.

End Memory.
