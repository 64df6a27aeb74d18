(** Properties of trees whose nodes are added, removed, replaced and moved (C83). *)
From Coq Require Import String.
From Coq Require Import List.
From Verif Require Import Prelude TreeHeap TreeHeap_spec TreeHeap_proofs TreeHeap_walk TreeHeap_ex.
Import ListNotations.
Open Scope string_scope.
Open Scope list_scope.

(** C83: adding a tree puts it after the children the node had, wherever the node is; nothing else changes. *)
Theorem C83_add_child : forall V (m : memory V) w n c t ts, forest m (put w (At n c) :: t :: ts) ->
  exists m', add_child m n (Tree (top t)) = (m', Ok tt) /\ forest m' (put w (At n (c ++ [t])) :: ts) /\ only [n; top t] m m'.
Proof. exact add_child_forest. Qed.
Example C83_add_child_ex : forest some_memory (put way_1 (At 1 [leaf 3; leaf 4]) :: second_tree :: [third_tree]) /\
  fields _ (add_child some_memory 1 (Tree 5)) =
    ([[1; 2]; [3; 4; 5]; []; []; []; [6]; []; []], [None; Some 0; Some 0; Some 1; Some 1; Some 1; Some 5; None], Ok tt).
Proof. split; [exact forest_1|vm_compute; reflexivity]. Qed.
Print Assumptions C83_add_child.

(** C83: what is not a node is refused and changes nothing. *)
Theorem C83_not_a_tree : forall V (m : memory V) n x, (forall i, x <> Tree i) -> add_child m n x = (m, Err ValueError).
Proof. exact not_a_tree. Qed.
Example C83_not_a_tree_ex : (forall i, Sequence [Tree 2] <> Tree i) /\ add_child some_memory 1 (Sequence [Tree 2]) = (some_memory, Err ValueError).
Proof. split; [discriminate|reflexivity]. Qed.
Print Assumptions C83_not_a_tree.

(** C83: a removed node becomes a tree of its own with all that is below it; its position is returned. *)
Theorem C83_remove : forall V (m : memory V) w p l s r ts, forest m (put w (At p (l ++ s :: r)) :: ts) ->
  exists m', remove m (top s) = (m', Ok (length l)) /\ forest m' (put w (At p (l ++ r)) :: s :: ts) /\ only [p; top s] m m'.
Proof. exact remove_forest. Qed.
Example C83_remove_ex : forest some_memory (put way_1 (At 1 ([leaf 3] ++ leaf 4 :: [])) :: [second_tree; third_tree]) /\
  fields _ (remove some_memory 4) =
    ([[1; 2]; [3]; []; []; []; [6]; []; []], [None; Some 0; Some 0; Some 1; None; None; Some 5; None], Ok 1).
Proof. split; [exact forest_1|vm_compute; reflexivity]. Qed.
Print Assumptions C83_remove.

(** C83: the index of a node is its position among the children of its parent. *)
Theorem C83_index : forall V (m : memory V) w p l s r ts, forest m (put w (At p (l ++ s :: r)) :: ts) -> index m (top s) = Ok (length l).
Proof. exact index_forest. Qed.
Example C83_index_ex : forest some_memory (put way_1 (At 1 ([leaf 3] ++ leaf 4 :: [])) :: [second_tree; third_tree]) /\ index some_memory 4 = Ok 1.
Proof. split; [exact forest_1|reflexivity]. Qed.
Print Assumptions C83_index.

(** C83: a root has no position; removing, replacing or reparenting it is refused and changes nothing. *)
Theorem C83_root : forall V (m : memory V) t ts nodes k, forest m (t :: ts) ->
  index m (top t) = Err ValueError /\ remove m (top t) = (m, Err ValueError) /\ replace m (top t) nodes = (m, Err ValueError) /\
  reparent m (top t) k = (m, Err ValueError).
Proof. exact root_refused. Qed.
Example C83_root_ex : forest some_memory (first_tree :: [second_tree; third_tree]) /\ replace some_memory 0 [5; 7] = (some_memory, Err ValueError).
Proof. split; [exact some_forest|reflexivity]. Qed.
Print Assumptions C83_root.

(** C83: clearing a node makes trees of all its children and returns them. *)
Theorem C83_clear : forall V (m : memory V) w n c ts, forest m (put w (At n c) :: ts) ->
  exists m', clear m n = (m', Ok (map top c)) /\ forest m' (put w (At n []) :: c ++ ts) /\ only (n :: map top c) m m'.
Proof. exact clear_forest. Qed.
Example C83_clear_ex : forest some_memory (put way_1 (At 1 [leaf 3; leaf 4]) :: [second_tree; third_tree]) /\
  fields _ (clear some_memory 1) =
    ([[1; 2]; []; []; []; []; [6]; []; []], [None; Some 0; Some 0; None; None; None; Some 5; None], Ok [3; 4]).
Proof. split; [exact forest_1|vm_compute; reflexivity]. Qed.
Print Assumptions C83_clear.

(** C83: replacing a node by trees puts them at its position, in order, and the node becomes a tree of its own. *)
Theorem C83_replace : forall V (m : memory V) w p l s r us ts, forest m (put w (At p (l ++ s :: r)) :: us ++ ts) ->
  exists m', replace m (top s) (map top us) = (m', Ok tt) /\ forest m' (put w (At p (l ++ us ++ r)) :: s :: ts) /\
    only (p :: top s :: map top us) m m'.
Proof. exact replace_forest. Qed.
Example C83_replace_ex : forest some_memory (put way_1 (At 1 ([] ++ leaf 3 :: [leaf 4])) :: [second_tree; third_tree] ++ []) /\
  fields _ (replace some_memory 3 [5; 7]) =
    ([[1; 2]; [5; 7; 4]; []; []; []; [6]; []; []], [None; Some 0; Some 0; None; Some 1; Some 1; Some 5; Some 1], Ok tt).
Proof. split; [exact forest_1|vm_compute; reflexivity]. Qed.
Print Assumptions C83_replace.

(** C83: an injected tree gets between a node and its children, after the children it had. *)
Theorem C83_inject : forall V (m : memory V) w n c k d ts, forest m (put w (At n c) :: At k d :: ts) ->
  exists m', inject m n k = (m', Ok k) /\ forest m' (put w (At n [At k (d ++ c)]) :: ts) /\ only (n :: k :: map top c) m m'.
Proof. exact inject_forest. Qed.
Example C83_inject_ex : forest some_memory (put way_1 (At 1 [leaf 3; leaf 4]) :: At 5 [leaf 6] :: [third_tree]) /\
  fields _ (inject some_memory 1 5) =
    ([[1; 2]; [5]; []; []; []; [6; 3; 4]; []; []], [None; Some 0; Some 0; Some 5; Some 5; Some 1; Some 5; None], Ok 5).
Proof. split; [exact forest_1|vm_compute; reflexivity]. Qed.
Print Assumptions C83_inject.

(** C83: reparenting puts a tree between a node and its parent, at the position of the node. *)
Theorem C83_reparent : forall V (m : memory V) w p l s r k d ts, forest m (put w (At p (l ++ s :: r)) :: At k d :: ts) ->
  exists m', reparent m (top s) k = (m', Ok k) /\ forest m' (put w (At p (l ++ At k (d ++ [s]) :: r)) :: ts) /\ only [p; top s; k] m m'.
Proof. exact reparent_forest. Qed.
Example C83_reparent_ex : forest some_memory (put way_1 (At 1 ([] ++ leaf 3 :: [leaf 4])) :: At 5 [leaf 6] :: [third_tree]) /\
  fields _ (reparent some_memory 3 5) =
    ([[1; 2]; [5; 4]; []; []; []; [6; 3]; []; []], [None; Some 0; Some 0; Some 5; Some 1; Some 1; Some 5; None], Ok 5).
Proof. split; [exact forest_1|vm_compute; reflexivity]. Qed.
Print Assumptions C83_reparent.

(** C83: every object of a tree has a place in it (so that the theorems with a place are about all of them). *)
Theorem C83_somewhere : forall u i, In i (objects u) -> exists w t, u = put w t /\ top t = i.
Proof. exact somewhere. Qed.
Example C83_somewhere_ex : In 4 (objects first_tree) /\ first_tree = put way_4 (leaf 4).
Proof. split; [cbn; tauto|reflexivity]. Qed.
Print Assumptions C83_somewhere.

(** C83: traversals, paths, depth, root and count are those of the tree, at any time. *)
Theorem C83_walks : forall V (m : memory V) w t ts fuel, forest m (put w t :: ts) -> length (objects (put w t)) <= fuel ->
  pre_order fuel m (top t) = Ok (objects t) /\ post_order fuel m (top t) = Ok (objects_post t) /\ count fuel m (top t) = Ok (length (objects t)) /\
  path_to_root fuel m (top t) = Ok (top t :: up w) /\ path_from_root fuel m (top t) = Ok (rev (up w) ++ [top t]) /\
  get_depth fuel m (top t) = Ok (S (length w)) /\ get_root fuel m (top t) = Ok (top (put w t)).
Proof. exact walks_forest. Qed.
Example C83_walks_ex : forest some_memory (put way_1 (At 1 [leaf 3; leaf 4]) :: [second_tree; third_tree]) /\
  pre_order 5 some_memory 1 = Ok [1; 3; 4] /\ post_order 5 some_memory 1 = Ok [3; 4; 1] /\ path_from_root 5 some_memory 4 = Ok [0; 1; 4] /\ get_depth 5 some_memory 4 = Ok 3.
Proof. split; [exact forest_1|vm_compute; repeat split]. Qed.
Print Assumptions C83_walks.

(** C83: the siblings of a node are the children of its parent, itself included. *)
Theorem C83_siblings : forall V (m : memory V) w t ts, forest m (put w t :: ts) ->
  siblings m (top t) = match w with [] => [top t] | (p, l, r) :: _ => map top (l ++ t :: r) end /\
  forall i, is_sibling_of m i (top t) = true <-> match w with [] => i = top t | (p, l, r) :: _ => exists s, In s (l ++ t :: r) /\ top s = i end.
Proof. exact siblings_forest. Qed.
Example C83_siblings_ex : forest some_memory (put way_4 (leaf 4) :: [second_tree; third_tree]) /\ siblings some_memory 4 = [3; 4] /\ siblings some_memory 0 = [0].
Proof. split; [exact forest_4|split; reflexivity]. Qed.
Print Assumptions C83_siblings.

(** C83: [x.isDescendantOf(y)] tells whether [x] is [y] or above [y]. *)
Theorem C83_descendant : forall V (m : memory V) w t ts fuel i, forest m (put w t :: ts) -> length (objects (put w t)) <= fuel ->
  exists b, is_descendant_of fuel m i (top t) = Ok b /\ (b = true <-> i = top t \/ In i (up w)).
Proof. exact descendant_forest. Qed.
Example C83_descendant_ex : forest some_memory (put way_4 (leaf 4) :: [second_tree; third_tree]) /\ is_descendant_of 5 some_memory 1 4 = Ok true /\ is_descendant_of 5 some_memory 3 4 = Ok false.
Proof. split; [exact forest_4|split; reflexivity]. Qed.
Print Assumptions C83_descendant.

(** C83, not true: a node is the descendant of those above it. It is the other way round. *)
Theorem C83_descendant_refuted : exists (m : memory nat) (t : shape) w, forest m [put w t] /\ In 0 (up w) /\
  is_descendant_of 5 m 0 (top t) = Ok true /\ is_descendant_of 5 m (top t) 0 = Ok false.
Proof. exact ancestor. Qed.
Print Assumptions C83_descendant_refuted.

(** C83: [findChild] gives the first selected node below a node or at it, in pre-order. *)
Theorem C83_find_child : forall V (veq : V -> V -> bool) (m : memory V) w t ts fuel func kwargs,
  forest m (put w t :: ts) -> length (objects (put w t)) <= fuel ->
  exists o, find_child veq fuel m (top t) func kwargs = Ok o /\ first_with (selected veq m func kwargs) (objects t) o.
Proof. exact find_child_forest. Qed.
Example C83_find_child_ex : forest some_memory (put [] first_tree :: [second_tree; third_tree]) /\
  find_child Nat.eqb 5 some_memory 0 [fun i => Nat.ltb 0 i] [("size", 3)] = Ok (Some 4) /\ find_child Nat.eqb 5 some_memory 0 [] [("size", 4)] = Ok None.
Proof. split; [exact some_forest|split; reflexivity]. Qed.
Print Assumptions C83_find_child.

(** C83: [findParent] gives the nearest selected node above. *)
Theorem C83_find_parent : forall V (veq : V -> V -> bool) (m : memory V) w t ts fuel func kwargs,
  forest m (put w t :: ts) -> length (objects (put w t)) <= fuel ->
  exists o, find_parent veq fuel m (top t) func kwargs = Ok o /\ first_with (selected veq m func kwargs) (up w) o.
Proof. exact find_parent_forest. Qed.
Example C83_find_parent_ex : forest some_memory (put way_4 (leaf 4) :: [second_tree; third_tree]) /\ find_parent Nat.eqb 5 some_memory 4 [] [("size", 3)] = Ok (Some 0).
Proof. split; [exact forest_4|reflexivity]. Qed.
Print Assumptions C83_find_parent.

(** C83: [findForwards] gives the first selected node after a node in the pre-order of the whole tree. *)
Theorem C83_find_forwards : forall V (veq : V -> V -> bool) (m : memory V) w t ts fuel func kwargs a b,
  forest m (put w t :: ts) -> length (objects (put w t)) <= fuel -> objects (put w t) = a ++ top t :: b ->
  exists o, find_forwards veq fuel m (top t) func kwargs = Ok o /\ first_with (selected veq m func kwargs) b o.
Proof. exact find_forwards_forest. Qed.
Example C83_find_forwards_ex : forest some_memory (put way_4 (leaf 4) :: [second_tree; third_tree]) /\
  objects (put way_4 (leaf 4)) = [0; 1; 3] ++ 4 :: [2] /\ find_forwards Nat.eqb 5 some_memory 4 [] [("colour", 0)] = Ok (Some 2).
Proof. split; [exact forest_4|split; reflexivity]. Qed.
Print Assumptions C83_find_forwards.

(** C83: [findBackwards] gives the last selected node before a node in the pre-order of the whole tree. *)
Theorem C83_find_backwards : forall V (veq : V -> V -> bool) (m : memory V) w t ts fuel func kwargs a b,
  forest m (put w t :: ts) -> length (objects (put w t)) <= fuel -> objects (put w t) = a ++ top t :: b ->
  exists o, find_backwards veq fuel m (top t) func kwargs = Ok o /\ first_with (selected veq m func kwargs) (rev a) o.
Proof. exact find_backwards_forest. Qed.
Example C83_find_backwards_ex : forest some_memory (put way_4 (leaf 4) :: [second_tree; third_tree]) /\
  objects (put way_4 (leaf 4)) = [0; 1; 3] ++ 4 :: [2] /\ find_backwards Nat.eqb 5 some_memory 4 [fun i => negb (Nat.eqb i 3)] [] = Ok (Some 1).
Proof. split; [exact forest_4|split; reflexivity]. Qed.
Print Assumptions C83_find_backwards.

(** C83: [getNext] and [getPrevious] give the neighbours in the pre-order of the whole tree. *)
Theorem C83_neighbours : forall V (veq : V -> V -> bool) (m : memory V) w t ts fuel a b,
  forest m (put w t :: ts) -> length (objects (put w t)) <= fuel -> objects (put w t) = a ++ top t :: b ->
  get_next veq fuel m (top t) = Ok (hd_error b) /\ get_previous veq fuel m (top t) = Ok (hd_error (rev a)).
Proof. exact neighbours_forest. Qed.
Example C83_neighbours_ex : forest some_memory (put way_4 (leaf 4) :: [second_tree; third_tree]) /\
  objects (put way_4 (leaf 4)) = [0; 1; 3] ++ 4 :: [2] /\ get_next Nat.eqb 5 some_memory 4 = Ok (Some 2) /\ get_previous Nat.eqb 5 some_memory 4 = Ok (Some 3).
Proof. split; [exact forest_4|repeat split]. Qed.
Print Assumptions C83_neighbours.

(** C83: [findAttr] gives the nearest value of an attribute on the way to the root, else the default. *)
Theorem C83_find_attr : forall V (m : memory V) w t ts fuel name default, forest m (put w t :: ts) -> length (objects (put w t)) <= fuel ->
  exists o, nearest m name (top t :: up w) o /\ find_attr fuel m (top t) name default = Ok (match o with Some v => v | None => default end).
Proof. exact find_attr_forest. Qed.
Example C83_find_attr_ex : forest some_memory (put way_4 (leaf 4) :: [second_tree; third_tree]) /\
  find_attr 5 some_memory 4 "colour" 77 = Ok 10 /\ find_attr 5 some_memory 4 "weight" 77 = Ok 77.
Proof. split; [exact forest_4|split; reflexivity]. Qed.
Print Assumptions C83_find_attr.

(** C83: [attrsToRoot] gives the values that test true on the way to the root, in order. *)
Theorem C83_attrs_to_root : forall V (vtrue : V -> bool) (m : memory V) w t ts fuel name, forest m (put w t :: ts) -> length (objects (put w t)) <= fuel ->
  exists ls, attrs_to_root vtrue fuel m (top t) name = Ok (concat ls) /\
    Forall2 (fun i l => (exists v, valued m name i v /\ vtrue v = true /\ l = [v]) \/ ((forall v, valued m name i v -> vtrue v = false) /\ l = [])) (top t :: up w) ls.
Proof. exact attrs_to_root_forest. Qed.
Example C83_attrs_to_root_ex : forest some_memory (put way_4 (leaf 4) :: [second_tree; third_tree]) /\
  attrs_to_root (fun v => negb (Nat.eqb v 0)) 5 some_memory 3 "colour" = Ok [5; 10] /\ attrs_to_root (fun v => negb (Nat.eqb v 0)) 5 some_memory 2 "colour" = Ok [10].
Proof. split; [exact forest_4|split; reflexivity]. Qed.
Print Assumptions C83_attrs_to_root.

(** C83: a tree property has the nearest value on the way to the root; without one, ValueError. *)
Theorem C83_tree_prop : forall V (m : memory V) w t ts fuel name, forest m (put w t :: ts) -> length (objects (put w t)) <= fuel ->
  exists o, nearest m name (top t :: up w) o /\ tree_prop fuel m (top t) name = match o with Some v => Ok v | None => Err ValueError end.
Proof. exact tree_prop_forest. Qed.
Example C83_tree_prop_ex : forest some_memory (put way_4 (leaf 4) :: [second_tree; third_tree]) /\
  tree_prop 5 some_memory 4 "colour" = Ok 10 /\ tree_prop 5 some_memory 4 "weight" = Err ValueError.
Proof. split; [exact forest_4|split; reflexivity]. Qed.
Print Assumptions C83_tree_prop.

(** C83: setting a property gives this node the value, and changes neither the trees nor another value. *)
Theorem C83_set_prop : forall V (m : memory V) ts i name v, forest m ts ->
  forest (set_prop m i name v) ts /\ valued (set_prop m i name v) name i v /\
  (forall j name' v', (j, name') <> (i, name) -> valued (set_prop m i name v) name' j v' <-> valued m name' j v').
Proof. exact set_prop_forest. Qed.
Example C83_set_prop_ex : forest some_memory all_trees /\ tree_prop 5 (set_prop some_memory 1 "colour" 8) 4 "colour" = Ok 8 /\
  tree_prop 5 (set_prop some_memory 1 "colour" 8) 3 "colour" = Ok 5.
Proof. split; [exact some_forest|split; reflexivity]. Qed.
Print Assumptions C83_set_prop.

(** C83: a nested list of roots gives a node the trees it spells, after the children it had. *)
Theorem C83_add_children : forall V has l ts, spells has l ts -> forall (m : memory V) w n c rest,
  forest m (put w (At n c) :: map (fun i => At i (has i)) (mentioned (Sequence l)) ++ rest) ->
  exists m', add_children m n (Sequence l) = (m', Ok tt) /\ forest m' (put w (At n (c ++ ts)) :: rest) /\ only (n :: mentioned (Sequence l)) m m'.
Proof. exact add_children_forest. Qed.
Example C83_add_children_ex : spells (fun _ => []) nested spelled /\
  forest alone (put [] (At 0 []) :: map (fun i => At i []) (mentioned (Sequence nested)) ++ []) /\
  fields _ (add_children alone 0 (Sequence nested)) =
    ([[1; 5]; [2; 3]; []; [4]; []; []; []; []], [None; Some 0; Some 1; Some 1; Some 3; Some 0; None; None], Ok tt).
Proof. split; [exact nested_spells|split; [exact (alone_forest [0; 1; 2; 3; 4; 5] nodup_six)|vm_compute; reflexivity]]. Qed.
Print Assumptions C83_add_children.

(** C83: a list that spells no trees is refused. *)
Theorem C83_add_children_refused : forall V has l (m : memory V) n, (forall ts, ~ spells has l ts) -> exists m', add_children m n (Sequence l) = (m', Err ValueError).
Proof. exact add_children_refused. Qed.
Example C83_add_children_refused_ex : (forall ts, ~ spells (fun _ => []) not_nested ts) /\ snd (add_children alone 0 (Sequence not_nested)) = Err ValueError.
Proof. split; [exact (not_nested_spells _)|reflexivity]. Qed.
Print Assumptions C83_add_children_refused.

(** C83, not true: a refused list changes nothing. *)
Theorem C83_refused_list_refuted : exists m' : memory nat, add_children alone 0 (Sequence [Tree 1; Tree 2; Other]) = (m', Err ValueError) /\
  forest alone (map (fun i => At i []) [0; 1; 2]) /\ n_children (m' 0) = [1; 2].
Proof. exact half_added. Qed.
Print Assumptions C83_refused_list_refuted.

(** C83: a new node is the root of the trees that the nested list spells. *)
Theorem C83_new_tree : forall V has l ts (m : memory V) self rest, spells has l ts ->
  forest m (map (fun i => At i (has i)) (mentioned (Sequence l)) ++ rest) ->
  ~ In self (flat_map objects (map (fun i => At i (has i)) (mentioned (Sequence l)) ++ rest)) ->
  exists m', new_tree m self (Some l) = (m', Ok tt) /\ forest m' (At self ts :: rest) /\ n_attrs (m' self) = [] /\
    (forall i, i <> self -> n_attrs (m' i) = n_attrs (m i)).
Proof. exact new_tree_forest. Qed.
Example C83_new_tree_ex : spells (fun _ => []) nested spelled /\
  forest alone (map (fun i => At i []) (mentioned (Sequence nested)) ++ [At 6 []]) /\ ~ In 7 (flat_map objects (map (fun i => At i []) (mentioned (Sequence nested)) ++ [At 6 []])) /\
  fields _ (new_tree alone 7 (Some nested)) =
    ([[]; [2; 3]; []; [4]; []; []; []; [1; 5]], [None; Some 7; Some 1; Some 1; Some 3; Some 7; None; None], Ok tt).
Proof.
  split; [exact nested_spells|split; [apply (alone_forest [1; 2; 3; 4; 5; 6])|split; [cbn; lia|vm_compute; reflexivity]]].
  repeat constructor; cbn; lia.
Qed.
Print Assumptions C83_new_tree.

(** C83: [constructFromList] returns the tops of the trees that the nested list spells. *)
Theorem C83_construct : forall V has l ts (m : memory V) rest, spells has l ts ->
  forest m (map (fun i => At i (has i)) (mentioned (Sequence l)) ++ rest) ->
  exists m', construct_from_list m l = (m', Ok (map (fun t => Tree (top t)) ts)) /\ forest m' (ts ++ rest) /\ only (mentioned (Sequence l)) m m'.
Proof. exact construct_from_list_forest. Qed.
Example C83_construct_ex : spells (fun _ => []) nested spelled /\
  forest alone (map (fun i => At i []) (mentioned (Sequence nested)) ++ [At 0 []]) /\
  fields _ (construct_from_list alone nested) =
    ([[]; [2; 3]; []; [4]; []; []; []; []], [None; None; Some 1; Some 1; Some 3; None; None; None], Ok [Tree 1; Tree 5]).
Proof.
  split; [exact nested_spells|split; [apply (alone_forest [1; 2; 3; 4; 5; 0])|vm_compute; reflexivity]]. repeat constructor; cbn; lia.
Qed.
Print Assumptions C83_construct.

(** C83: [constructFromList] refuses nested lists of nodes that spell no trees. *)
Theorem C83_construct_refused : forall V has l (m : memory V), pure (Sequence l) -> (forall ts, ~ spells has l ts) -> exists m', construct_from_list m l = (m', Err ValueError).
Proof. exact construct_from_list_refused. Qed.
Example C83_construct_refused_ex : pure (Sequence not_nested) /\ (forall ts, ~ spells (fun _ => []) not_nested ts) /\ snd (construct_from_list alone not_nested) = Err ValueError.
Proof. split; [cbn; tauto|split; [exact (not_nested_spells _)|reflexivity]]. Qed.
Print Assumptions C83_construct_refused.

(** C83, not true: a node is in one tree at a time. Adding a node that has a parent leaves it with the old one also. *)
Theorem C83_second_parent_refuted : exists m m' : memory nat, forest m [At 0 [At 2 []]; At 1 []] /\ add_child m 1 (Tree 2) = (m', Ok tt) /\
  In 2 (n_children (m' 0)) /\ In 2 (n_children (m' 1)) /\ pre_order 5 m' 0 = Ok [0; 2] /\ get_root 5 m' 2 = Ok 1 /\
  forall t u ts, top t = 0 -> top u = 1 -> ~ forest m' (t :: u :: ts).
Proof. exact second_parent. Qed.
Print Assumptions C83_second_parent_refuted.

(** C83, not true: traversals end. A root can be added below itself, and then they do not. *)
Theorem C83_cycle_refuted : exists m m' : memory nat, forest m [At 0 [At 1 []]] /\ add_child m 1 (Tree 0) = (m', Ok tt) /\
  forall fuel, pre_order fuel m' 0 = Err OutOfFuel /\ path_to_root fuel m' 0 = Err OutOfFuel.
Proof. exact cycle. Qed.
Print Assumptions C83_cycle_refuted.

(** C83, not true: [dump] writes a tree. With Python 3 it raises NameError. *)
Theorem C83_dump_refuted : forall V (m : memory V) w t ts fuel, forest m (put w t :: ts) -> length (objects (put w t)) <= fuel -> dump fuel m (top t) = Err NameError.
Proof. exact dump_never. Qed.
Example C83_dump_refuted_ex : forest some_memory (put way_4 (leaf 4) :: [second_tree; third_tree]) /\ dump 5 some_memory 4 = Err NameError.
Proof. split; [exact forest_4|reflexivity]. Qed.
Print Assumptions C83_dump_refuted.
