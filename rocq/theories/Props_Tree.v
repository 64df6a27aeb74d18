(** Properties of the column hierarchies (C54). *)
From Coq Require Import String.
From Verif Require Import Prelude Tree Tree_spec Tree_proofs Tree_ex.
Open Scope string_scope.
Open Scope list_scope.

(** C54: pre-order visits each node once, a node before its descendants and children in order. *)
Theorem C54_pre_order : forall t, visits before t (pre_order t).
Proof. exact pre_order_visits. Qed.
Example C54_pre_order_ex : pre_order ex_tree = [[]; [0]; [0; 0]; [0; 1]; [1]; [2]; [2; 0]].
Proof. reflexivity. Qed.
Print Assumptions C54_pre_order.

(** C54: post-order visits each node once, a node after its descendants. *)
Theorem C54_post_order : forall t, visits before_post t (post_order t).
Proof. exact post_order_visits. Qed.
Example C54_post_order_ex : post_order ex_tree = [[0; 0]; [0; 1]; [0]; [1]; [2; 0]; [2]; []].
Proof. reflexivity. Qed.
Print Assumptions C54_post_order.

(** C54: a search finds the first node, in pre-order, that all selectors accept. *)
Theorem C54_find_child : forall t funcs, first_such before (selected t funcs) (find_child t funcs).
Proof. exact find_child_first. Qed.
Example C54_find_child_ex :
  find_child ex_tree [fun s => String.eqb (name s) "front"] = Some [0; 0] /\
  find_child ex_tree [fun s => negb (String.eqb (name s) "phone"); fun s => Nat.eqb (List.length (children s)) 1] = Some [2] /\
  find_child ex_tree [fun s => String.eqb (name s) "talker"] = None.
Proof. repeat split. Qed.
Print Assumptions C54_find_child.

(** C54: a search forwards finds the first node, in pre-order, after a given one. *)
Theorem C54_find_forwards : forall t funcs p s, below t p s ->
  first_such before (fun q => selected t funcs q /\ before p q) (find_forwards t p funcs).
Proof. exact find_forwards_first. Qed.
Example C54_find_forwards_ex :
  below ex_tree [0; 0] (leaf "front") /\ find_forwards ex_tree [0; 0] [fun s => String.eqb (name s) "front"] = Some [2; 0].
Proof. split; [apply node_at_below|]; reflexivity. Qed.
Print Assumptions C54_find_forwards.

(** C54: a search backwards finds the last node, in pre-order, before a given one. *)
Theorem C54_find_backwards : forall t funcs p s, below t p s ->
  first_such (fun q r => before r q) (fun q => selected t funcs q /\ before q p) (find_backwards t p funcs).
Proof. exact find_backwards_first. Qed.
Example C54_find_backwards_ex :
  below ex_tree [2; 0] (leaf "front") /\ find_backwards ex_tree [2; 0] [fun s => String.eqb (name s) "front"] = Some [0; 0].
Proof. split; [apply node_at_below|]; reflexivity. Qed.
Print Assumptions C54_find_backwards.

(** C54: the next and the previous node are its neighbours in pre-order. *)
Theorem C54_next : forall t p s, below t p s ->
  first_such before (fun q => (exists r, below t q r) /\ before p q) (get_next t p).
Proof. exact get_next_first. Qed.
Example C54_next_ex : below ex_tree [0; 1] (leaf "high") /\ get_next ex_tree [0; 1] = Some [1] /\ get_next ex_tree [2; 0] = None.
Proof. split; [apply node_at_below; reflexivity|]. split; reflexivity. Qed.
Print Assumptions C54_next.

Theorem C54_previous : forall t p s, below t p s ->
  first_such (fun q r => before r q) (fun q => (exists r, below t q r) /\ before q p) (get_previous t p).
Proof. exact get_previous_first. Qed.
Example C54_previous_ex : below ex_tree [1] (leaf "manner") /\ get_previous ex_tree [1] = Some [0; 1] /\ get_previous ex_tree [] = None.
Proof. split; [apply node_at_below; reflexivity|]. split; reflexivity. Qed.
Print Assumptions C54_previous.

(** C54: the path to the root goes up one node at a time, and the depth is its length. *)
Theorem C54_path_to_root : forall p, path_to_root p = map (fun n => firstn (List.length p - n) p) (seq 0 (S (List.length p))).
Proof. exact path_to_root_firstn. Qed.
Example C54_path_to_root_ex : path_to_root [2; 0; 5] = [[2; 0; 5]; [2; 0]; [2]; []].
Proof. reflexivity. Qed.
Print Assumptions C54_path_to_root.

Theorem C54_path_from_root : forall p, path_from_root p = map (fun n => firstn n p) (seq 0 (S (List.length p))).
Proof. exact path_from_root_firstn. Qed.
Example C54_path_from_root_ex : path_from_root [2; 0; 5] = [[]; [2]; [2; 0]; [2; 0; 5]].
Proof. reflexivity. Qed.
Print Assumptions C54_path_from_root.

Theorem C54_depth : forall p, get_depth p = S (List.length p).
Proof. exact get_depth_length. Qed.
Example C54_depth_ex : get_depth [] = 1 /\ get_depth [0; 1] = 3.
Proof. split; reflexivity. Qed.
Print Assumptions C54_depth.

(** C54: the count is the number of nodes. *)
Theorem C54_count : forall n c, count (Node n c) = S (list_sum (map count c)).
Proof. exact count_eq. Qed.
Example C54_count_ex : count ex_tree = 7.
Proof. reflexivity. Qed.
Print Assumptions C54_count.

(** C54: the names of the descendants are those of the node and of the descendants of its children. *)
Theorem C54_names : forall n c, names (Node n c) = n :: flat_map names c.
Proof. exact names_node. Qed.
Example C54_names_ex : names ex_tree = ["phone"; "place"; "front"; "high"; "manner"; "voice"; "front"].
Proof. reflexivity. Qed.
Print Assumptions C54_names.

(** C54: a tree built from a nested list of nodes has these nodes, in the order of writing. *)
Theorem C54_built : forall t l t', children t = [] -> single_nodes (Sub l) -> add_children t l = Ok t' ->
  names t' = name t :: spelled (Sub l).
Proof. exact add_children_names. Qed.
Example C54_built_ex :
  let l := [Leaf (leaf "place"); Sub [Leaf (leaf "front"); Leaf (leaf "high")]; Leaf (leaf "manner"); Leaf (leaf "voice"); Sub [Leaf (leaf "front")]] in
  single_nodes (Sub l) /\ add_children (leaf "phone") l = Ok ex_tree /\
  add_children (leaf "phone") [Sub [Leaf (leaf "place")]] = Err ValueError.
Proof. repeat split. Qed.
Print Assumptions C54_built.
