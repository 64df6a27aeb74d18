(** A memory with three trees, for the examples. *)
From Coq Require Import String.
From Coq Require Import List Arith Lia.
From Verif Require Import Prelude TreeHeap TreeHeap_spec TreeHeap_proofs TreeHeap_walk.
Import ListNotations.
Local Open Scope string_scope.

Definition leaf (i : nat) : shape := At i [].
Definition first_tree : shape := At 0 [At 1 [leaf 3; leaf 4]; leaf 2].
Definition second_tree : shape := At 5 [leaf 6].
Definition third_tree : shape := leaf 7.
Definition all_trees : list shape := [first_tree; second_tree; third_tree].

Definition some_memory : memory nat := fun i =>
  nth i [mk_node [1; 2] None [("colour", 10); ("size", 3)]; mk_node [3; 4] (Some 0) []; mk_node [] (Some 0) [("colour", 0)];
         mk_node [] (Some 1) [("colour", 5)]; mk_node [] (Some 1) [("size", 3)];
         mk_node [6] None []; mk_node [] (Some 5) []; mk_node [] None []] (mk_node [] None []).

Ltac held := constructor; [reflexivity|reflexivity|intros ? ?; cbn [In] in *; repeat match goal with H : _ \/ _ |- _ => destruct H as [<-|H] end; try contradiction; try held].

Lemma some_forest : forest some_memory all_trees.
Proof.
  split.
  - intros t H. cbn [In all_trees] in H. destruct H as [<-|[<-|[<-|[]]]]; unfold first_tree, second_tree, third_tree, leaf; held.
  - cbn. repeat constructor; cbn; lia.
Qed.

(** The place of the object 1, with the objects 3 and 4 below it. *)
Definition way_1 : way := [(0, [], [leaf 2])].
Lemma forest_1 : forest some_memory (put way_1 (At 1 [leaf 3; leaf 4]) :: [second_tree; third_tree]).
Proof. exact some_forest. Qed.
(** The place of the object 4. *)
Definition way_4 : way := [(1, [leaf 3], []); (0, [], [leaf 2])].
Lemma forest_4 : forest some_memory (put way_4 (leaf 4) :: [second_tree; third_tree]).
Proof. exact some_forest. Qed.

(** Memories where the objects are alone. *)
Definition alone : memory nat := fun _ => mk_node [] None [].
Lemma alone_forest l : NoDup l -> forest alone (map (fun i => At i []) l).
Proof.
  intros N. split.
  - intros t H. apply in_map_iff in H. destruct H as (i & <- & _). constructor; [reflexivity|reflexivity|intros t []].
  - assert (E : flat_map objects (map (fun i => At i []) l) = l) by (clear; induction l as [|i l IH]; [reflexivity|]; cbn; rewrite IH; reflexivity).
    rewrite E. exact N.
Qed.
Lemma nodup_six : NoDup [0; 1; 2; 3; 4; 5].
Proof. repeat constructor; cbn; lia. Qed.

(** The trees of the nested list [1, [2, 3, [4]], 5]. *)
Definition nested : list thing := [Tree 1; Sequence [Tree 2; Tree 3; Sequence [Tree 4]]; Tree 5].
Definition spelled : list shape := [At 1 [leaf 2; At 3 [leaf 4]]; leaf 5].
Lemma nested_spells : spells (fun _ => []) nested spelled.
Proof.
  apply (@spells_node (fun _ => []) 1 [Tree 2; Tree 3; Sequence [Tree 4]] [Tree 5] [leaf 2; At 3 [leaf 4]] [leaf 5]).
  - apply (@spells_leaf (fun _ => []) 2); [exact I|]. apply (@spells_node (fun _ => []) 3 [Tree 4] [] [leaf 4] []); [|constructor].
    apply (@spells_leaf (fun _ => []) 4); [exact I|constructor].
  - apply (@spells_leaf (fun _ => []) 5); [exact I|constructor].
Qed.

(** A list after a list spells nothing. *)
Definition not_nested : list thing := [Tree 1; Sequence [Tree 2]; Sequence [Tree 3]].
Lemma not_nested_spells has ts : ~ spells has not_nested ts.
Proof.
  intros S. inversion S as [| ? ? ? F|? ? ? ? ? _ S2]; subst; [destruct F|]. inversion S2.
Qed.

(** What the refuted claims show. *)
Lemma second_parent : exists m m' : memory nat, forest m [At 0 [At 2 []]; At 1 []] /\ add_child m 1 (Tree 2) = (m', Ok tt) /\
  In 2 (n_children (m' 0)) /\ In 2 (n_children (m' 1)) /\ pre_order 5 m' 0 = Ok [0; 2] /\ get_root 5 m' 2 = Ok 1 /\
  forall t u ts, top t = 0 -> top u = 1 -> ~ forest m' (t :: u :: ts).
Proof.
  exists (fun i => nth i [mk_node [2] None []; mk_node [] None []; mk_node [] (Some 0) []] (mk_node [] None [])). eexists.
  split; [|split; [reflexivity|]].
  - split; [|cbn; repeat constructor; cbn; lia]. intros t H. cbn [In] in H. destruct H as [<-|[<-|[]]]; held.
  - split; [left; reflexivity|]. split; [left; reflexivity|]. split; [vm_compute; reflexivity|]. split; [vm_compute; reflexivity|].
    intros t u ts Et Eu [H _]. pose proof (H t (or_introl eq_refl)) as H1. destruct t as [i c]. cbn in Et. subst i. inversion H1 as [p i c0 Hc Hp Hb]; subst.
    cbn in Hc. destruct c as [|s [|]]; try discriminate. cbn in Hc. injection Hc as Es. pose proof (holds_parent (Hb s (or_introl eq_refl))) as P.
    rewrite <- Es in P. vm_compute in P. discriminate.
Qed.

Lemma cycle : exists m m' : memory nat, forest m [At 0 [At 1 []]] /\ add_child m 1 (Tree 0) = (m', Ok tt) /\
  forall fuel, pre_order fuel m' 0 = Err OutOfFuel /\ path_to_root fuel m' 0 = Err OutOfFuel.
Proof.
  exists (fun i => nth i [mk_node [1] None []; mk_node [] (Some 0) []] (mk_node [] None [])). eexists. split; [|split; [reflexivity|]].
  - split; [|cbn; repeat constructor; cbn; lia]. intros t H. cbn [In] in H. destruct H as [<-|[]]; held.
  - set (m' := register _ _ _).
    assert (G : forall fuel, (pre_order fuel m' 0 = Err OutOfFuel /\ path_to_root fuel m' 0 = Err OutOfFuel) /\
                             (pre_order fuel m' 1 = Err OutOfFuel /\ path_to_root fuel m' 1 = Err OutOfFuel)).
    { induction fuel as [|fuel ((A & B) & (C & D))]; [repeat split|]. cbn [pre_order path_to_root].
      change (n_children (m' 0)) with [1]. change (n_children (m' 1)) with [0]. change (n_parent (m' 0)) with (Some 1). change (n_parent (m' 1)) with (Some 0).
      cbn [mapM]. rewrite A, B, C, D. repeat split. }
    intros fuel. apply G.
Qed.

Lemma ancestor : exists (m : memory nat) (t : shape) w, forest m [put w t] /\ In 0 (up w) /\
  is_descendant_of 5 m 0 (top t) = Ok true /\ is_descendant_of 5 m (top t) 0 = Ok false.
Proof.
  exists (fun i => nth i [mk_node [1] None []; mk_node [] (Some 0) []] (mk_node [] None [])), (At 1 []), [(0, [], [])].
  split; [|repeat split; left; reflexivity].
  split; [|cbn; repeat constructor; cbn; lia]. intros t H. cbn [In put app] in H. destruct H as [<-|[]]; held.
Qed.

Lemma half_added : exists m' : memory nat, add_children alone 0 (Sequence [Tree 1; Tree 2; Other]) = (m', Err ValueError) /\
  forest alone (map (fun i => At i []) [0; 1; 2]) /\ n_children (m' 0) = [1; 2].
Proof.
  eexists. split; [reflexivity|]. split; [|reflexivity]. apply alone_forest. repeat constructor; cbn; lia.
Qed.

Theorem dump_never (V : Type) (m : memory V) w t ts fuel : forest m (put w t :: ts) -> length (objects (put w t)) <= fuel -> dump fuel m (top t) = Err NameError.
Proof.
  intros F L. unfold dump. destruct (walks_forest _ _ F L) as (_ & _ & _ & _ & _ & E & _). rewrite E. reflexivity.
Qed.

(** The fields of the objects 0 to 7. *)
Definition fields (A : Type) (o : outcome nat A) : list (list nat) * list (option nat) * res A :=
  (map (fun i => n_children (fst o i)) (seq 0 8), map (fun i => n_parent (fst o i)) (seq 0 8), snd o).
