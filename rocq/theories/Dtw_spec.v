(** Alignments of two sequences. *)
From Coq Require Import List Arith.
From Verif Require Import Prelude.
Import ListNotations.
Set Implicit Arguments.

(** A move of an alignment: one frame further in one of the sequences or in both. *)
Inductive move : nat * nat -> nat * nat -> Prop :=
| move_x : forall i j, move (i, j) (S i, j)
| move_y : forall i j, move (i, j) (i, S j)
| move_xy : forall i j, move (i, j) (S i, S j).

(** An alignment that ends with the frames [i] and [j]: matched frames from the last to the
    first. *)
Inductive alignment : nat * nat -> list (nat * nat) -> Prop :=
| al_first : alignment (0, 0) [(0, 0)]
| al_move : forall a b p, alignment a p -> move a b -> alignment b (b :: p).

Section Costs.
Variable C : Type.
Variable add : C -> C -> C.
Variable leb : C -> C -> bool.

(** An order for which additions of a number on the left are monotone, as rounded additions
    of floats are. *)
Record ordered : Prop := mk_ordered {
  le_total : forall a b, leb a b = true \/ leb b a = true;
  le_trans : forall a b c, leb a b = true -> leb b c = true -> leb a c = true;
  add_mono : forall d a b, leb a b = true -> leb (add d a) (add d b) = true
}.

(** The cost of an alignment, its local distances being summed from the first to the last. *)
Fixpoint cost_of (d : nat -> nat -> C) (p : list (nat * nat)) : option C :=
  match p with
  | [] => None
  | [(i, j)] => Some (d i j)
  | (i, j) :: p' => option_map (add (d i j)) (cost_of d p')
  end.

(** Alignments of minimal cost. *)
Definition optimal (d : nat -> nat -> C) (last : nat * nat) (p : list (nat * nat)) : Prop :=
  alignment last p /\
  forall q c c', alignment last q -> cost_of d p = Some c -> cost_of d q = Some c' -> leb c c' = true.

(** A matrix with [N] lines and [M] columns. *)
Definition shape (N M : nat) (dist : list (list C)) : Prop :=
  length dist = N /\ forall row, In row dist -> length row = M.
Definition entry (z : C) (dist : list (list C)) (i j : nat) : C := nth j (nth i dist []) z.

(** The local distances of the sequences taken in the other order. *)
Definition transposed (z : C) (dist dist' : list (list C)) : Prop := forall i j, entry z dist' i j = entry z dist j i.

End Costs.
