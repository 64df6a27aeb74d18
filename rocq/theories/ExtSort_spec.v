(** What sorting several datasets together means: one permutation of the row numbers,
    applied to the keys and to every companion dataset, that puts the keys in order. *)
From Coq Require Import List ZArith Permutation Sorted.
Import ListNotations.

Definition rearranged {A : Type} (idx : list nat) (before after : list A) : Prop :=
  map Some after = map (nth_error before) idx.

Definition sorted_together {V : Type} (keys : list Z) (vals : list (list V))
                           (keys' : list Z) (vals' : list (list V)) : Prop :=
  StronglySorted Z.le keys' /\
  exists idx, Permutation idx (seq 0 (length keys)) /\
              rearranged idx keys keys' /\ Forall2 (rearranged idx) vals vals'.

(** Rows of the table formed by the keys and companions, for reading results row by row. *)
Definition row {V : Type} (keys : list Z) (vals : list (list V)) (i : nat)
  : option Z * list (option V) := (nth_error keys i, map (fun v => nth_error v i) vals).
