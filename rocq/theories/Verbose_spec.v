(** Specification: what a task with [verbose=True] prints. *)
From Coq Require Import String.
From Verif Require Import Prelude Task Progress_spec.
Set Implicit Arguments.
Local Open Scope string_scope.
Local Open Scope list_scope.
Local Open Scope Z_scope.

(** [message 1 on n], ..., [message n on n], each preceded by the marker on a terminal,
    except for the first one. *)
Definition steps_text (tty : bool) (message : string) (n : nat) : list string :=
  map (fun i => ((if tty && negb (i =? 1)%nat then marker 1 else "") ++ message ++ " " ++ decimal (Z.of_nat i)
                 ++ " on " ++ decimal (Z.of_nat n) ++ line_feed)%string) (seq 1 n).

(** Making a task: [groups] labels of the by columns, [bys] of which are kept by the filters,
    [blocks] blocks. *)
Definition init_text (tty : bool) (database : string) (groups bys blocks : nat) : list string :=
  [("checking input database " ++ database ++ line_feed)%string;
   ("input database verified" ++ line_feed)%string]
  ++ steps_text tty "Preprocessing by block" groups
  ++ steps_text tty "Computing statistics for by block" bys
  ++ steps_text tty "Computing statistics for by/on/across block" blocks.

(** The blocks of the by, after [i] blocks of [s] triplets; [sizes] are their numbers of
    triplets, [n] and [total] the numbers of blocks and triplets of the task. *)
Fixpoint blocks_text (tty : bool) (n total : Z) (i : nat) (s : Z) (sizes : list Z) : list string :=
  match sizes with
  | [] => []
  | x :: sizes' =>
    ((if tty && negb (i =? 0)%nat then marker 2 else "")
     ++ "Computing triplets for by/on/across block " ++ decimal (Z.of_nat (S i)) ++ " on " ++ decimal n ++ line_feed
     ++ "Triplets considered: " ++ decimal (s + x) ++ " on " ++ decimal total ++ line_feed)%string
    :: blocks_text tty n total (S i) (s + x) sizes'
  end.

Fixpoint bys_text (tty : bool) (n total : Z) (i : nat) (s : Z) (bys : list (list Z)) : list string :=
  match bys with
  | [] => []
  | sizes :: bys' =>
    ("Writing ABX triplets to task file..." ++ line_feed)%string
    :: blocks_text tty n total i s sizes
    ++ bys_text tty n total (i + length sizes) (s + sumZ sizes) bys'
  end.

(** Generating triplets: the sizes of the blocks, by by. *)
Definition generation_text (tty : bool) (output : string) (n total : Z) (bys : list (list Z)) : list string :=
  [("writing output to " ++ output ++ line_feed)%string]
  ++ bys_text tty n total 0 0 bys
  ++ [("done." ++ line_feed)%string].

(** The labels of some columns in a table, each once. *)
Definition lists_labels (cols : list string) (db : list row) (l : list key) : Prop :=
  NoDup l /\ forall k, In k l <-> exists r, In r db /\ map r cols = k.
