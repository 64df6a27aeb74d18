(** Specification: when the generation of triplets with a threshold goes on for ever. *)
From Coq Require Import String.
From Verif Require Import Prelude Task Task_spec Task_reg_spec.
Set Implicit Arguments.
Open Scope Z_scope.

(** A group of more than a hundred triplets of which less than three fifths are asked for: [t], more
    than the type chosen for the number of combinations of regressors of the block has values. *)
Definition overfull (T : task) (db : list row) (t : Z) : Prop :=
  exists k t0 block group,
    is_wanted T db k t0 /\
    lists_that (fun s => is_wanted T db k s /\ same_block_of T (by_rows T db k) s t0) block /\
    lists_that (fun s => is_wanted T db k s /\ same_group T (by_rows T db k) s t0) group /\
    100 < Zlen group /\ 5 * t < 3 * Zlen group /\
    ucapacity (prodZ (map (fun ng => maxZ (map (value (by_rows T db k) (snd ng)) block) + 1)
                          (of_BX (t_regressors T)))) + 1 < t.
