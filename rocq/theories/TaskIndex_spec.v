(** What the index of groups of a task file must be. *)
From Coq Require Import String.
From Verif Require Import Prelude Task Task_spec Task_reg_spec.
Set Implicit Arguments.
Open Scope Z_scope.

(** The values of the B and X regressors on a triplet. *)
Definition group_values (T : task) (rows : list row) (t : triplet) : list Z :=
  map (fun ng => value rows (snd ng) t) (of_BX (t_regressors T)).

(** [bs] increases from 0 to the number of rows of [ts], and two rows have the same [vals] when
    and only when there is no bound between them. *)
Definition delimits (vals : triplet -> list Z) (bs : list Z) (ts : list triplet) : Prop :=
  StronglySorted Z.lt bs /\ hd_error bs = Some 0 /\ last bs 0 = Zlen ts /\
  forall i j s t, (i <= j)%nat -> nth_error ts i = Some s -> nth_error ts j = Some t ->
    (vals s = vals t <-> ~ exists m, In m bs /\ Z.of_nat i < m <= Z.of_nat j).

(** The bounds of a block: of its groups when it has rows and there are B or X regressors, else 0. *)
Definition block_bounds (T : task) (rows : list row) (bs : list Z) (ts : list triplet) : Prop :=
  (of_BX (t_regressors T) = [] \/ ts = []) /\ bs = [0] \/
  (of_BX (t_regressors T) <> [] /\ ts <> []) /\ delimits (group_values T rows) bs ts.

(** The B and X regressors are natural numbers whose combinations fit 63 bits. *)
Definition coded (T : task) (db : list row) : Prop :=
  forall k t0 l, lists_that (fun t => is_wanted T db k t /\ same_block_of T (by_rows T db k) t t0) l ->
    is_wanted T db k t0 ->
    (forall ng t, In ng (of_BX (t_regressors T)) -> In t l -> 0 <= value (by_rows T db k) (snd ng) t) /\
    prodZ (map (fun ng => maxZ (map (value (by_rows T db k) (snd ng)) l) + 1) (of_BX (t_regressors T))) < 2 ^ 63.

(** [x] in the signed type whose largest number is [m]. *)
Definition wrapped (m x : Z) : Z := (x + (m + 1)) mod (2 * (m + 1)) - (m + 1).

(** The blocks of a file: for each by, its blocks in order. *)
Definition all_blocks (bys : list (key * list (list triplet))) : list (key * list triplet) :=
  flat_map (fun p => map (pair (fst p)) (snd p)) bys.
