(** What the regressors of a task file must be. *)
From Coq Require Import String.
From Verif Require Import Prelude Task Task_spec.
Set Implicit Arguments.
Open Scope Z_scope.

(** Item [i] of a group. *)
Definition row_at (rows : list row) (i : Z) : row := nth (Z.to_nat i) rows (fun _ => 0).

(** A function of the three items of a triplet. *)
Definition value (rows : list row) (g : row -> row -> row -> Z) (t : triplet) : Z :=
  let '(a, b, x) := t in g (row_at rows a) (row_at rows b) (row_at rows x).

(** The regressors as functions of the triplet: those of the by group and of the block, of A,
    of B, of X. *)
Definition of_block (G : regressors) : list (string * (row -> row -> row -> Z)) :=
  map (fun nf => (fst nf, fun ra rb rx => snd nf ra)) (r_by G ++ r_oab G).
Definition of_A (G : regressors) : list (string * (row -> row -> row -> Z)) :=
  map (fun nf => (fst nf, fun ra rb rx => snd nf ra ra)) (r_A G).
Definition of_BX (G : regressors) : list (string * (row -> row -> row -> Z)) :=
  map (fun nf => (fst nf, fun ra rb rx => snd nf ra rb)) (r_B G) ++
  map (fun nf => (fst nf, fun ra rb rx => snd nf ra rx)) (r_X G).

(** The columns of these regressors for the triplets [l]. *)
Definition columns_of (rows : list row) (l : list triplet)
           (gs : list (string * (row -> row -> row -> Z))) : list (string * list Z) :=
  map (fun ng => (fst ng, map (value rows (snd ng)) l)) gs.

(** The regressors read the columns of the item file only... *)
Record reg_reads (cols : list string) (G : regressors) : Prop := mk_reg_reads {
  rr_by : forall nf r r', In nf (r_by G) -> agree cols r r' -> snd nf r = snd nf r';
  rr_oab : forall nf r r', In nf (r_oab G) -> agree cols r r' -> snd nf r = snd nf r';
  rr_item : forall nf v v' r r', In nf (r_A G ++ r_B G ++ r_X G) -> agree cols v v' -> agree cols r r' ->
              snd nf v r = snd nf v' r'
}.

(** ... and what they read of the by group or of the block is the same for all its items. *)
Record reg_determined (T : task) (db : list row) : Prop := mk_reg_determined {
  rt_by : forall nf r r', In nf (r_by (t_regressors T)) -> In r db -> In r' db ->
            agree (t_by T) r r' -> snd nf r = snd nf r';
  rt_oab : forall nf r r', In nf (r_oab (t_regressors T)) -> t_across T <> [] -> In r db -> In r' db ->
            agree (t_on T :: t_across T ++ t_by T) r r' -> snd nf r = snd nf r';
  rt_item : forall nf r r' x,
            In nf (r_A (t_regressors T) ++ r_B (t_regressors T) ++ r_X (t_regressors T)) ->
            t_across T <> [] -> In r db -> In r' db -> In x db ->
            agree (t_on T :: t_across T ++ t_by T) r r' -> snd nf r x = snd nf r' x
}.

(** The cases where the A regressors are in the order of the triplets. *)
Definition A_in_order (T : task) : Prop :=
  match f_ABX (t_filters T) with
  | None => r_B (t_regressors T) = [] /\ r_X (t_regressors T) = []
  | Some _ => r_B (t_regressors T) <> [] \/ r_X (t_regressors T) <> []
  end.

(** The columns [cols] written for the triplets [chunk] of a block: the regressors of the by
    group and of the block, those of A, those of B and X. The A columns are only known to be
    in the order of the triplets in the cases of [A_in_order]. *)
Definition carries (T : task) (rows : list row) (cols : list (string * list Z)) (chunk : list triplet) : Prop :=
  let G := t_regressors T in
  exists cA, cols = columns_of rows chunk (of_block G) ++ cA ++ columns_of rows chunk (of_BX G) /\
    map fst cA = map fst (r_A G) /\ (A_in_order T -> cA = columns_of rows chunk (of_A G)).

(* ------------------------------------------------------------------ *)
(** ** Threshold *)

(** The A of two triplets are in the same on/across block. *)
Definition same_block_of (T : task) (rows : list row) (t t' : triplet) : Prop :=
  match t_across T with
  | [] => fst (fst t) = fst (fst t')
  | _ => agree (t_on T :: t_across T) (row_at rows (fst (fst t))) (row_at rows (fst (fst t')))
  end.

(** ... and they have the same B and X regressors. *)
Definition same_group (T : task) (rows : list row) (t t' : triplet) : Prop :=
  same_block_of T rows t t' /\
  forall ng, In ng (of_BX (t_regressors T)) -> value rows (snd ng) t = value rows (snd ng) t'.

Definition is_wanted (T : task) (db : list row) (k : key) (t : triplet) : Prop :=
  let '(a, b, x) := t in wanted T db k a b x.

Definition lists_that (P : triplet -> Prop) (l : list triplet) : Prop :=
  NoDup l /\ forall t, In t l <-> P t.

(** Largest index of the type used for [n] combinations of regressors. *)
Definition ucapacity (n : Z) : Z :=
  if n <=? 255 then 255
  else if n <=? 65535 then 65535
  else if n <=? 4294967295 then 4294967295
  else 18446744073709551615.

(** The B and X regressors are natural numbers whose combinations fit 63 bits, and the positions
    of the triplets of a block fit the type chosen for the number of combinations. *)
Definition room (T : task) (db : list row) : Prop :=
  forall k t0 l, lists_that (fun t => is_wanted T db k t /\ same_block_of T (by_rows T db k) t t0) l ->
    is_wanted T db k t0 ->
    (forall ng t, In ng (of_BX (t_regressors T)) -> In t l -> 0 <= value (by_rows T db k) (snd ng) t) /\
    let n := prodZ (map (fun ng => maxZ (map (value (by_rows T db k) (snd ng)) l) + 1)
                        (of_BX (t_regressors T))) in
    n < 2 ^ 63 /\ Zlen l <= ucapacity n + 1.
