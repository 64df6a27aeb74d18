(** What lookup tables are for, independently of how they are stored. *)
From Coq Require Import String.
From Coq Require Import List ZArith.
From Verif Require Import Prelude LookupTable.
Import ListNotations.
Local Open Scope Z_scope.
Local Open Scope list_scope.
Set Implicit Arguments.

Section Spec.
Variables V C : Type.
Variable as_int : C -> Z.

(** An entry: the labels of the inputs, and a row of cells for each output. *)
Record entry := mk_entry { e_in : list V; e_out : list (list C) }.

(** [col] holds the [i]th elements of the rows. *)
Definition column (A : Type) (i : nat) (rows : list (list A)) (col : list A) : Prop :=
  map (fun r => nth_error r i) rows = map Some col.

(** The argument [ins] holds the inputs [qs], one tuple of labels for each line. *)
Definition holds_inputs (t : table V C) (ins : inputs V) (qs : list (list V)) : Prop :=
  Forall (fun q => length q = length (t_in_types t)) qs /\
  match ins with
  | InNames d =>
    NoDup (map fst d) /\
    forall i name, nth_error (t_in_names t) i = Some name -> exists col, In (name, col) d /\ column i qs col
  | InCols l =>
    forall i, (i < length (t_in_types t))%nat -> exists col, nth_error l i = Some col /\ column i qs col
  end.

(** The array [a] holds these rows of [w] cells. *)
Definition holds_rows (a : arr C) (w : nat) (rows : list (list C)) : Prop :=
  match a with
  | Vec l => w = 1%nat /\ rows = map (fun c => [c]) l
  | Mat w' m => w' = w /\ rows = m
  end.

(** The outputs [l] hold those of the entries, in the order of the synopsis; the indexed ones are
    matrices. *)
Definition holds_outputs (t : table V C) (ws : list nat) (l : list (arr C)) (es : list entry) : Prop :=
  length l = length (t_out_names t) /\
  forall i o, nth_error (t_out_names t) i = Some o ->
    exists a w, nth_error l i = Some a /\ nth_error ws i = Some w /\
      holds_rows a w (map (fun e => nth i (e_out e) []) es) /\
      (In o (t_iouts t) -> exists m, a = Mat w m).

(** All labels belong to the indexes of the inputs. *)
Definition known (t : table V C) (q : list V) : Prop :=
  forall i ty ix l, nth_error (t_in_types t) i = Some ty -> In (ty, ix) (t_indexes t) -> nth_error q i = Some l -> In l ix.

(** An entry that fits the synopsis, its outputs having [ws] columns; the indexed outputs are
    positions in their index. *)
Definition entry_ok (t : table V C) (ws : list nat) (e : entry) : Prop :=
  known t (e_in e) /\ map (@length C) (e_out e) = ws /\
  forall i o ix r c, nth_error (t_out_names t) i = Some o -> In o (t_iouts t) -> In (o, ix) (t_indexes t) ->
    nth_error (e_out e) i = Some r -> In c r -> 0 <= as_int c < Z.of_nat (length ix).

(** A table without data whose synopsis is consistent. *)
Record new_table (t : table V C) : Prop := {
  n_empty : t_empty t = true;
  n_sorted : t_sorted t = false;
  n_dims : t_dims t = None;
  n_keys : t_keys t = [];
  n_data : t_data t = [];
  n_idata : t_idata t = None;
  n_types : length (t_in_names t) = length (t_in_types t);
  n_inputs : t_in_types t <> [];
  n_names : NoDup (t_out_names t);
  n_iouts : NoDup (t_iouts t);
  n_some : t_iouts t <> [];
  n_subset : forall o, In o (t_iouts t) -> In o (t_out_names t);
  n_indexes : NoDup (map fst (t_indexes t));
  n_labels : forall s ix, In (s, ix) (t_indexes t) -> NoDup ix;
  n_known : forall s, In s (t_in_types t) \/ In s (t_iouts t) ->
            exists ix, In (s, ix) (t_indexes t) /\ Z.of_nat (length ix) < 2 ^ 64;
  n_levels : Forall2 (fun s n => forall ix, In (s, ix) (t_indexes t) -> n = Z.of_nat (length ix))
               (t_in_types t) (t_levels t);
  n_product : prodZ (t_levels t) <= 2 ^ 64
}.

(** The answer for output [i], named [o], when [es] are the entries of the queries. *)
Definition answers (t : table V C) (i : nat) (o : string) (es : list entry) (a : answer V C) : Prop :=
  let rows := map (fun e => nth i (e_out e) []) es in
  (~ In o (t_iouts t) -> a = ACells V rows) /\
  (In o (t_iouts t) -> t_indexed t = true -> a = APositions V C (map (map as_int) rows)) /\
  (In o (t_iouts t) -> t_indexed t = false ->
     exists m, a = ALabels C m /\
       Forall2 (Forall2 (fun l c => forall ix, In (o, ix) (t_indexes t) -> nth_error ix (Z.to_nat (as_int c)) = Some l)) m rows).

(** The order of tuples of labels: by their positions in the indexes, the last input first. *)
Fixpoint before (ds ds' : list nat) : Prop :=
  match ds, ds' with
  | d :: ds, d' :: ds' => before ds ds' \/ ds = ds' /\ (d < d')%nat
  | _, _ => False
  end.

Definition at_positions (t : table V C) (q : list V) (ds : list nat) : Prop :=
  Forall2 (fun ty ld => forall ix, In (ty, ix) (t_indexes t) -> nth_error ix (snd ld) = Some (fst ld))
    (t_in_types t) (combine q ds) /\ length ds = length q.

(** [q] comes after all the entries. *)
Definition after_all (t : table V C) (es : list entry) (q : list V) : Prop :=
  forall e, In e es -> forall ds ds', at_positions t (e_in e) ds -> at_positions t q ds' -> before ds ds'.

(** A batch with the entries it holds. *)
Definition batch_ok (t : table V C) (ws : list nat) (b : inputs V * list (arr C) * list entry) : Prop :=
  holds_inputs t (fst (fst b)) (map e_in (snd b)) /\ holds_outputs t ws (snd (fst b)) (snd b) /\ Forall (entry_ok t ws) (snd b).

End Spec.

(** Successive calls of fill with append=True, stopping at the first exception. *)
Definition fill_all (V C : Type) (veq : forall x y : V, {x = y} + {x <> y}) (c0 : C) (as_int : C -> Z) (t : table V C)
  (batches : list (inputs V * outputs C)) : outcome V C :=
  fold_left (fun o b => andthen o (fun t => fill veq c0 as_int true t (fst b) (snd b) true)) batches (t, None).

Definition arguments (V C : Type) (b : inputs V * list (arr C) * list (entry V C)) : inputs V * outputs C :=
  (fst (fst b), OutCols (snd (fst b))).
