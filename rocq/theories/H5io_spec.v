(** What the datasets written by H5IO must be. *)
From Coq Require Import Ascii String.
From Coq Require Import List ZArith.
From Verif Require Import Prelude H5io.
Import ListNotations.
Local Open Scope Z_scope.
Local Open Scope list_scope.
Set Implicit Arguments.

Section Spec.
Variable V : Type.

(** A group declared consistently: indexes that are not empty, an index for each indexed
    dataset, which is its own unless the dataset is fused. *)
Record declared_ok (H : h5io V) : Prop := mk_declared_ok {
  k_indexed : NoDup (map fst (h_indexed H));
  k_indexes : NoDup (map fst (h_indexes H));
  k_fused : NoDup (map fst (h_fused H));
  k_index : forall s ix, In (s, ix) (h_indexed H) -> In s (h_managed H) /\ exists l, In (ix, l) (h_indexes H);
  k_levels : forall ix l, In (ix, l) (h_indexes H) -> l <> [] /\ Z.of_nat (length l) < 2 ^ 64;
  k_raw : forall s, In s (h_raw H) -> In s (h_managed H) /\ ~ In s (map fst (h_indexed H));
  k_non_fused : forall s, In s (h_non_fused H) -> In (s, s) (h_indexed H);
  k_members : forall f members s, In (f, members) (h_fused H) -> In s members -> In s (map fst (h_indexed H));
  k_some : forall f members, In (f, members) (h_fused H) -> members <> [];
  k_nb_levels : map fst (h_nb_levels H) = map fst (h_fused H);
  k_nb : forall f members levels, In (f, members) (h_fused H) -> In (f, levels) (h_nb_levels H) ->
    Forall2 (fun s n => exists ix l, In (s, ix) (h_indexed H) /\ In (ix, l) (h_indexes H) /\
                                     n = Z.of_nat (length l)) members levels
}.

(** The index of a dataset. *)
Definition index_for (H : h5io V) (s : string) (l : list V) : Prop :=
  exists ix, In (s, ix) (h_indexed H) /\ In (ix, l) (h_indexes H).

(** Data given as labels: every managed dataset once, all with [n] values, the labels of
    the indexed ones in their index. *)
Record labels_batch (H : h5io V) (d : list (string * values V)) (n : nat) : Prop := mk_labels_batch {
  lb_once : NoDup (map fst d);
  lb_all : forall s, In s (h_managed H) <-> In s (map fst d);
  lb_labels : forall s v l, In (s, v) d -> index_for H s l ->
    exists labels, v = Labels labels /\ length labels = n /\ incl labels l;
  lb_raw : forall s v, In (s, v) d -> ~ In s (map fst (h_indexed H)) ->
    exists zs, v = Ints V zs /\ length zs = n
}.

(** All the labels given for a dataset. *)
Definition labels_given (s : string) (batches : list (list (string * values V))) : list V :=
  flat_map (fun d => flat_map (fun kv => if String.eqb (fst kv) s then
                                 match snd kv with Labels l => l | _ => [] end else []) d) batches.

(** Data given as positions, in the order of the managed datasets: a matrix for each dataset,
    of the width [w] of the dataset, with [n] rows. *)
Record positions_batch (H : h5io V) (w : string -> nat) (l : list (values V)) (n : nat) : Prop := mk_positions_batch {
  pb_all : length l = length (h_managed H);
  pb_rows : forall s v, In (s, v) (combine (h_managed H) l) ->
    exists rows, v = Rows V (w s) rows /\ length rows = n /\
      (forall r, In r rows -> length r = w s) /\
      (forall index r x, index_for H s index -> In r rows -> In x r -> 0 <= x < Z.of_nat (length index))
}.

(** All the rows given for a dataset. *)
Definition rows_given (H : h5io V) (s : string) (batches : list (list (values V))) : list (list Z) :=
  flat_map (fun l => flat_map (fun kv => if String.eqb (fst kv) s then
                                 match snd kv with Rows _ _ rows => rows | _ => [] end else [])
                              (combine (h_managed H) l)) batches.

(** Number of combinations of the members of a fused dataset. *)
Definition combinations (w : string -> nat) (members : list string) (levels : list Z) : Z :=
  prodZ (map (fun p => fst p ^ Z.of_nat (snd p)) (combine levels (map w members))).

(** A text has no character out of ASCII. *)
Definition ascii_only (s : string) : Prop :=
  forall c, In c (list_ascii_of_string s) -> (nat_of_ascii c < 128)%nat.

(** All the labels of the indexes can be held. *)
Definition labels_plain (plain : V -> bool) (indexes : list (string * list V)) : Prop :=
  forall ix l x, In (ix, l) indexes -> In x l -> plain x = true.

(** What a caller declares: indexes with distinct names, not empty; fused datasets with
    distinct names and members. *)
Definition indexes_ok (indexes : list (string * list V)) (fused : list (string * list string)) : Prop :=
  NoDup (map fst indexes) /\ NoDup (map fst fused) /\
  (forall ix l, In (ix, l) indexes -> l <> [] /\ Z.of_nat (length l) < 2 ^ 64) /\
  (forall f members, In (f, members) fused -> members <> []).

(** The index of each dataset is its own unless the dataset is fused. *)
Definition own_indexes (d : list (string * option string)) (fused : list (string * list string)) : Prop :=
  forall s ix, In (s, Some ix) d -> ~ In s (flat_map snd fused) -> ix = s.

End Spec.
