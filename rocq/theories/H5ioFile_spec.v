(** What must be in the files of H5IO. *)
From Coq Require Import Ascii String.
From Coq Require Import List ZArith Permutation.
From Verif Require Import Prelude H5Names H5io H5ioFile.
Import ListNotations.
Local Open Scope string_scope.
Local Open Scope list_scope.
Set Implicit Arguments.

(** A name for one object: not empty, without slashes. *)
Definition simple (s : string) : Prop := s <> "" /\ ~ In "/"%char (list_ascii_of_string s).

(** There is nothing in the group at [q], which may be missing, and no dataset on the way to it. *)
Definition free {C} (f : file C) (q : path) : Prop :=
  (forall p r c, q = p ++ r -> get f p <> Some (Dataset c)) /\
  (forall r, r <> [] -> get f (q ++ r) = None).

(** The files that h5py makes: a root, and every other object in a group. *)
Definition well_formed {C} (f : file C) : Prop :=
  NoDup (map fst f) /\ (exists a, get f [] = Some (Group a)) /\
  forall p n, get f (p ++ [n]) <> None -> exists a, get f p = Some (Group a).

(** The same declarations; the indexes may be listed in another order. *)
Definition same_group {V} (H H' : h5io V) : Prop :=
  h_managed H' = h_managed H /\ h_raw H' = h_raw H /\ h_indexed H' = h_indexed H /\
  Permutation (h_indexes H) (h_indexes H') /\ h_non_fused H' = h_non_fused H /\
  h_fused H' = h_fused H /\ h_nb_levels H' = h_nb_levels H.

(** What is not in the group at [q] stays as it is, and all that is new is in the group or is one of
    the groups that lead to it. *)
Definition elsewhere {C} (q : path) (f f' : file C) : Prop :=
  (forall p, get f p <> None -> p <> q -> get f' p = get f p) /\
  (forall p, get f p = None -> get f' p <> None ->
     (exists r, p = q ++ r) \/ (exists r, q = p ++ r) /\ get f' p = Some (Group [])).

(** The file before, which may not exist. *)
Definition before {C} (fs : option (file C)) : file C := match fs with Some f => f | None => new_file C end.
