(** Feature files whose frames are changed one by one. *)
From Coq Require Import String.
From Coq Require Import List.
From Verif Require Import Prelude Distances.
Import ListNotations.
Set Implicit Arguments.

(** The same files and times, [f] being applied to each frame. *)
Definition with_frames (tm F F' : Type) (f : F -> F') (files : list (feature_data tm F)) : list (feature_data tm F') :=
  map (fun fd => (fst fd, map (fun p => (fst p, map f (snd p))) (snd fd))) files.

(** [f] applied to what a function returns; exceptions are kept. *)
Definition on_result (A B : Type) (f : A -> B) (r : res A) : res B :=
  match r with Ok a => Ok (f a) | Err e => Err e end.
