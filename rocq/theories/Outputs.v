(** What the functions of ABXpy do with an output file that exists. The score file is in
    Score.v, the distance file in Distances.v. *)
From Coq Require Import String.
From Verif Require Import Prelude TypeFitting Sampler Task.
Set Implicit Arguments.
Local Open Scope Z_scope.

(** task.py lines 706-717: [generate_triplets] with an output file [old]. What is in the
    file after a generation that fails is not described ([None]). *)
Definition generate_to (korder : list key -> list key) (enum : list Z -> list Z)
           (argsort : list Z -> list nat) (R : rng) (fuel : nat) (T : task)
           (threshold : option Z) (bs : list by_block) (st : stats) (c : nat)
           (old : option task_file) : option task_file * res (list by_block) :=
  if s_nb_triplets st =? 0 then (old, Ok bs)
  else
    match old with
    | Some f => (Some f, Err ValueError)
    | None =>
      match generate_triplets korder enum argsort R fuel T threshold bs st c with
      | Ok (bs', f) => (f, Ok bs')
      | Err e => (None, Err e)
      end
    end.
