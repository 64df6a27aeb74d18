(** Vocabulary for the clients of the buffered writers. *)
From Verif Require Import Prelude Np2h5.
Set Implicit Arguments.

(** Everything the client hands over, in order. *)
Fixpoint written (A : Type) (ops : list (wop A)) : list A :=
  match ops with
  | [] => []
  | WWrite data :: ops' => data ++ written ops'
  | _ :: ops' => written ops'
  end.

(** A client that only writes and flushes. *)
Definition plain {A : Type} (o : wop A) : bool :=
  match o with WWrite _ | WFlush => true | _ => false end.
