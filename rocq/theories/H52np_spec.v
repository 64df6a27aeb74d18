(** What a client of the buffered readers expects, without any reference to buffers. *)
From Coq Require Import List Arith.
Import ListNotations.
Set Implicit Arguments.

(** The successive blocks obtained by a client who asks for [amounts] rows of [l], one
    request after the other, and stops when [l] is exhausted. *)
Fixpoint cut (A : Type) (amounts : list nat) (l : list A) : list (list A) :=
  match amounts with
  | [] => []
  | a :: amounts' => match l with
                     | [] => []
                     | _ => firstn a l :: cut amounts' (skipn a l)
                     end
  end.

(** The rows of [l] designated by an optional range. *)
Definition rows_of (A : Type) (range : option (nat * nat)) (l : list A) : list A :=
  match range with
  | None => l
  | Some (i0, i1) => firstn (i1 - i0) (skipn i0 l)
  end.
