(** Specification: what is printed while the pairs of a task are written and its levels are counted. *)
From Coq Require Import String.
From Verif Require Import Prelude Progress_spec.
Set Implicit Arguments.
Local Open Scope string_scope.
Local Open Scope list_scope.
Local Open Scope Z_scope.

(** The pairs of [n] by values. *)
Definition pairs_text (n : nat) : list string :=
  repeat ("Writing AX/BX pairs to task file..." ++ line_feed)%string n ++ [("done." ++ line_feed)%string].

(** [message 1 on total], ..., [message n on total]. *)
Definition counts_text (tty : bool) (message : string) (total : Z) (n : nat) : list string :=
  map (fun i => ((if tty && negb (i =? 1)%nat then marker 1 else "") ++ message ++ " " ++ decimal (Z.of_nat i)
                 ++ " on " ++ decimal total ++ line_feed)%string) (seq 1 n).
