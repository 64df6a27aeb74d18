(** A task with a label out of ASCII, used in Props_Ascii.v. *)
From Coq Require Import Ascii String.
From Coq Require Import List ZArith Lia.
From Verif Require Import Prelude Sampler Sampler_proofs Task Task_spec Task_sort Task_ex Task_reg_ex Task_reg_spec Distances Analyze Score_ex H5io H5io_spec H5io_ex
  Pipeline Pipeline_spec Pipeline_ex.
Import ListNotations.
Local Open Scope Z_scope.
Local Open Scope string_scope.
Local Open Scope list_scope.

(** An e with an acute accent, in UTF-8. *)
Definition acute : string := String "195" (String "169" "").

(** The task of Pipeline_ex.v, where a phone is called so. *)
Definition ac_indexes : list (string * list string) :=
  [("phone_B", ["?"; "a"; "b"; acute]); ("talker_X", ["?"; "ann"; "bob"; "cid"]); ("phone_1", ["?"; "a"; "b"; acute])].

Definition ac_make (indexes : list (string * list string)) :=
  make_file string_dec plain_text pl_name (@rev (string * by_group string)) idk idz argsort_ins ex_rng 9 pl_len pl_len pl_len 1000 100
            ex_task_reg ex_cols ex_db pl_places indexes None 0.

Lemma ac_refused : ac_make ac_indexes = Err ValueError.
Proof. vm_compute. reflexivity. Qed.

Lemma ac_wanted : is_wanted ex_task_reg ex_db [7] (2, 0, 3).
Proof.
  exists (ln 2 1 7 2), (ln 1 1 7 0), (ln 2 2 7 4).
  split; [split; [discriminate|reflexivity]|]. split; [split; [discriminate|reflexivity]|].
  split; [split; [discriminate|reflexivity]|]. split.
  - split; [reflexivity|]. split; [discriminate|]. split; intros c [<-|[]]; [reflexivity|discriminate].
  - vm_compute. intuition.
Qed.
