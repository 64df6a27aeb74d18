(** Files of H5IO, for the examples and the refutations. *)
From Coq Require Import Ascii String.
From Coq Require Import List ZArith.
From Verif Require Import Prelude TypeFitting Distances H5Names H5io H5io_spec H5io_use H5io_ex H5ioFile H5ioFile_spec.
Import ListNotations.
Local Open Scope string_scope.
Local Open Scope list_scope.
Local Open Scope Z_scope.

(** The regressors of a task: phones and talkers, by number. *)
Definition reg_indexes : list (string * list string) := [("talker", ["t2"; "t1"]); ("phone", ["aa"; "ee"; "oo"])].
Definition reg_list : list string := ["talker"; "phone"].
Definition reg_group : string := "/regressors/t1/".
Definition reg_b0 : list (string * values string) := [("phone", Ints string [1; 2; 0]); ("talker", Ints string [0; 0; 1])].
Definition reg_b1 : list (string * values string) := [("phone", Ints string [2]); ("talker", Ints string [1])].

Definition reg_meta : h5io string := Eval vm_compute in
  match init plain_text (DList reg_list) reg_indexes [] with Ok H => H | Err _ => dummy end.
(** The file after creation and after writing; no file. *)
Definition file_of {A B} (x : option (list A) * B) : list A := match fst x with Some f => f | None => [] end.
Definition reg_file : file (content string) := Eval vm_compute in
  file_of (construct plain_text false None (Some (DList reg_list)) reg_indexes [] reg_group).
(** The metadata as read in a file. *)
Definition meta_of (x : option (file (content string)) * res (loaded string)) : h5io string :=
  match snd x with Ok l => snd l | Err _ => dummy end.
Definition reg_read : h5io string := Eval vm_compute in meta_of (construct plain_text false (Some reg_file) None [] [] reg_group).
Definition reg_written : file (content string) := Eval vm_compute in
  w_file (fst (writes String.string_dec (enter (mk_handle reg_file ["regressors"; "t1"] true false reg_read false None))
                 [(InDict reg_b0, true); (InDict reg_b1, true)])).

Lemma reg_simple : forall s, In s (map fst reg_indexes) -> simple s /\ ascii_only s.
Proof.
  intros s Hs. split.
  - unfold simple. repeat (destruct Hs as [<-|Hs]; [split; [discriminate|cbn; intuition discriminate]|]). destruct Hs.
  - revert s Hs. apply plain_texts. reflexivity.
Qed.
Lemma reg_nodup : NoDup (map fst reg_indexes).
Proof. apply nodup_strings. reflexivity. Qed.
