(** Groups of regressors, for the examples and the refutations. *)
From Coq Require Import Ascii String.
From Coq Require Import List ZArith QArith.
From Verif Require Import Prelude TypeFitting Rounding Distances Analyze AnalyzeText Analyze_ex AnalyzeText_ex H5Names H5Names_proofs H5io H5io_spec H5io_use H5io_ex
  H5ioFile H5ioFile_spec H5ioFile_proofs H5ioFile_ex Pipeline TaskGroups.
Import ListNotations.
Local Open Scope string_scope.
Local Open Scope list_scope.
Local Open Scope Z_scope.

(** Two bys that have triplets, in two blocks and in one, and a by that has none. *)
Definition tg_names : list string := ["talker"; "phone"].
Definition tg_blocks : list (string * list (list (string * list Z))) :=
  [("t2", [[("talker", [0; 0]); ("phone", [1; 2])]; [("talker", [0]); ("phone", [1])]]);
   ("none", []);
   ("t1", [[("talker", [1; 1]); ("phone", [0; 0])]])].
Definition tg_groups : list (string * by_group string) := Eval vm_compute in
  match mapM (fun kb : string * list (list (string * list Z)) =>
                g <- regressor_group String.string_dec plain_text tg_names reg_indexes (snd kb) ;; Ok (fst kb, g)) tg_blocks with
  | Ok l => l
  | Err _ => []
  end.
(** A file that contains the triplets. *)
Definition tg_file : file (content string) :=
  [([], Group []); (["triplets"], Group []); (["triplets"; "data"], Dataset (Numbers string [0; 1; 2]))].

Lemma tg_ok : well_formed tg_file /\ free tg_file ["regressors"].
Proof.
  split.
  - apply well_formed_ok.
    apply (snoc_ok [([], Group []); (["triplets"], Group [])] ["triplets"] "data"); [|exists []; reflexivity|reflexivity].
    apply (snoc_ok [([], Group [])] [] "triplets"); [apply new_file_ok|exists []; reflexivity|reflexivity].
  - split.
    + intros p r c E. destruct p as [|x p]; [discriminate|]. cbn in E. injection E as <- E. discriminate.
    + intros r _. reflexivity.
Qed.

Definition tg_write := write_bys String.string_dec plain_text false tg_file tg_names reg_indexes.
Definition tg_analyze f bys by_index scores := analyze_h5 rnd64 argsort_ins (fun s : string => s) ex_float f bys by_index scores.

(** The blocks of one by. *)
Definition tg_one (by_ : string) : string * list (list (string * list Z)) := (by_, [[("talker", [1; 1]); ("phone", [0; 0])]]).
