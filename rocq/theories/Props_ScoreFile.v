(** Property theorems: the score file in all cases (C66). *)
From Coq Require Import String.
From Coq Require Import List ZArith QArith.
From Verif Require Import Prelude TypeFitting Sampler Pairs Rounding Distances Score Score_spec Score_proofs Score_ex ScoreFile_proofs.
Import ListNotations.
Open Scope Z_scope.
Open Scope string_scope.
Open Scope list_scope.

(** C66: whatever the task, the distances and the outcome, when the score file did not exist and
    the task and distance files do, there is a score file with one score for each triplet. *)
Theorem C66_rows :
  forall (V : Type) (vlt : V -> V -> bool) (rnd : Q -> Q) (rlen : Z -> nat) (stem : string -> string)
         (k : disk V) task_file distance_file score_file T k' r,
    lookup (k_tasks k) task_file = Ok T -> there k distance_file ->
    ~ there k (score_name stem task_file distance_file score_file) ->
    score vlt rnd rlen stem k task_file distance_file score_file = (k', r) ->
    exists scores, lookup (k_scores k') (score_name stem task_file distance_file score_file) = Ok scores /\
      length scores = length (sc_triplets T) /\ Forall is_score scores.
Proof. exact score_shape. Qed.
Print Assumptions C66_rows.

Example C66_rows_ex :
  lookup (k_tasks cut_disk) "t.abx" = Ok ex_scored /\ there cut_disk "d.distance" /\ ~ there cut_disk "s.score" /\
  length (sc_triplets ex_scored) = 6%nat.
Proof.
  split; [reflexivity|]. split; [right; left; left; reflexivity|]. split; [|reflexivity].
  unfold there. cbn. intros [[H|[]]|[[H|[]]|[[]|[]]]]; discriminate.
Qed.

(** C66: that a score file is complete is false when scoring has failed: the file stays, with 0
    for the triplets not scored, as if they were ties. *)
Theorem C66_complete_refuted :
  snd cut_run = Err IndexError /\ lookup (k_scores (fst cut_run)) "s.score" = Ok [-1; 1; -1; 0; 0; 0].
Proof. exact cut_refuted. Qed.
Print Assumptions C66_complete_refuted.

Example C66_complete_refuted_ex :
  snd (score Z.ltb rnd64 (fun _ => 3%nat) (fun s => s) ex_disk "t.abx" "d.distance" (Some "s.score")) = Ok tt /\
  lookup (k_scores (fst (score Z.ltb rnd64 (fun _ => 3%nat) (fun s => s) ex_disk "t.abx" "d.distance" (Some "s.score")))) "s.score"
  = Ok [-1; 1; -1; 0; 1; -1].
Proof. split; vm_compute; reflexivity. Qed.
