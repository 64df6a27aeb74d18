(** C79: the score of a triplet with a distance that is not a number. *)
From Coq Require Import String.
From Coq Require Import List ZArith QArith Lia.
From Verif Require Import Prelude TypeFitting Sampler Pairs Pairs_spec Rounding Distances Score Score_spec
     Score_proofs Task Outputs Score_ex Score_nan.
Import ListNotations.
Open Scope Z_scope.
Open Scope string_scope.
Open Scope list_scope.

(** [nan] is a distance that is neither less nor more than any other. *)
Theorem C79_score_ties :
  forall (V : Type) (vlt : V -> V -> bool) (rnd : Q -> Q) (rlen : Z -> nat) (stem : string -> string) nan,
    exact53 rnd -> (forall z, (0 < rlen z)%nat) ->
    (forall d d', vlt d d' = true -> vlt d' d = false) ->
    (forall d, vlt nan d = false /\ vlt d nan = false) ->
  forall (k : disk V) task_file distance_file score_file T dis,
    lookup (k_tasks k) task_file = Ok T -> lookup (k_distances k) distance_file = Ok dis ->
    scorable T dis -> ~ there k (score_name stem task_file distance_file score_file) ->
    exists k' scores,
      score vlt rnd rlen stem k task_file distance_file score_file = (k', Ok tt) /\
      lookup (k_scores k') (score_name stem task_file distance_file score_file) = Ok scores /\
      forall p by_ a b x, triplet_at T p by_ a b x ->
        distance_of T dis by_ a x nan \/ distance_of T dis by_ b x nan -> nth_error scores p = Some 0.
Proof. exact nan_ties. Qed.
Print Assumptions C79_score_ties.

Example C79_score_ties_ex :
  exact53 rnd64 /\ (forall d d', ltnan d d' = true -> ltnan d' d = false) /\
  (forall d, ltnan None d = false /\ ltnan d None = false) /\ scorable ex_scored ex_nan /\
  triplet_at ex_scored 1 "u" 2 0 1 /\ distance_of ex_scored ex_nan "u" 0 1 None /\
  lookup (k_scores (fst (score ltnan rnd64 (fun _ => 3%nat) (fun s => s) ex_nan_disk "t.abx" "d.distance" None)))
         "t.abx_d.distance.score" = Ok [0; 0; -1; 0; 1; -1].
Proof.
  split; [exact rnd64_exact|]. split; [exact ltnan_asym|]. split; [exact ltnan_nan|]. split; [exact ex_nan_scorable|].
  split; [exact (proj2 ex_triplet)|]. split; [|vm_compute; reflexivity].
  exists 4, 0, 5, 2%nat. split; [right; left; reflexivity|]. split; [lia|]. split; reflexivity.
Qed.
