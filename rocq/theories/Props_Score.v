(** Property theorems: the scores (C34, C35) and existing outputs (C36). *)
From Coq Require Import String.
From Coq Require Import List ZArith QArith.
From Verif Require Import Prelude TypeFitting Sampler Pairs Pairs_spec Rounding Distances Score Score_spec
     Score_proofs Task Outputs Score_ex.
Import ListNotations.
Open Scope Z_scope.
Open Scope string_scope.
Open Scope list_scope.

(** C34: scoring succeeds and row [p] of the scores is 1, -1 or 0 depending on which of the
    distances of the pairs (A, X) and (B, X) is smaller, for any buffer length, any
    conversion to floats that keeps the integers up to 2^53, any type of distances. The
    bys have at most 94,906,265 items. *)
Theorem C34_scores_partial :
  forall (V : Type) (vlt : V -> V -> bool) (rnd : Q -> Q) (rlen : Z -> nat) (stem : string -> string),
    exact53 rnd -> (forall z, (0 < rlen z)%nat) ->
    (forall d d', vlt d d' = true -> vlt d' d = false) ->
  forall (k : disk V) task_file distance_file score_file T dis,
    lookup (k_tasks k) task_file = Ok T -> lookup (k_distances k) distance_file = Ok dis ->
    scorable T dis -> ~ there k (score_name stem task_file distance_file score_file) ->
    exists k' scores,
      score vlt rnd rlen stem k task_file distance_file score_file = (k', Ok tt) /\
      lookup (k_scores k') (score_name stem task_file distance_file score_file) = Ok scores /\
      scores_of vlt T dis scores.
Proof.
  exact (fun V vlt rnd rlen stem R L A k tf df sf T dis =>
           @score_writes V vlt rnd R rlen L A stem k tf df sf T dis).
Qed.
Print Assumptions C34_scores_partial.

Example C34_scores_partial_ex :
  exact53 rnd64 /\ scorable ex_scored ex_dist /\
  lookup (k_tasks ex_disk) "t.abx" = Ok ex_scored /\
  lookup (k_distances ex_disk) "d.distance" = Ok ex_dist /\
  score Z.ltb rnd64 (fun _ => 3%nat) (fun s => s) ex_disk "t.abx" "d.distance" None =
  (mk_disk (k_tasks ex_disk) (k_distances ex_disk)
           [("t.abx_d.distance.score", [-1; 1; -1; 0; 1; -1]); ("old.score", [1; 1])] ["d.item"],
   Ok tt).
Proof. split; [exact rnd64_exact|]. split; [exact ex_scorable|]. vm_compute. auto. Qed.

(** With more items numpy looks for the code of the pair among floats, and can take the
    distance of another pair. *)
Theorem C34_scores_refuted :
  exists (T : scored_task) (dis : list Z) scores,
    score_bys Z.ltb rnd64 (fun _ => 10%nat) T dis 0 (sc_bys T) (repeat 0 (length (sc_triplets T)))
      = (scores, None) /\
    sc_pairs T = [code 94906267 23584504 94906264; code 94906267 23584505 94906264] /\
    sc_triplets T = [(23584505, 23584504, 94906264)] /\ dis = [5; 7] /\
    ~ scores_of Z.ltb T dis scores.
Proof.
  exact (ex_intro _ huge (ex_intro _ [5; 7] (ex_intro _ [0]
    (conj huge_scores (conj eq_refl (conj eq_refl (conj eq_refl huge_not))))))).
Qed.
Print Assumptions C34_scores_refuted.

(** C35: the scores of (A, B, X) and (B, A, X) are opposite. *)
Theorem C35_exchanged_opposite :
  forall (V : Type) (vlt : V -> V -> bool) (T : scored_task) (dis : list V) scores,
    (forall d d', vlt d d' = true -> vlt d' d = false) ->
    scorable T dis -> scores_of vlt T dis scores ->
    forall by_ p q a b x, triplet_at T p by_ a b x -> triplet_at T q by_ b a x ->
    exists s, nth_error scores p = Some s /\ nth_error scores q = Some (- s).
Proof. exact exchanged_opposite. Qed.
Print Assumptions C35_exchanged_opposite.

Example C35_exchanged_opposite_ex :
  scorable ex_scored ex_dist /\
  triplet_at ex_scored 0 "u" 0 2 1 /\ triplet_at ex_scored 1 "u" 2 0 1 /\
  score_bys Z.ltb rnd64 (fun _ => 3%nat) ex_scored ex_dist 0 (sc_bys ex_scored)
            (repeat 0 (length (sc_triplets ex_scored))) = ([-1; 1; -1; 0; 1; -1], None).
Proof.
  split; [exact ex_scorable|]. split; [exact (proj1 ex_triplet)|]. split; [exact (proj2 ex_triplet)|].
  vm_compute. reflexivity.
Qed.

(** C36: [score] raises when the score file exists (or another one is missing) and does
    nothing... *)
Theorem C36_score_refuses :
  forall (V : Type) (vlt : V -> V -> bool) (rnd : Q -> Q) (rlen : Z -> nat) (stem : string -> string)
         (k : disk V) task_file distance_file score_file,
    ~ there k task_file \/ ~ there k distance_file \/
    there k (score_name stem task_file distance_file score_file) ->
    score vlt rnd rlen stem k task_file distance_file score_file = (k, Err AssertionError).
Proof. exact score_refuses. Qed.
Print Assumptions C36_score_refuses.

Example C36_score_refuses_ex :
  there ex_disk (score_name (fun s => s) "t.abx" "d.distance" (Some "old.score")) /\
  snd (score Z.ltb rnd64 (fun _ => 3%nat) (fun s => s) ex_disk "t.abx" "d.distance" (Some "old.score"))
  = Err AssertionError /\
  there ex_disk (score_name (fun s => s) "t.abx" "d.distance" (Some "d.item")) /\
  snd (score Z.ltb rnd64 (fun _ => 3%nat) (fun s => s) ex_disk "t.abx" "d.distance" (Some "d.item"))
  = Err AssertionError.
Proof. unfold there. cbn. auto 12. Qed.

(** ... and in any case leaves the files that exist as they are. *)
Theorem C36_score_keeps_files :
  forall (V : Type) (vlt : V -> V -> bool) (rnd : Q -> Q) (rlen : Z -> nat) (stem : string -> string)
         (k : disk V) task_file distance_file score_file k' r f,
    score vlt rnd rlen stem k task_file distance_file score_file = (k', r) ->
    there k f -> holds k k' f.
Proof. exact score_keeps. Qed.
Print Assumptions C36_score_keeps_files.

Example C36_score_keeps_files_ex :
  exists k', score Z.ltb rnd64 (fun _ => 3%nat) (fun s => s) ex_disk "t.abx" "d.distance" None = (k', Ok tt) /\
    k_scores k' = [("t.abx_d.distance.score", [-1; 1; -1; 0; 1; -1]); ("old.score", [1; 1])].
Proof. eexists. split; vm_compute; reflexivity. Qed.

(** [generate_triplets] leaves an existing task file as it is, and raises (unless there is
    nothing to write)... *)
Theorem C36_task_refuses :
  forall korder enum argsort (R : rng) (fuel : nat) T threshold bs st c (f : task_file),
    let r := generate_to korder enum argsort R fuel T threshold bs st c (Some f) in
    fst r = Some f /\ (s_nb_triplets st <> 0 -> snd r = Err ValueError).
Proof. exact generate_refuses. Qed.
Print Assumptions C36_task_refuses.

Example C36_task_refuses_ex :
  forall T R, exists st f,
    s_nb_triplets st = 3 /\
    generate_to (fun l => l) (fun l => l) argsort_ins R 3 T None [] st 0 (Some f) = (Some f, Err ValueError).
Proof.
  intros T R. exists (mk_stats false false 1 1 3 []), (mk_file [(0, 1, 2)] [] [] [] []).
  split; vm_compute; reflexivity.
Qed.

(** ... and [compute_distances] raises and leaves existing distances as they are. *)
Theorem C36_distances_refuse :
  forall (T F V : Type) (zero : V) argsort fuel (c : setting T F) (df : dist_file V) n_cpu d,
    d_data df = Some d ->
    exists df' e, compute_distances zero argsort fuel c df n_cpu = (df', Err e) /\ d_data df' = Some d.
Proof. exact distances_refuse. Qed.
Print Assumptions C36_distances_refuse.

Example C36_distances_refuse_ex :
  compute_distances 0 argsort_ins 9
    (mk_setting (mk_pair_file ["a"] [("a", (2, 0, 1))] [1] [("a", [(0, mk_item "f" 0 1)])])
                ([] : list (feature_data Z Z)) None)
    (mk_dist_file (Some true) (Some [42])) 2
  = (mk_dist_file (Some false) (Some [42]), Err ValueError).
Proof. vm_compute. reflexivity. Qed.
