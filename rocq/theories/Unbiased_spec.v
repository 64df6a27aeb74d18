(** What the expected scores of an evaluation with a threshold are. *)
From Coq Require Import Reals String.
From Coq Require Import List ZArith QArith Qreals.
From Verif Require Import Prelude Sampler Sampler_spec Chance_spec Expect_spec Task Task_spec Task_reg_spec Distances Distances_spec
  Score Score_spec Analyze Rounding H5io Pipeline Pipeline_spec.
Import ListNotations.
Local Open Scope Z_scope.
Local Open Scope list_scope.
Set Implicit Arguments.

Section Spec.
Variables tm L F V : Type.

(** [lines] is what the analysis returns when an evaluation is finished from the task file [x]: the
    distances were computed and returned, then the scores were written to a new file, then they were
    analysed. The number of processes and their interleaving, the buffers, the names and the other
    files are arbitrary. *)
Inductive finished (argsort : list Z -> list nat) (tle : tm -> tm -> bool) (vlt : V -> V -> bool)
          (distance : option bool -> list F -> list F -> res V)
          (files : list (feature_data tm F)) (normalize : option Z) (x : abx_file tm L) (lines : list (line L)) : Prop :=
| Finished : forall (zero : V) dfuel n_cpu df0 df' s0 s, (1 <= n_cpu)%nat ->
    compute_distances zero argsort dfuel (mk_setting (for_distances x) files normalize) df0 n_cpu = (df', Ok s0) ->
    reaches tle distance (mk_setting (for_distances x) files normalize) s0 s -> s_main s = M_returned ->
  forall dis rnd slen stem k tf dfn sf k' scores names,
    d_data (s_file s) = Some dis -> exact53 rnd -> (forall z, (0 < slen z)%nat) ->
    lookup (k_tasks k) tf = Ok (for_score x) -> lookup (k_distances k) dfn = Ok dis ->
    ~ there k (score_name stem tf dfn sf) ->
    score vlt rnd slen stem k tf dfn sf = (k', Ok tt) ->
    lookup (k_scores k') (score_name stem tf dfn sf) = Ok scores ->
    analyze rnd argsort (for_analysis x) scores = Ok (names, lines) ->
    finished argsort tle vlt distance files normalize x lines.

(** The results [r] of an evaluation whose task file is made by the program [make]. *)
Definition evaluates (make : program (option (abx_file tm L))) (fin : abx_file tm L -> list (line L) -> Prop)
           (fuel : nat) (R : rng) (r : res (list (line L))) : Prop :=
  match make fuel R with
  | Err e => r = Err e
  | Ok None => r = Ok []
  | Ok (Some x) => exists lines, r = Ok lines /\ fin x lines
  end.

(** The score in the line with this by and these labels; zero when there is no such line. *)
Definition score_at (leq : forall x y : L, {x = y} + {x <> y}) (by_ : string) (labels : list L) (lines : list (line L)) : R :=
  match find (fun ln => String.eqb (l_by ln) by_ && if list_eq_dec leq (l_labels ln) labels then true else false) lines with
  | Some ln => Q2R (l_score ln)
  | None => 0%R
  end.

(** These are the labels of the combination [r] of levels. *)
Definition labelled (indexes : list (string * list L)) (r : list Z) (labels : list L) : Prop :=
  Forall2 (fun ixi label => 0 <= snd ixi /\ nth_error (snd (fst ixi)) (Z.to_nat (snd ixi)) = Some label) (combine indexes r) labels.

End Spec.

(** What an answer is worth: 1 if it is right, one half if the distances are equal, 0 if it is wrong. *)
Definition worth (s : Z) : R := (if s =? 1 then 1 else if s =? 0 then / 2 else 0)%R.

(** [m] is a mean of the number [w] of the results over the vectors of [T] draws below [L], one
    result for each vector; it is counted as zero when there was an exception. *)
Definition mean_of {A : Type} (ev : nat -> rng -> res A -> Prop) (w : A -> R) (L : Z) (T : nat) (m : R) : Prop :=
  exists results, Forall2 (fun v r => ev (S T) (drawn L v) r) (vectors L T) results /\
    (m = Rsum (map (fun r => match r with Ok a => w a | Err _ => 0 end) results) / IZR L ^ T)%R.

(** There are such means, and they all tend to [e]. *)
Definition always_expects {A : Type} (M : Z) (ev : nat -> rng -> res A -> Prop) (w : A -> R) (e : R) : Prop :=
  forall L, multiple M L ->
    (forall T, exists m, mean_of ev w L T m) /\
    forall eps, (0 < eps)%R -> exists N, forall T m, (N <= T)%nat -> mean_of ev w L T m -> (Rabs (m - e) < eps)%R.
