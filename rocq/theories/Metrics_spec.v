(** What the distances between frames are, for the statements about [Metrics]. *)

From Coq Require Import Reals List.
From Verif Require Metrics.
From Verif Require Import Prelude.
Import ListNotations.
Local Open Scope R_scope.

Definition frame := list R.

Fixpoint total (x : frame) : R :=
  match x with [] => 0 | a :: x' => a + total x' end.

Fixpoint inner (x y : frame) : R :=
  match x, y with a :: x', b :: y' => a * b + inner x' y' | _, _ => 0 end.

Definition norm (x : frame) : R := sqrt (inner x x).

Definition zero_frame (x : frame) : Prop := Forall (fun v => v = 0) x.
Definition positive (x : frame) : Prop := Forall (fun v => 0 < v) x.
Definition nonnegative (x : frame) : Prop := Forall (fun v => 0 <= v) x.
Definition scale (c : R) (x : frame) : frame := map (fun v => c * v) x.

(** [a] is the angle between [x] and [y], in half turns. *)
Definition is_angle (x y : frame) (a : R) : Prop :=
  0 <= a <= 1 /\ inner x y = norm x * norm y * cos (a * PI).

(** The distribution of a frame, and the same with a small value added everywhere. *)
Definition prob (x : frame) : frame := map (fun v => v / total x) x.
Definition shift (e : R) (x : frame) : frame := map (fun v => v + e) x.

(** Kullback-Leibler divergence. *)
Fixpoint KL (p q : frame) : R :=
  match p, q with a :: p', b :: q' => a * ln (a / b) + KL p' q' | _, _ => 0 end.

Definition KL_symmetric (p q : frame) : R := (KL p q + KL q p) / 2.

(** Jensen-Shannon divergence. *)
Fixpoint mean (p q : frame) : frame :=
  match p, q with a :: p', b :: q' => (a + b) / 2 :: mean p' q' | _, _ => [] end.

Definition JS (p q : frame) : R := (KL p (mean p q) + KL q (mean p q)) / 2.

(** Hellinger distance. *)
Fixpoint affinity (p q : frame) : R :=
  match p, q with a :: p', b :: q' => sqrt (a * b) + affinity p' q' | _, _ => 0 end.

Definition Hellinger (p q : frame) : R := sqrt (1 - affinity p q).

(** The matrix of the values of [f]. *)
Definition all_pairs {A} (f : frame -> frame -> A) (xs ys : list frame) : list (list A) :=
  map (fun x => map (fun y => f x y) ys) xs.

Definition is_float (t : Metrics.dtype) : Prop := t = Metrics.Float64 \/ t = Metrics.Float32.

(** An array with the frames [xs]. *)
Definition array (t : Metrics.dtype) (w : nat) (xs : list frame) : Metrics.mat :=
  Metrics.mk_mat t w (map (map Some) xs).

Definition frames_of (w : nat) (xs : list frame) : Prop := Forall (fun x => length x = w) xs.

(** The entry of a matrix for the frame [i] of the first array and [j] of the second one. *)
Definition entry {A} (d : list (list (option A))) (i j : nat) : option A := nth j (nth i d []) None.

(** ** Calls *)

(** The metrics that may divide the frames of their arguments by their sums. *)
Inductive metric :=
| NormalizedCosine
| KullbackLeibler (thresholded symmetrized normalize : bool)
| JensenShannon (normalize : bool)
| SqrtJensenShannon
| HellingerMetric.

Definition run (m : metric) (h : Metrics.heap) (i j : nat) : res (Metrics.heap * Metrics.matrix) :=
  match m with
  | NormalizedCosine => Metrics.normalize_cosine_distance h i j
  | KullbackLeibler thr sym nrm => Metrics.kl_divergence thr sym nrm h i j
  | JensenShannon nrm => Metrics.js_divergence nrm h i j
  | SqrtJensenShannon => Metrics.sqrt_js_divergence h i j
  | HellingerMetric => Metrics.hellinger_distance h i j
  end.

Definition normalises (m : metric) : Prop :=
  match m with
  | KullbackLeibler thr _ nrm => thr = true \/ nrm = true
  | JensenShannon nrm => nrm = true
  | _ => True
  end.

(** The arrays after calls that all succeed. *)
Fixpoint run_all (calls : list (metric * nat * nat)) (h : Metrics.heap) : res Metrics.heap :=
  match calls with
  | [] => Ok h
  | (m, i, j) :: calls' => r <- run m h i j ;; run_all calls' (fst r)
  end.

(** What a call returns. *)
Definition returned (r : res (Metrics.heap * Metrics.matrix)) : res Metrics.matrix :=
  r' <- r ;; Ok (snd r').

(** Arrays of floating point numbers without a frame that sums to 0. *)
Definition proper (a : Metrics.mat) : Prop :=
  exists t w xs, is_float t /\ a = array t w xs /\ Forall (fun x => total x <> 0) xs.

(** The precision of a type. *)
Definition precision (t : Metrics.dtype) (e : R) : Prop :=
  (t = Metrics.Float64 /\ e = / 2 ^ 52) \/ (t = Metrics.Float32 /\ e = / 2 ^ 23).

(** The frames on which the Kullback-Leibler divergence is a number, and the distributions
    that are then compared: with a threshold the precision is added to each dimension. *)
Definition usable (thresholded : bool) (x : frame) : Prop :=
  if thresholded then nonnegative x /\ 0 < total x else positive x.

Definition prepared (thresholded normalize : bool) (e : R) (x : frame) : frame :=
  if thresholded then prob (shift e (prob x)) else if normalize then prob x else x.
