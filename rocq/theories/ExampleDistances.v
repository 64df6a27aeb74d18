(** Model of the distances given as examples: ABXpy/distances/example_distances.py,
    examples/complete_run.py (lines 15-16) and bin/ABXrun.py (lines 27-28), with the call of dtw as
    Python makes it. *)
From Coq Require Import Reals List Bool Arith String.
From Verif Require Import Prelude PyCall Metrics Dtw DefaultDistance.
Import ListNotations.
Local Open Scope R_scope.

(** The functions that are given to dtw. *)
Inductive metric := Cosine | KullbackLeibler.
Inductive argument := Array (m : mat) | Metric (f : metric) | Normalized (b : bool).

(** dtw.pyx line 26: the parameters. *)
Definition dtw_params : list (parameter argument) :=
  [("x"%string, None); ("y"%string, None); ("metric"%string, None); ("normalized"%string, None)].

(** The matrix of the distances of the frames of two different arrays. *)
Definition distances_of (f : metric) (x y : mat) : res matrix :=
  match f with
  | Cosine => cosine_distance x y
  | KullbackLeibler => r <- kl_divergence true true true [x; y] 0 1 ;; Ok (snd r)
  end.

(** A call of dtw.pyx lines 26-30. *)
Definition call_dtw (empty : costs num) (pos : list argument) (kw : list (string * argument)) : res num :=
  a <- bind_call dtw_params pos kw ;;
  match a with
  | [Array x; Array y; Metric f; Normalized b] =>
    dtw (lift2 Rplus) nle ndivn (m_rows x) (m_rows y) (fun _ _ => distances_of f x y) b empty
  | _ => Err TypeError
  end.

(** example_distances.py lines 7-24 with the cosine, lines 27-35 with the divergence. *)
Definition example_distance (f : metric) (empty : costs num) (x y : mat) : res dvalue :=
  if (0 <? frames x)%nat && (0 <? frames y)%nat then
    v <- call_dtw empty [Array x; Array y; Metric f] [] ;;
    Ok (Value v)
  else if (frames x =? frames y)%nat then Ok (Value (Some 0))
  else Ok Infinite.

(** ABXrun.py lines 27-28. *)
Definition run_distance (empty : costs num) (x y : mat) : res dvalue :=
  v <- call_dtw empty [Array x; Array y; Metric Cosine] [] ;;
  Ok (Value v).

(** complete_run.py lines 15-16 (and the same function in test/test_score.py and
    test/test_analyse.py). *)
Definition complete_run_distance (empty : costs num) (x y : mat) (normalized : bool) : res dvalue :=
  v <- call_dtw empty [Array x; Array y; Metric Cosine; Normalized normalized] [] ;;
  Ok (Value v).

(** The calls of distances.py lines 254-257, as in DefaultDistance.v: the parameters of the functions
    of two arguments are those of [edit_distance]. *)
Definition call_two (distance : mat -> mat -> res dvalue) (normalized : option bool) (x y : mat) : res dvalue :=
  a <- bind_call edit_params [Arr x; Arr y] (keyword normalized) ;;
  match a with
  | [Arr x; Arr y] => distance x y
  | _ => Err TypeError
  end.

Definition call_complete_run (empty : costs num) (normalized : option bool) (x y : mat) : res dvalue :=
  a <- bind_call default_params [Arr x; Arr y] (keyword normalized) ;;
  match a with
  | [Arr x; Arr y; Flag b] => complete_run_distance empty x y b
  | _ => Err TypeError
  end.
