(** Model of the distances of ABXpy/distance.py (lines 12-70): dynamic time warping of the
    cosine distances or of the Kullback-Leibler divergences between frames, and the
    Levenshtein distance. *)
From Coq Require Import Reals List Bool Arith String.
From Verif Require Import Prelude PyCall Metrics Dtw.
Import ListNotations.
Local Open Scope R_scope.

(** What a distance returns: a number ([None]: not finite, see Metrics.v) or [np.inf]. *)
Inductive dvalue := Value (v : num) | Infinite.

(** The costs of dynamic time warping: [<=] is false on what is not a number. *)
Definition nle (a b : num) : bool :=
  match a, b with Some x, Some y => if Rle_dec x y then true else false | _, _ => false end.
Definition ndivn (a : num) (n : nat) : num := ndiv a (Some (INR n)).

(** [x.shape[0]] *)
Definition frames (x : mat) : nat := List.length (m_rows x).

(** [dtw.dtw(x, y, metric, normalized=normalized)], [d] being [metric(x, y)]; [empty] is what
    [np.empty] gives. *)
Definition warped (x y : mat) (d : matrix) (normalized : bool) (empty : costs num) : res num :=
  dtw (lift2 Rplus) nle ndivn (m_rows x) (m_rows y) (fun _ _ => Ok d) normalized empty.

(** distance.py lines 12-29: [default_distance]. The cosine distances do not change their
    arguments. *)
Definition default_distance (empty : costs num) (x y : mat) (normalized : bool) : res dvalue :=
  if (0 <? frames x)%nat && (0 <? frames y)%nat then
    d <- cosine_distance x y ;;
    v <- warped x y d normalized empty ;;
    Ok (Value v)
  else if (frames x =? frames y)%nat then Ok (Value (Some 0))
  else Ok Infinite.

(** distance.py lines 31-48: [dtw_kl_distance] on the arrays [i] and [j] of the caller, which
    the divergence changes. *)
Definition dtw_kl_distance (empty : costs num) (h : heap) (i j : nat) (normalized : bool)
  : res (heap * dvalue) :=
  x <- nth_res h i ;;
  y <- nth_res h j ;;
  if (0 <? frames x)%nat && (0 <? frames y)%nat then
    r <- kl_divergence true true true h i j ;;
    v <- warped x y (snd r) normalized empty ;;
    Ok (fst r, Value v)
  else if (frames x =? frames y)%nat then Ok (h, Value (Some 0))
  else Ok (h, Infinite).

(** distance.py lines 50-70: [edit_distance]; [eval] is [editdistance.eval] on the tuples of
    the frames (of another project, not modelled). *)
Definition edit_distance (eval : list (list num) -> list (list num) -> num) (x y : mat) : res dvalue :=
  if (0 <? frames x)%nat && (0 <? frames y)%nat then Ok (Value (eval (m_rows x) (m_rows y)))
  else if (frames x =? frames y)%nat then Ok (Value (Some 0))
  else Ok Infinite.

(** ** The calls of distances.py lines 244-256, with the keyword [normalized] or without *)

Inductive arg := Arr (m : mat) | Flag (b : bool).

Definition keyword (normalized : option bool) : list (string * arg) :=
  match normalized with Some b => [("normalized"%string, Flag b)] | None => [] end.

(** Lines 12, 31 and 50: the parameters. *)
Definition default_params : list (parameter arg) :=
  [("x"%string, None); ("y"%string, None); ("normalized"%string, None)].
Definition kl_params : list (parameter arg) :=
  [("x"%string, None); ("y"%string, None); ("normalized"%string, Some (Flag true))].
Definition edit_params : list (parameter arg) := [("x"%string, None); ("y"%string, None)].

Definition call_default (empty : costs num) (normalized : option bool) (x y : mat) : res dvalue :=
  a <- bind_call default_params [Arr x; Arr y] (keyword normalized) ;;
  match a with
  | [Arr x; Arr y; Flag b] => default_distance empty x y b
  | _ => Err TypeError
  end.

(** On two different arrays; those of a pair of items are copies of the features. *)
Definition call_kl (empty : costs num) (normalized : option bool) (x y : mat) : res dvalue :=
  a <- bind_call kl_params [Arr x; Arr y] (keyword normalized) ;;
  match a with
  | [Arr x; Arr y; Flag b] => r <- dtw_kl_distance empty [x; y] 0 1 b ;; Ok (snd r)
  | _ => Err TypeError
  end.

Definition call_edit (eval : list (list num) -> list (list num) -> num) (normalized : option bool) (x y : mat)
  : res dvalue :=
  a <- bind_call edit_params [Arr x; Arr y] (keyword normalized) ;;
  match a with
  | [Arr x; Arr y] => edit_distance eval x y
  | _ => Err TypeError
  end.
