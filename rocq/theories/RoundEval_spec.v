(** What is said of the evaluations with the arithmetic of the machine, for Props_RoundEval.v. *)
From Coq Require Import String.
From Coq Require Import List ZArith QArith Qabs Reals Permutation.
From Verif Require Import Prelude Task Task_spec Task_reg_spec Distances Distances_spec Analyze Analyze_spec Pipeline_spec Pipeline_same_spec
  Metrics_spec DefaultDistance_spec.
From Verif Require Metrics DefaultDistance Invariance_spec.
From Verif Require Import FloatDistance FloatDistance_spec.
Import ListNotations.
Local Open Scope R_scope.

(** The default distance with real numbers and with the arithmetic of the machine, on the frames of two items that are read
    from files of type [t] with [w] columns. [default_distance] is called with the keyword normalized or fails. *)
Definition exact_on (t : Metrics.dtype) (w : nat) (empty : Dtw.costs (option R)) (normalized : option bool) (m m' : list frame)
  : res DefaultDistance.dvalue :=
  Invariance_spec.default_on t w empty normalized (map (map Some) m) (map (map Some) m').
Definition machine_on (rnd rnd' facos fover : R -> R) sum dot (t : Metrics.dtype) (w : nat) (empty : Dtw.costs (option R))
  (normalized : option bool) (m m' : list frame) : res (value (option R)) :=
  match normalized with
  | Some b => machine_distance rnd rnd' facos fover sum dot empty (farray t w m) (farray t w m') b
  | None => Err TypeError
  end.

(** The comparison of the distances of the machine. *)
Definition machine_less (d d' : value (option R)) : bool :=
  match d, d' with
  | Number (Some a), Number (Some b) => if Rlt_dec a b then true else false
  | Number (Some _), Infinity _ => true
  | _, _ => false
  end.

(** ** Distances that rounding cannot exchange *)
Section Far.
(** The relative error of the costs, the error of an angle, and the angle. *)
Variables u e : R.
Variable f : frame -> frame -> R.

(** The least and the largest values that can be computed for an alignment. *)
Definition lowest (normalized : bool) (xs ys : list frame) (p : list (nat * nat)) : R :=
  let n := (length xs + length ys - 1)%nat in
  if normalized then (1 - u) ^ n * (along f xs ys p - INR n * e) / INR (length p)
  else (1 - u) ^ (n - 1) * (along f xs ys p - INR n * e).
Definition highest (normalized : bool) (xs ys : list frame) (p : list (nat * nat)) : R :=
  let n := (length xs + length ys - 1)%nat in
  if normalized then (1 + u) ^ n * (along f xs ys p + INR n * e) / INR (length p)
  else (1 + u) ^ (n - 1) * (along f xs ys p + INR n * e).

(** The alignments that can be the least one for the machine. *)
Definition nearly_least (xs ys : list frame) (p : list (nat * nat)) : Prop :=
  whole xs ys p /\ forall q, whole xs ys q -> lowest false xs ys p <= highest false xs ys q.

(** [xs] is nearer to [zs] than [ys], by far. Without normalisation any alignment with the least sum will do. *)
Definition surely_less (normalized : bool) (xs ys zs : list frame) : Prop :=
  forall p q,
    (if normalized then nearly_least xs zs p /\ nearly_least ys zs q else least f xs zs p /\ least f ys zs q) ->
    highest normalized xs zs p < lowest normalized ys zs q.

(** The frames of A, B and X for which the answer cannot depend on rounding. *)
Definition settled (normalized : bool) (ma mb mx : list frame) : Prop :=
  ma = [] \/ mb = [] \/ mx = [] \/ ma = mb \/ surely_less normalized ma mb mx \/ surely_less normalized mb ma mx.

End Far.

(** ** Results that are near *)

(** Two lines for the same values of the regressors of the same by, with the same number of triplets, with scores of which the
    difference is at most the proportion of the doubtful triplets among those of the line. *)
Definition line_near {L : Type} (T : task) (db : list row) (indexes : list (string * list L)) (doubtful : key -> triplet -> bool)
  (k : key) (ln ln' : line L) : Prop :=
  l_labels ln = l_labels ln' /\ l_by ln = l_by ln' /\ l_n ln = l_n ln' /\
  exists r ts,
    Forall2 (fun ixi label => (0 <= snd ixi)%Z /\ nth_error (snd (fst ixi)) (Z.to_nat (snd ixi)) = Some label) (combine indexes r) (l_labels ln) /\
    lists_that (fun t => is_wanted T db k t /\ combination T (by_rows T db k) (map fst indexes) t = r) ts /\
    l_n ln = Z.of_nat (length ts) /\
    (Qabs (l_score ln - l_score ln') <= inject_Z (Z.of_nat (length (filter (doubtful k) ts))) / inject_Z (Z.of_nat (length ts)))%Q.
