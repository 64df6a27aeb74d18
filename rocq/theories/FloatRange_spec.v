(** Numbers of a format of floats with overflow, for the statements about the default distance of features that are
    neither too large nor too small. *)
From Coq Require Import Reals ZArith List Permutation.
From Verif Require Import Prelude Metrics_spec.
From Verif Require Metrics DefaultDistance.
From Verif Require Import FloatDistance FloatDistance_spec FloatFormat_spec.
Import ListNotations.
Local Open Scope R_scope.

Section Overflow.
Variable rnd : R -> R.
(** The largest number. *)
Variable max : R.

(** A rounded result, or [None] when it is not finite. *)
Definition kept (v : R) : option R := if Rle_dec (Rabs (rnd v)) max then Some (rnd v) else None.
Definition kept2 (f : R -> R -> R) (a b : option R) : option R :=
  match a, b with Some x, Some y => kept (f x y) | _, _ => None end.

(** As [summed] and [dotted] of FloatDistance_spec.v. *)
Inductive osummed : list R -> option R -> Prop :=
| osummed_none : osummed [] (Some 0)
| osummed_one a : osummed [a] (Some a)
| osummed_plus l l1 l2 a b : Permutation l (l1 ++ l2) -> l1 <> [] -> l2 <> [] -> osummed l1 a -> osummed l2 b -> osummed l (kept2 Rplus a b).
Inductive odotted : list (R * R) -> option R -> Prop :=
| odotted_none : odotted [] (Some 0)
| odotted_one a b : odotted [(a, b)] (kept (a * b))
| odotted_fused l l' a b s : Permutation l ((a, b) :: l') -> l' <> [] -> odotted l' s -> odotted l (kept2 Rplus (Some (a * b)) s)
| odotted_plus l l1 l2 s t : Permutation l (l1 ++ l2) -> l1 <> [] -> l2 <> [] -> odotted l1 s -> odotted l2 t -> odotted l (kept2 Rplus s t).

Variable facos fover : R -> R.
Variable sum : list (option R) -> option R.
Variable dot : list (option R) -> list (option R) -> option R.
Definition overflowing : arithmetic (option R) := mk_arithmetic
  (kept2 Rmult)
  (fun a b => match b with Some y => if Req_EM_T y 0 then None else kept2 Rdiv a b | None => None end)
  (fun a => match a with Some x => if Rle_dec 0 x then kept (sqrt x) else None | None => None end)
  (Metrics.lift1 facos) (Metrics.lift1 fover) (Some 0) (Some 1) Metrics.is_zero Metrics.is_nonneg sum dot.
Definition sums_kept : Prop :=
  (forall l, osummed l (sum (map Some l))) /\
  (forall l l', length l = length l' -> odotted (combine l l') (dot (map Some l) (map Some l'))).
End Overflow.

(** The default distance in this arithmetic. *)
Definition float_distance (rnd : R -> R) (max : R) (rnd' facos fover : R -> R) sum dot empty (x y : frames (option R)) (normalized : bool) : res (value (option R)) :=
  default_distance (overflowing rnd max facos fover sum dot) (radd rnd') DefaultDistance.nle (rdivn rnd') empty x y normalized.

(** Frames whose values have [p] digits and are 0 or between 2 to the powers [lo] and [hi]. *)
Definition moderate (p lo hi : Z) (x : frame) : Prop :=
  Forall (fun v => with_digits p v /\ (v = 0 \/ powerRZ 2 lo <= Rabs v <= powerRZ 2 hi)) x.

(** [lo] and [hi] for the format with [p] digits, the least number 2 to the power [emin] and the largest one [max], for frames
    of 2 to the power [q] values at most. *)
Definition suited (p emin : Z) (max : R) (lo hi q : Z) : Prop :=
  (0 < p /\ lo <= 0 <= hi /\ 0 <= q <= p /\ emin + p <= 2 * (lo - p - hi - q))%Z /\ powerRZ 2 (2 * (hi + q + p - lo)) <= max.

(** As [machine_on] of RoundEval_spec.v. *)
Definition float_on (rnd : R -> R) (max : R) (rnd' facos fover : R -> R) sum dot (t : Metrics.dtype) (w : nat) (empty : Dtw.costs (option R))
  (normalized : option bool) (m m' : list frame) : res (value (option R)) :=
  match normalized with
  | Some b => float_distance rnd max rnd' facos fover sum dot empty (farray t w m) (farray t w m') b
  | None => Err TypeError
  end.
