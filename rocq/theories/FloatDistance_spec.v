(** What is assumed of the arithmetic of the machine, for the statements about [FloatDistance]. *)
From Coq Require Import Reals List Arith Permutation Bool.
From Verif Require Import Prelude Metrics_spec.
From Verif Require Metrics DefaultDistance.
From Verif Require Import FloatDistance.
Import ListNotations.
Local Open Scope R_scope.

Section Rounding.
Variable rnd : R -> R.

(** Rounded additions of some numbers, in any order. *)
Inductive summed : list R -> R -> Prop :=
| summed_none : summed [] 0
| summed_one a : summed [a] a
| summed_plus l l1 l2 a b : Permutation l (l1 ++ l2) -> l1 <> [] -> l2 <> [] -> summed l1 a -> summed l2 b -> summed l (rnd (a + b)).

(** Rounded sums of products, in any order; a product and an addition can be rounded together. *)
Inductive dotted : list (R * R) -> R -> Prop :=
| dotted_none : dotted [] 0
| dotted_one a b : dotted [(a, b)] (rnd (a * b))
| dotted_fused l l' a b s : Permutation l ((a, b) :: l') -> l' <> [] -> dotted l' s -> dotted l (rnd (a * b + s))
| dotted_plus l l1 l2 s t : Permutation l (l1 ++ l2) -> l1 <> [] -> l2 <> [] -> dotted l1 s -> dotted l2 t -> dotted l (rnd (s + t)).

(** Numbers that are finite or not ([None]), all operations being rounded by [rnd]. [facos] and [fover] are the
    functions arccos and quotient by pi of the machine. *)
Variable facos fover : R -> R.
Variable sum : list (option R) -> option R.
Variable dot : list (option R) -> list (option R) -> option R.
Definition rounded : arithmetic (option R) := mk_arithmetic
  (Metrics.lift2 (fun a b => rnd (a * b)))
  (fun a b => match b with Some y => if Req_EM_T y 0 then None else Metrics.lift2 (fun a b => rnd (a / b)) a b | None => None end)
  (fun a => match a with Some x => if Rle_dec 0 x then Some (rnd (sqrt x)) else None | None => None end)
  (Metrics.lift1 facos) (Metrics.lift1 fover) (Some 0) (Some 1) Metrics.is_zero Metrics.is_nonneg sum dot.

(** The sums are rounded sums in some order. *)
Definition sums_rounded : Prop :=
  (forall l, exists s, summed l s /\ sum (map Some l) = Some s) /\
  (forall l l', length l = length l' -> exists s, dotted (combine l l') s /\ dot (map Some l) (map Some l') = Some s).
End Rounding.

(** The costs of the alignments, rounded by [rnd]. *)
Definition radd (rnd : R -> R) : option R -> option R -> option R := Metrics.lift2 (fun a b => rnd (a + b)).
Definition rdivn (rnd : R -> R) (a : option R) (n : nat) : option R := Metrics.lift1 (fun v => rnd (v / INR n)) a.

(** The default distance in this arithmetic. *)
Definition machine_distance (rnd rnd' facos fover : R -> R) sum dot empty (x y : frames (option R)) (normalized : bool) : res (value (option R)) :=
  default_distance (rounded rnd facos fover sum dot) (radd rnd') DefaultDistance.nle (rdivn rnd') empty x y normalized.

(** An array with the frames [xs]. *)
Definition farray (t : Metrics.dtype) (w : nat) (xs : list frame) : frames (option R) := mk_frames t w (map (map Some) xs).

(** A rounding as those of the formats of floats, of which [tiny] is the least positive number: it respects the order, 0 and
    1, gives 0 for nothing above half of the least number and is not bad for the square roots. *)
Record format (rnd : R -> R) (tiny : R) : Prop := mk_format {
  fmt_tiny : 0 < tiny;
  fmt_mono : forall a b, a <= b -> rnd a <= rnd b;
  fmt_idem : forall a, rnd (rnd a) = rnd a;
  fmt_gap : forall a, rnd a = a -> 0 < a -> tiny <= a;
  fmt_0 : rnd 0 = 0;
  fmt_1 : rnd 1 = 1;
  fmt_least : forall a, tiny / 2 < a -> 0 < rnd a;
  fmt_root : forall a, tiny <= a -> 3 / 4 * sqrt a <= rnd (sqrt a)
}.

(** A rounding with relative error [u]. *)
Definition precise (rnd : R -> R) (u : R) : Prop := 0 <= u < 1 /\ forall a, Rabs (rnd a - a) <= u * Rabs a.

(** What rounding can change of the cosine of an angle of frames with [w] values. *)
Definition cosine_error (u : R) (w : nat) : R := (1 + u) ^ (w + 1) / (1 - u) ^ (w + 3) - 1.

(** Angles in half turns with an error of [ua] at most. *)
Definition accurate (facos fover : R -> R) (ua : R) : Prop :=
  forall v, 0 <= fover (facos v) /\ Rabs (fover (facos v) - acos v / PI) <= ua.

(** What rounding can change of the angle. *)
Definition angle_error (ua u : R) (w : nat) : R := ua + sqrt (cosine_error u w / 2).
