(** Model of the default distance (ABXpy/distance.py lines 12-29, ABXpy/distances/metrics/cosine.py
    and ABXpy/distances/metrics/dtw/dtw.pyx) with the arithmetic of the machine: all that is known of
    the operations is what they are given and what they give. (Metrics.v and DefaultDistance.v are
    the same with real numbers.) *)
From Coq Require Import List Arith Bool.
From Verif Require Import Prelude Dtw.
From Verif Require Metrics.
Import ListNotations.
Set Implicit Arguments.

Section Arithmetic.
Variable F : Type.                              (* the numbers *)

(** The operations on the elements of the arrays: product, quotient, square root, the real part of
    [np.lib.scimath.arccos], the quotient by [np.pi] with the conversion to float64, the test
    [== 0.] and the test [>= 0]. [np.sum] along an axis and the elements of [np.dot] are functions of
    the numbers of which the order of the additions is not known. *)
Record arithmetic := mk_arithmetic {
  mul : F -> F -> F;
  div : F -> F -> F;
  root : F -> F;
  arccos : F -> F;
  over_pi : F -> F;
  zero : F;
  one : F;
  equal_0 : F -> bool;
  at_least_0 : F -> bool;
  sum : list F -> F;
  dot : list F -> list F -> F
}.
Variable A : arithmetic.

(** A 2D array: its type, its number of columns and its frames. *)
Record frames := mk_frames { f_type : Metrics.dtype; f_cols : nat; f_rows : list (list F) }.

(** cosine.py lines 16-17. *)
Definition same_float (x y : frames) : bool :=
  match f_type x, f_type y with
  | Metrics.Float64, Metrics.Float64 => true
  | Metrics.Float32, Metrics.Float32 => true
  | _, _ => false
  end.

(** cosine.py lines 18-19: the element of [x2] for a frame. *)
Definition length_of (r : list F) : F := root A (sum A (map (fun v => mul A v v) r)).

(** cosine.py lines 20-33: the element of [d] for two frames. The program computes whole arrays, then
    writes 1 on the lines and the columns of the frames without length, then 0 where both have none. *)
Definition angle (r s : list F) : F :=
  let x2 := length_of r in
  let y2 := length_of s in
  let ix := equal_0 A x2 in
  let iy := equal_0 A y2 in
  let d := over_pi A (arccos A (div A (dot A r s) (mul A x2 y2))) in
  let d := if ix then one A else d in
  let d := if iy then one A else d in
  if ix && iy then zero A else d.

(** cosine.py lines 15-35; [np.dot] refuses frames of different lengths. *)
Definition cosine_distance (x y : frames) : res (list (list F)) :=
  assert! same_float x y else AssertionError ;;
  assert! (f_cols x =? f_cols y)%nat else ValueError ;;
  let d := map (fun r => map (angle r) (f_rows y)) (f_rows x) in
  assert! forallb (forallb (at_least_0 A)) d else AssertionError ;;
  Ok d.

(** What is returned: a number or [np.inf]. *)
Inductive value := Number (v : F) | Infinity.

(** distance.py lines 12-29: [default_distance], the operations on the costs of the alignments being
    the addition, the comparison and the division by an integer of C. *)
Definition default_distance (add : F -> F -> F) (leb : F -> F -> bool) (divn : F -> nat -> F) (empty : costs F)
  (x y : frames) (normalized : bool) : res value :=
  if (0 <? length (f_rows x))%nat && (0 <? length (f_rows y))%nat then
    d <- cosine_distance x y ;;
    v <- dtw add leb divn (f_rows x) (f_rows y) (fun _ _ => Ok d) normalized empty ;;
    Ok (Number v)
  else if (length (f_rows x) =? length (f_rows y))%nat then Ok (Number (zero A))
  else Ok Infinity.

End Arithmetic.
