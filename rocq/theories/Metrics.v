(** Model of [ABXpy/distances/metrics/cosine.py] and
    [ABXpy/distances/metrics/kullback_leibler.py], in real arithmetic: rounding is not
    modelled. *)

From Coq Require Import Reals List Bool Arith.
From Verif Require Import Prelude.
Import ListNotations.
Local Open Scope R_scope.

(** A number of numpy: [None] is anything that is not a finite number (nan, infinities), and
    so is what is computed from it. (Simplification: the quotient of a finite number by an
    infinite one is not computed.) *)
Definition num := option R.

Definition lift1 (f : R -> R) (a : num) : num :=
  match a with Some x => Some (f x) | None => None end.
Definition lift2 (f : R -> R -> R) (a b : num) : num :=
  match a, b with Some x, Some y => Some (f x y) | _, _ => None end.

Definition ndiv (a b : num) : num :=
  match b with
  | Some y => if Req_EM_T y 0 then None else lift2 Rdiv a b
  | None => None
  end.
Definition nlog (a : num) : num :=
  match a with Some x => if Rlt_dec 0 x then Some (ln x) else None | None => None end.
Definition nsqrt (a : num) : num :=
  match a with Some x => if Rle_dec 0 x then Some (sqrt x) else None | None => None end.

(** [np.lib.scimath.arccos] then [np.float64]: beyond [-1, 1] the real part of the complex
    value, which is also the value of [acos] there. *)
Definition narccos (a : num) : num := lift1 acos a.

(** [a == 0.] *)
Definition is_zero (a : num) : bool :=
  match a with Some x => if Req_EM_T x 0 then true else false | None => false end.
(** [a >= 0] *)
Definition is_nonneg (a : num) : bool :=
  match a with Some x => if Rle_dec 0 x then true else false | None => false end.

Definition nsum (l : list num) : num := fold_right (lift2 Rplus) (Some 0) l.

Definition map2 {A B C} (f : A -> B -> C) (l : list A) (m : list B) : list C :=
  map (fun p => f (fst p) (snd p)) (combine l m).

(** A 2D array: frames on the lines, [m_cols] features in each of them. [np.finfo(dtype).eps]
    is [eps]. *)
Inductive dtype := Float64 | Float32 | OtherFloat | Integer.

Record mat := mk_mat { m_type : dtype; m_cols : nat; m_rows : list (list num) }.

Definition eps (d : dtype) : R :=
  match d with Float64 => / 2 ^ 52 | Float32 => / 2 ^ 23 | _ => 0 end.

(** A 2D array of results, lines for the frames of [x]. *)
Definition matrix := list (list num).

Definition outer {A B} (f : A -> B -> num) (xs : list A) (ys : list B) : matrix :=
  map (fun x => map (fun y => f x y) ys) xs.

(** [np.outer], [np.dot(x, y.T)], element by element operations on matrices. *)
Definition dot (x y : list num) : num := nsum (map2 (lift2 Rmult) x y).
Definition mmap2 (f : num -> num -> num) (a b : matrix) : matrix := map2 (map2 f) a b.
Definition mmap (f : num -> num) (a : matrix) : matrix := map (map f) a.

(** Positions of the entries of a matrix: [f i j d[i, j]] for each. *)
Definition imap {A B} (f : nat -> A -> B) (l : list A) : list B :=
  map (fun p => f (fst p) (snd p)) (combine (seq 0 (length l)) l).
Definition mimap (f : nat -> nat -> num -> num) (a : matrix) : matrix :=
  imap (fun i row => imap (f i) row) a.

(** cosine.py lines 16-17, kullback_leibler.py lines 35-36, 65-66, 99-100. *)
Definition same_float (x y : mat) : bool :=
  match m_type x, m_type y with
  | Float64, Float64 => true
  | Float32, Float32 => true
  | _, _ => false
  end.

(** Frames with different numbers of features: [np.dot] and the operations on the cubes raise.
    (Simplification: the latter would broadcast an array with a single column.) *)
Definition same_cols (x y : mat) : bool := (m_cols x =? m_cols y)%nat.

(** cosine.py lines 15-35: [cosine_distance]. Lines 24-28 treat a single pair of frames apart
    because of the type of the result of [arccos], the value is the same. *)
Definition cosine_distance (x y : mat) : res matrix :=
  assert! same_float x y else AssertionError ;;
  assert! same_cols x y else ValueError ;;
  let x2 := map (fun r => nsqrt (nsum (map (lift1 (fun v => v ^ 2)) r))) (m_rows x) in
  let y2 := map (fun r => nsqrt (nsum (map (lift1 (fun v => v ^ 2)) r))) (m_rows y) in
  let ix := map is_zero x2 in
  let iy := map is_zero y2 in
  let d := mmap2 ndiv (outer dot (m_rows x) (m_rows y)) (outer (lift2 Rmult) x2 y2) in
  let d := mmap (fun v => lift1 (fun a => a / PI) (narccos v)) d in
  let d := mimap (fun i j v => if nth i ix false then Some 1 else v) d in
  let d := mimap (fun i j v => if nth j iy false then Some 1 else v) d in
  let d := mimap (fun i j v => if nth i ix false && nth j iy false then Some 0 else v) d in
  assert! forallb (forallb is_nonneg) d else AssertionError ;;
  Ok d.

(** [x /= x.sum(1).reshape(x.shape[0], 1)] *)
Definition normalise_row (r : list num) : list num := map (fun v => ndiv v (nsum r)) r.
Definition normalise (m : mat) : mat := mk_mat (m_type m) (m_cols m) (map normalise_row (m_rows m)).

(** The arrays of the caller. The two arguments of a distance can be the same array. *)
Definition heap := list mat.

Fixpoint update {A} (l : list A) (i : nat) (a : A) : list A :=
  match l, i with
  | [], _ => []
  | _ :: l', 0%nat => a :: l'
  | b :: l', S i' => b :: update l' i' a
  end.

(** The division in place is refused for integers. *)
Definition normalise_at (h : heap) (i : nat) : res heap :=
  m <- nth_res h i ;;
  match m_type m with
  | Integer => Err TypeError
  | _ => Ok (update h i (normalise m))
  end.

(** cosine.py lines 38-41: [normalize_cosine_distance], which changes its arguments. *)
Definition normalize_cosine_distance (h : heap) (i j : nat) : res (heap * matrix) :=
  h <- normalise_at h i ;;
  h <- normalise_at h j ;;
  x <- nth_res h i ;;
  y <- nth_res h j ;;
  d <- cosine_distance x y ;;
  Ok (h, d).

(** kullback_leibler.py lines 4-10: [kl_ptwise] and [js_ptwise]. *)
Definition kl_ptwise (x y : list num) : num :=
  nsum (map2 (lift2 Rmult) x (map2 (lift2 Rminus) (map nlog x) (map nlog y))).

Definition js_ptwise (x y : list num) : num :=
  let m := map2 (fun a b => lift1 (fun v => v / 2) (lift2 Rplus a b)) x y in
  lift2 Rplus (lift1 (Rmult 0.5) (kl_ptwise x m)) (lift1 (Rmult 0.5) (kl_ptwise y m)).

(** kullback_leibler.py lines 13-18: [__kl_divergence]. *)
Definition kl_matrix (x y : list (list num)) : matrix :=
  let pq := outer (fun r s => dot r (map nlog s)) x y in
  let pp := outer (fun r _ => nsum (map2 (lift2 Rmult) r (map nlog r))) x y in
  mmap2 (lift2 Rminus) pp pq.

(** [a.transpose()] for a matrix with [n] columns. *)
Definition transpose (n : nat) (a : matrix) : matrix :=
  map (fun j => map (fun r => nth j r None) a) (seq 0 n).

(** [x + eps] and renormalisation, on a new array: lines 43-47. *)
Definition smooth (m : mat) : mat :=
  normalise (mk_mat (m_type m) (m_cols m)
               (map (map (lift1 (fun v => v + eps (m_type m)))) (m_rows m))).

(** kullback_leibler.py lines 21-54: [kl_divergence]; the arrays of the caller are those of
    lines 40-41, the following ones are new. *)
Definition kl_divergence (thresholded symmetrized normalize : bool) (h : heap) (i j : nat)
  : res (heap * matrix) :=
  x <- nth_res h i ;;
  y <- nth_res h j ;;
  assert! same_float x y else AssertionError ;;
  let normalize := if thresholded then true else normalize in
  h <- (if normalize then h <- normalise_at h i ;; normalise_at h j else Ok h) ;;
  x <- nth_res h i ;;
  y <- nth_res h j ;;
  assert! same_cols x y else ValueError ;;
  let xr := m_rows (if thresholded then smooth x else x) in
  let yr := m_rows (if thresholded then smooth y else y) in
  let res_ := kl_matrix xr yr in
  let res_ := if symmetrized
              then mmap2 (lift2 Rplus) (mmap (lift1 (Rmult 0.5)) res_)
                         (mmap (lift1 (Rmult 0.5)) (transpose (length xr) (kl_matrix yr xr)))
              else res_ in
  Ok (h, res_).

(** [np.all(x.sum(1) != 0.)] *)
Definition no_zero_sum (m : mat) : bool := forallb (fun r => negb (is_zero (nsum r))) (m_rows m).

(** kullback_leibler.py lines 57-83: [js_divergence]. [xx], [yy] and [m] are cubes, given
    here by their entries [[i, j]]. *)
Definition js_divergence (normalize : bool) (h : heap) (i j : nat) : res (heap * matrix) :=
  x <- nth_res h i ;;
  y <- nth_res h j ;;
  assert! same_float x y else AssertionError ;;
  assert! no_zero_sum x && no_zero_sum y else AssertionError ;;
  h <- (if normalize then h <- normalise_at h i ;; normalise_at h j else Ok h) ;;
  x <- nth_res h i ;;
  y <- nth_res h j ;;
  assert! same_cols x y else ValueError ;;
  let mid := fun r s => map2 (fun a b => lift1 (fun v => v / 2) (lift2 Rplus a b)) r s in
  let x_m := outer (fun r s => nsum (map2 (lift2 Rmult) r (map nlog (mid r s)))) (m_rows x) (m_rows y) in
  let y_m := outer (fun r s => nsum (map2 (lift2 Rmult) s (map nlog (mid r s)))) (m_rows x) (m_rows y) in
  let x_x := outer (fun r _ => nsum (map2 (lift2 Rmult) r (map nlog r))) (m_rows x) (m_rows y) in
  let y_y := transpose (length (m_rows x))
               (outer (fun s _ => nsum (map2 (lift2 Rmult) s (map nlog s))) (m_rows y) (m_rows x)) in
  Ok (h, mmap2 (lift2 Rplus) (mmap (lift1 (Rmult 0.5)) (mmap2 (lift2 Rminus) x_x x_m))
                             (mmap (lift1 (Rmult 0.5)) (mmap2 (lift2 Rminus) y_y y_m))).

(** kullback_leibler.py lines 87-88. *)
Definition sqrt_js_divergence (h : heap) (i j : nat) : res (heap * matrix) :=
  r <- js_divergence true h i j ;;
  Ok (fst r, mmap nsqrt (snd r)).

(** kullback_leibler.py lines 91-111: [hellinger_distance]. *)
Definition hellinger_distance (h : heap) (i j : nat) : res (heap * matrix) :=
  x <- nth_res h i ;;
  y <- nth_res h j ;;
  assert! same_float x y else AssertionError ;;
  assert! no_zero_sum x && no_zero_sum y else AssertionError ;;
  h <- normalise_at h i ;;
  h <- normalise_at h j ;;
  x <- nth_res h i ;;
  y <- nth_res h j ;;
  assert! same_cols x y else ValueError ;;
  let xr := map (map nsqrt) (m_rows x) in
  let yr := map (map nsqrt) (m_rows y) in
  let res_ := outer (fun r s => nsqrt (nsum (map (lift1 (fun v => v ^ 2)) (map2 (lift2 Rminus) r s)))) xr yr in
  Ok (h, mmap (lift1 (Rmult (1 / sqrt 2))) res_).

(** kullback_leibler.py lines 114-125: [is_distance] is not implemented. *)
Definition is_distance (x y : mat) : res matrix :=
  assert! same_float x y else AssertionError ;;
  Err NotImplementedError.
