(** Model of ABXpy/distances/metrics/dtw/dtw.pyx. *)
From Coq Require Import List Arith.
From Verif Require Import Prelude.
Import ListNotations.
Set Implicit Arguments.

Section Dtw.
(** The costs, float64 in the code: addition, comparison [<=] and division by an integer. *)
Variable C : Type.
Variable add : C -> C -> C.
Variable leb : C -> C -> bool.
Variable divn : C -> nat -> C.

(** The array of costs, indexed by line and column. *)
Definition costs := nat -> nat -> C.
Definition put (cost : costs) (i j : nat) (c : C) : costs :=
  fun i' j' => if (i' =? i) && (j' =? j) then c else cost i' j'.

(** [dist_array[i, j]]. *)
Definition at_ (dist : list (list C)) (i j : nat) : res C :=
  row <- nth_res dist i ;; nth_res row j.

(** [a < b]; also for what is not a number, of which all the comparisons are false. *)
Definition less (a b : C) : bool := leb a b && negb (leb b a).

(** Cython's [min] of three numbers: the first one, unless a later one is less. *)
Definition min3 (a b c : C) : C :=
  let m := if less b a then b else a in
  if less c m then c else m.

(** Lines 57-68: the trace-back. [i + j] decreases at each turn, whence the fuel. *)
Fixpoint trace_back (fuel : nat) (cost : costs) (i j path_len : nat) : res (nat * nat * nat) :=
  match i, j with
  | S i', S j' =>
    match fuel with
    | 0 => Err OutOfFuel
    | S fuel' =>
      let c_up := cost i' j in
      let c_left := cost i j' in
      let c_diag := cost i' j' in
      if leb c_diag c_left && leb c_diag c_up then trace_back fuel' cost i' j' (path_len + 1)
      else if leb c_left c_up then trace_back fuel' cost i j' (path_len + 1)
      else trace_back fuel' cost i' j (path_len + 1)
    end
  | _, _ => Ok (i, j, path_len)
  end.

(** Lines 42-50: the array of costs, [empty] being what [np.empty] gives. All the indices are
    within the array. *)
Definition fill (N M : nat) (dist : list (list C)) (empty : costs) : res costs :=
  d <- at_ dist 0 0 ;;
  let cost := put empty 0 0 d in
  cost <- foldM (fun cost i => d <- at_ dist i 0 ;; Ok (put cost i 0 (add d (cost (i - 1) 0)))) (seq 1 (N - 1)) cost ;;
  cost <- foldM (fun cost j => d <- at_ dist 0 j ;; Ok (put cost 0 j (add d (cost 0 (j - 1))))) (seq 1 (M - 1)) cost ;;
  foldM (fun cost i =>
    foldM (fun cost j =>
      d <- at_ dist i j ;;
      Ok (put cost i j (add d (min3 (cost (i - 1) j) (cost (i - 1) (j - 1)) (cost i (j - 1))))))
      (seq 1 (M - 1)) cost) (seq 1 (N - 1)) cost.

(** Lines 37-74. *)
Definition dtw_costs (N M : nat) (dist : list (list C)) (normalized : bool) (empty : costs) : res C :=
  cost <- fill N M dist empty ;;
  let final_cost := cost (N - 1) (M - 1) in
  if normalized then
    end_ <- trace_back (N + M) cost (N - 1) (M - 1) 1 ;;
    let '(i, j, path_len) := end_ in
    let path_len := if i =? 0 then path_len + j else path_len in
    let path_len := if j =? 0 then path_len + i else path_len in
    Ok (divn final_cost path_len)
  else Ok final_cost.

(** Lines 26-30. Representations are lists of frames; [metric] gives the matrix of the local
    distances. *)
Definition dtw {F : Type} (x y : list F) (metric : list F -> list F -> res (list (list C))) (normalized : bool)
  (empty : costs) : res C :=
  if (length x =? 0) || (length y =? 0) then Err ValueError
  else
    dist <- metric x y ;;
    dtw_costs (length x) (length y) dist normalized empty.

End Dtw.
