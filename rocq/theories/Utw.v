(** Model of ABXpy/distances/metrics/utw.py. *)
From Coq Require Import List ZArith QArith Qround.
From Verif Require Import Prelude.
Import ListNotations.
Set Implicit Arguments.
Local Open Scope nat_scope.

Section Utw.
(** Rounding to float64 of the coordinates. *)
Variable rnd : Q -> Q.

(** Line 41: [n1/np.float(n2)*(k+0.5)]; [k+0.5] is exact. *)
Definition coordinate (n1 n2 k : nat) : Q :=
  rnd (rnd (inject_Z (Z.of_nat n1) / inject_Z (Z.of_nat n2)) * (inject_Z (Z.of_nat k) + (1 # 2)))%Q.

(** Lines 38-51. [np.float] is Python's float: dividing by zero raises. *)
Definition distance_coordinates (n1 n2 : nat) : res (list Z * list nat * list Z * list nat) :=
  if (n2 <? n1)%nat then Err AssertionError
  else if (n2 =? 0)%nat then Err ZeroDivisionError
  else
    let l1 := seq 0 n2 in
    let l2 := map (coordinate n1 n2) l1 in
    let l3 := map Qfloor l2 in
    let eq := map (fun p => Qeq_bool (fst p) (inject_Z (snd p))) (combine l2 l3) in
    let integers := np_where eq in
    let non_integers := np_where (map negb eq) in
    l3i <- gather l3 integers ;;
    l1i <- gather l1 integers ;;
    let i_half := map (fun i => i - 1)%Z l3i ++ l3i in
    let j_half := l1i ++ l1i in
    i_whole <- gather l3 non_integers ;;
    j_whole <- gather l1 non_integers ;;
    Ok (i_half, j_half, i_whole, j_whole).

Variable F : Type.

(** [x[i, :]]: negative indices count from the end. *)
Definition frame (x : list F) (i : Z) : res F :=
  let n := Z.of_nat (length x) in
  if (i <? - n)%Z || (n <=? i)%Z then Err IndexError
  else nth_res x (Z.to_nat (if (i <? 0)%Z then i + n else i)%Z).

Definition sumQ (l : list Q) : Q := fold_right Qplus 0%Q l.

(** Lines 3-35. [div] gives the distances between the frames of two lists of frames; they and
    their sums are exact here. *)
Definition utw (x y : list F) (div : list F -> list F -> res (list Q)) : res Q :=
  let '(x, y) := if (length y <? length x)%nat then (y, x) else (x, y) in
  c <- distance_coordinates (length x) (length y) ;;
  let '(i_half, j_half, i_whole, j_whole) := c in
  half <- (if (0 <? length i_half)%nat then
             xs <- mapM (frame x) i_half ;; ys <- mapM (fun j => frame y (Z.of_nat j)) j_half ;;
             ds <- div xs ys ;; Ok (sumQ ds / 2)%Q
           else Ok 0%Q) ;;
  whole <- (if (0 <? length i_whole)%nat then
              xs <- mapM (frame x) i_whole ;; ys <- mapM (fun j => frame y (Z.of_nat j)) j_whole ;;
              ds <- div xs ys ;; Ok (sumQ ds)
            else Ok 0%Q) ;;
  Ok (0 + half + whole)%Q.

End Utw.
