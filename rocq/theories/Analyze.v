(** Model of ABXpy/analyze.py. *)
From Coq Require Import String.
From Coq Require Import List ZArith QArith Qround.
From Verif Require Import Prelude TypeFitting Rounding Distances.
Import ListNotations.
Local Open Scope Z_scope.
Local Open Scope list_scope.
Set Implicit Arguments.

Section Analyze.
(** Labels of the levels of the regressors. *)
Variable L : Type.
(** Rounding to float64. *)
Variable rnd : Q -> Q.
(** [np.argsort]. *)
Variable argsort : list Z -> list nat.

(** What is in the group /regressors/by of a task file: indexed_data with its type, its
    number of columns and its rows, indexed_datasets, and the group indexes. *)
Record by_group := mk_group {
  g_type : itype;
  g_columns : nat;
  g_data : list (list Z);
  g_names : list string;
  g_indexes : list (string * list L)
}.

(** What analyze.py reads in the task file; the groups of /regressors in the order of
    h5py. *)
Record analyzed_task := mk_analyzed {
  a_bys : list string;
  a_by_index : list (nat * nat);
  a_groups : list (string * by_group)
}.

(** Column [c] of an array. *)
Definition column (c : nat) (rows : list (list Z)) : list Z := map (fun r => nth c r 0) rows.

(** Line 84: [np.max(indices, 0) + 1], in the type of the array. The array has rows and
    its values are not negative. *)
Definition levels_used (t : itype) (columns : nat) (rows : list (list Z)) : list Z :=
  map (fun c => cast t (maxZ (column c rows) + 1)) (seq 0 columns).

(** The wider of two unsigned types. *)
Definition promote (t t' : itype) : itype := if bits t <? bits t' then t' else t.

(** Lines 90-91: [new_index = indices[:, i] + n_indices[i] * new_index], with numpy's types:
    the scalar [n_indices[i]] counts for the smallest type that holds it, [indices] has
    type [d] and [new_index] type [t]. *)
Fixpoint fold_keys (d t : itype) (cols : list (Z * list Z)) (new_index : list Z) : res (list Z) :=
  match cols with
  | [] => Ok new_index
  | (n, col) :: cols' =>
    tn <- fit_integer_type n false ;;
    let t1 := promote t tn in
    let t2 := promote t1 d in
    fold_keys d t2 cols'
      (map (fun p => cast t2 (fst p + cast t1 (n * snd p))) (combine col new_index))
  end.

(** Lines 84-91: the keys of the rows. [np.prod] of unsigned integers is a uint64. *)
Definition new_keys (g : by_group) : res (list Z * list Z) :=
  let n_indices := levels_used (g_type g) (g_columns g) (g_data g) in
  let prod := cast U64 (prodZ n_indices) in
  if negb (prod <? 18446744073709551615) then Err AssertionError
  else
    ind_type <- fit_integer_type prod false ;;
    keys <- fold_keys (g_type g) ind_type
              (combine (tl n_indices) (map (fun c => column c (g_data g)) (seq 1 (g_columns g - 1))))
              (map (cast ind_type) (column 0 (g_data g))) ;;
    Ok (n_indices, keys).

(** [l[1:] != l[:-1]]. *)
Definition differs (l : list Z) : list bool :=
  map (fun p => negb (fst p =? snd p)) (combine (tl l) (removelast l)).
(** [l[1:] - l[:-1]]. *)
Definition steps (l : list nat) : list nat :=
  map (fun p => (fst p - snd p)%nat) (combine (tl l) (removelast l)).

(** [np.mean] of integers; not rounded here. *)
Definition mean (l : list Z) : Q := inject_Z (sumZ l) / inject_Z (Z.of_nat (length l)).

(** Lines 133-137: the loop of [unique]. *)
Fixpoint means_from (i : nat) (counts : list nat) (scores : list Z) : list Q :=
  match counts with
  | [] => []
  | c :: counts' => mean (slice i (i + c) scores) :: means_from (i + c) counts' scores
  end.

(** Lines 126-139: [unique]. *)
Definition unique (index scores : list Z) : res (list Q * list Z * list nat) :=
  let flag := true :: differs index ++ [true] in
  let unique_idx := np_where flag in
  let counts := steps unique_idx in
  unique_index <- gather index (removelast unique_idx) ;;
  Ok (map (fun m => (m + 1) / 2)%Q (means_from 0 counts scores), unique_index, counts).

(** A numpy number: integer or float. *)
Inductive number := NInt (z : Z) | NFlt (q : Q).
Definition float_of (x : number) : Q :=
  match x with NInt z => rnd (inject_Z z) | NFlt q => q end.
(** [np.mod(x, n)] for [x >= 0] and an integer [n > 0], stored as a float. *)
Definition modulo (x : number) (n : Z) : Q :=
  match x with
  | NInt z => rnd (inject_Z (z mod n))
  | NFlt q => (q - inject_Z (n * Qfloor (q / inject_Z n)))%Q
  end.

(** Lines 43-50: [npdecode] for one key; [radices] is [max_ind] without its first element,
    last one first, and [res] the columns already computed. *)
Fixpoint decode_loop (aux : number) (radices : list Z) (res : list Q) : list Q :=
  match radices with
  | [] => float_of aux :: res
  | n :: radices' =>
    let r := modulo aux n in
    let aux' := NFlt (rnd (rnd (float_of aux - r) / inject_Z n)) in
    decode_loop aux' radices' (r :: res)
  end.
Definition npdecode (keys : list Z) (max_ind : list Z) : list (list Q) :=
  map (fun k => decode_loop (NInt k) (rev (tl max_ind)) []) keys.

(** A line of the result: labels, by, score, n. *)
Record line := mk_line {
  l_labels : list L; l_by : string; l_score : Q; l_n : Z
}.

(** Lines 109-116: one line; [int] truncates. *)
Definition make_line (by_ : string) (indexes : list (list L)) (x : list Q * Q * nat) : res line :=
  let '(key, score, n) := x in
  aux <- mapM (fun j => q <- nth_res key j ;; ix <- nth_res indexes j ;; nth_res ix (Z.to_nat (Qfloor q)))
              (seq 0 (length indexes)) ;;
  Ok (mk_line aux by_ score (Z.of_nat n)).

(** Lines 71-107: what the lines of one by are made from: their keys, scores and numbers, and
    the levels of the regressors. *)
Definition by_table (T : analyzed_task) (scores : list Z) (by_idx : nat) (by_ : string)
  : res (list (list Q * Q * nat) * list (list L)) :=
  trip_attrs <- nth_res (a_by_index T) by_idx ;;
  g <- lookup (a_groups T) by_ ;;
  if (length (g_data g) * g_columns g =? 0)%nat then Ok ([], [])
  else
    let scores_arr := slice (fst trip_attrs) (snd trip_attrs) scores in
    k <- new_keys g ;;
    let '(n_indices, new_index) := k in
    let permut := argsort new_index in
    sorted_scores <- gather scores_arr permut ;;
    sorted_index <- gather new_index permut ;;
    u <- unique sorted_index sorted_scores ;;
    let '(means, unique_index, counts) := u in
    let decoded := npdecode unique_index n_indices in
    indexes <- mapM (lookup (g_indexes g)) (g_names g) ;;
    Ok (combine (combine decoded means) counts, indexes).

(** Lines 71-116: the lines of one by. *)
Definition collapse_by (T : analyzed_task) (scores : list Z) (by_idx : nat) (by_ : string)
  : res (list line) :=
  t <- by_table T scores by_idx by_ ;;
  let '(table, indexes) := t in
  mapM (make_line by_ indexes) table.

(** Lines 69-118: [collapse], the loop over the bys. The text written to the result file, also
    when an exception is raised, is in AnalyzeText.v. *)
Fixpoint collapse (T : analyzed_task) (scores : list Z) (by_idx : nat) (bys : list string)
  : res (list line) :=
  match bys with
  | [] => Ok []
  | by_ :: bys' =>
    l <- collapse_by T scores by_idx by_ ;;
    ls <- collapse T scores (S by_idx) bys' ;;
    Ok (l ++ ls)
  end.

(** Lines 142-166: [analyze]: the header (names of the regressors of the first group,
    before by, score and n) and the lines. *)
Definition analyze (T : analyzed_task) (scores : list Z) : res (list string * list line) :=
  g <- nth_res (map snd (a_groups T)) 0 ;;
  ls <- collapse T scores 0 (a_bys T) ;;
  Ok (g_names g, ls).

End Analyze.
