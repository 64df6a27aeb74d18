(** The model passes the tests of /repo/test that have a definite result: those of
    test_task.py and test_dtw.py. *)
From Coq Require Import String.
From Coq Require Import List ZArith QArith.
From Verif Require Import Prelude TypeFitting Sampler Sampler_proofs Task Task_ex Pairs Distances Score Analyze Rounding
  H5io H5io_ex Pipeline Pipeline_ex Dtw Text Items.
Import ListNotations.
Local Open Scope Z_scope.
Local Open Scope string_scope.
Local Open Scope list_scope.

(** The table of the items of [generate_testitems(base, n)]: the cells after the fourth one of
    each line, which are numbers. *)
Definition ts_number (s : string) : Z := if s =? "0" then 0 else if s =? "1" then 1 else if s =? "2" then 2 else -1.
Definition ts_lines (base n : nat) : list (list string) := map (skipn 4) (cells (test_cell base) base n 0).
Definition ts_cols (base n : nat) : list string := hd [] (ts_lines base n).
Definition ts_db (base n : nat) : list row :=
  map (fun cells c => match find (fun p : string * string => fst p =? c) (combine (ts_cols base n) cells) with
                      | Some p => ts_number (snd p)
                      | None => -1
                      end) (tl (ts_lines base n)).

(** The regressors of default. *)
Definition ts_regressors (on : string) (across : list string) : regressors :=
  mk_regressors [] (map (fun c => ((c ++ "_1")%string, fun v : row => v c)) (on :: across)) []
                [((on ++ "_2")%string, fun v r => r on)]
                (map (fun c => ((c ++ "_2")%string, fun (v r : row) => r c)) across) false.
Definition ts_task (across by_ : list string) (f : filters) : task :=
  mk_task "c0" across by_ f (ts_regressors "c0" across).
Definition ts_none : filters := mk_filters (fun _ => true) (fun _ _ => true) (fun _ => true) None None None None.

(** nb_blocks, nb_triplets and nb_by_levels. *)
Definition ts_stats (T : task) (base n : nat) : res (Z * Z * Z) :=
  t <- task_init idk idz T (ts_cols base n) (ts_db base n) ;;
  let st := snd t in Ok (s_nb_blocks st, s_nb_triplets st, s_nb_by_levels st).

(** The triplets and the pairs of every by; [None] if no file is made. The values of the
    attributes are their own indexes. *)
Definition ts_len (_ : Z) : nat := 50.
Definition ts_name (k : key) : string := String.concat "," (map (fun z => nth (Z.to_nat z) ["0"; "1"; "2"] "") k).
Definition ts_generate (T : task) (base n : nat) : res (option (list (string * list triplet * list Z))) :=
  f <- make_file Z.eq_dec (fun _ => true) ts_name (fun l => l) idk idz argsort_ins ex_rng 9 ts_len ts_len ts_len 100000 1000
            T (ts_cols base n) (ts_db base n) ([] : list (Distances.item Z))
            (map (fun c => (c, [0; 1; 2])) (regressor_names (t_regressors T))) None 0 ;;
  Ok (match f with
      | None => None
      | Some x => Some (map (fun p : (string * (Z * Z)) * (string * (Z * Z * Z)) =>
          let '((b, (i, j)), (_, (_, s, e))) := p in
          (b, slice (Z.to_nat i) (Z.to_nat j) (x_triplets x), slice (Z.to_nat s) (Z.to_nat e) (x_pairs x)))
          (combine (combine (x_bys x) (x_by_index x)) (x_attrs x)))
      end).

(** [tables_equivalent]: the same shape, and every row is in the other table. Here the other way too. *)
Definition ts_eqb (x y : triplet) : bool :=
  let '(a, b, c) := x in let '(a', b', c') := y in ((a =? a') && (b =? b') && (c =? c'))%Z.
Definition tables_equivalent (t u : list triplet) : bool :=
  (List.length t =? List.length u)%nat && forallb (fun x => existsb (ts_eqb x) u) t && forallb (fun x => existsb (ts_eqb x) t) u.
Definition sets_equal (l m : list Z) : bool :=
  forallb (fun x => existsb (Z.eqb x) m) l && forallb (fun x => existsb (Z.eqb x) l) m.

Definition ts_triplets (T : task) (base n : nat) (expected : list (string * list triplet)) : bool :=
  match ts_generate T base n with
  | Ok (Some l) => (List.length l =? List.length expected)%nat &&
      forallb (fun p : (string * list triplet * list Z) * (string * list triplet) =>
        let '((b, t, _), (b', t')) := p in (b =? b') && tables_equivalent t' t) (combine l expected)
  | _ => false
  end.
Definition ts_pairs (T : task) (base n : nat) (expected : list (string * list Z)) : bool :=
  match ts_generate T base n with
  | Ok (Some l) => (List.length l =? List.length expected)%nat &&
      forallb (fun p : (string * list triplet * list Z) * (string * list Z) =>
        let '((b, _, l), (b', l')) := p in (b =? b') && sets_equal l' l) (combine l expected)
  | _ => false
  end.

Definition ts_four : list triplet := [(0, 1, 2); (1, 0, 3); (2, 3, 0); (3, 2, 1)].
Definition ts_codes : list Z := [2; 6; 7; 3; 8; 12; 13; 9].

Example test_basic :
  ts_stats (ts_task ["c1"] ["c2"] ts_none) 2 3 = Ok (8, 8, 2) /\
  ts_triplets (ts_task ["c1"] ["c2"] ts_none) 2 3 [("0", ts_four); ("1", ts_four)] = true /\
  ts_pairs (ts_task ["c1"] ["c2"] ts_none) 2 3 [("0", ts_codes); ("1", ts_codes)] = true.
Proof. vm_compute. repeat split. Qed.

Example test_multiple_across :
  ts_stats (ts_task ["c1"; "c2"] [] ts_none) 2 3 = Ok (8, 8, 1) /\
  ts_triplets (ts_task ["c1"; "c2"] [] ts_none) 2 3
    [("0", [(0, 1, 6); (1, 0, 7); (2, 3, 4); (3, 2, 5); (4, 5, 2); (5, 4, 3); (6, 7, 0); (7, 6, 1)])] = true.
Proof. vm_compute. repeat split. Qed.

Example test_no_across :
  ts_stats (ts_task [] ["c2"] ts_none) 2 3 = Ok (8, 16, 2) /\
  match ts_generate (ts_task [] ["c2"] ts_none) 2 3 with Ok (Some _) => True | _ => False end.
Proof. vm_compute. repeat split. Qed.

Example test_multiple_bys :
  ts_stats (ts_task [] ["c1"; "c2"; "c3"] ts_none) 3 4 = Ok (81, 0, 27) /\
  ts_generate (ts_task [] ["c1"; "c2"; "c3"] ts_none) 3 4 = Ok None.
Proof. vm_compute. repeat split. Qed.

(** The filters of the tests keep the lines in which an attribute is 0. *)
Definition ts_zero (c : string) : option (row -> row -> bool) := Some (fun v r => r c =? 0)%Z.

Definition ts_filter : task :=
  ts_task ["c1"] ["c2"] (mk_filters (fun _ => true) (fun _ r => r "c3" =? 0)%Z (fun _ => true) None None None None).
Example test_filter :
  ts_stats ts_filter 2 4 = Ok (8, 8, 2) /\
  ts_triplets ts_filter 2 4 [("0", ts_four); ("1", ts_four)] = true /\
  ts_pairs ts_filter 2 4 [("0", ts_codes); ("1", ts_codes)] = true.
Proof. vm_compute. repeat split. Qed.

Definition ts_filter_A : task :=
  ts_task [] [] (mk_filters (fun _ => true) (fun _ _ => true) (fun _ => true) (ts_zero "c0") None None None).
Example test_filter_on_A :
  ts_stats ts_filter_A 2 2 = Ok (4, 4, 1) /\
  ts_triplets ts_filter_A 2 2 [("0", [(0, 1, 2); (0, 3, 2); (2, 1, 0); (2, 3, 0)])] = true.
Proof. vm_compute. repeat split. Qed.

Definition ts_filter_B : task :=
  ts_task [] [] (mk_filters (fun _ => true) (fun _ _ => true) (fun _ => true) None (ts_zero "c1") None None).
Example test_filter_on_B :
  ts_stats ts_filter_B 2 2 = Ok (4, 4, 1) /\
  ts_triplets ts_filter_B 2 2 [("0", [(0, 1, 2); (1, 0, 3); (2, 1, 0); (3, 0, 1)])] = true.
Proof. vm_compute. repeat split. Qed.

Definition ts_filter_X : task :=
  ts_task [] [] (mk_filters (fun _ => true) (fun _ _ => true) (fun _ => true) None None (ts_zero "c1") None).
Example test_filter_on_C :
  ts_stats ts_filter_X 2 2 = Ok (4, 4, 1) /\
  ts_triplets ts_filter_X 2 2 [("0", [(2, 1, 0); (2, 3, 0); (3, 0, 1); (3, 2, 1)])] = true.
Proof. vm_compute. repeat split. Qed.

(** test_dtw.py, with costs in the rationals. *)
Definition ts_dtw (N M : nat) (dist : list (list Q)) (normalized : bool) : bool :=
  match dtw_costs Qplus Qle_bool (fun c n => (c / inject_Z (Z.of_nat n))%Q) N M dist normalized (fun _ _ => 0%Q) with
  | Ok c => Qeq_bool c 1
  | Err _ => false
  end.
Definition ts_matrix (N M : nat) (f : nat -> nat -> Z) : list (list Q) :=
  map (fun i => map (fun j => inject_Z (f i j)) (seq 0 M)) (seq 0 N).
Definition ts_dists (i j : nat) : Z := if (i =? j)%nat then 1 else 2.

Example test_small :
  ts_dtw 1 1 [[1%Q]] false = true /\ ts_dtw 1 1 [[1%Q]] true = true.
Proof. vm_compute. repeat split. Qed.

Example test_normalized :
  ts_dtw 5 5 (ts_matrix 5 5 ts_dists) true = true /\
  ts_dtw 5 7 (ts_matrix 5 7 (fun i j => if (j <? 2)%nat then (if (i =? 0)%nat then 1 else 2) else ts_dists i (j - 2))) true = true /\
  ts_dtw 7 5 (ts_matrix 7 5 (fun i j => if (i <? 2)%nat then (if (j =? 0)%nat then 1 else 2) else ts_dists (i - 2) j)) true = true /\
  ts_dtw 5 7 (ts_matrix 5 7 (fun i j => if (j <? 3)%nat then ts_dists i j
                                        else if (j <? 5)%nat then (if (i =? 3)%nat then 1 else 2) else ts_dists i (j - 2))) true = true.
Proof. vm_compute. repeat split. Qed.
