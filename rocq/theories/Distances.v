(** Model of ABXpy/distances/distances.py: jobs, workers, distance file. *)
From Coq Require Import String.
From Coq Require Import List ZArith Lia.
From Verif Require Import Prelude Pairs.
Import ListNotations.
Local Open Scope Z_scope.
Local Open Scope list_scope.
Set Implicit Arguments.

(** Python dictionaries with string keys, as association lists: the first entry for a
    key is the current one. [d[k]], and [d.update(d')]. *)
Fixpoint lookup {A : Type} (d : list (string * A)) (k : string) : res A :=
  match d with
  | [] => Err KeyError
  | (k', a) :: d' => if String.eqb k' k then Ok a else lookup d' k
  end.
Definition update {A : Type} (d d' : list (string * A)) : list (string * A) := d' ++ d.

(** ** Creation of the jobs *)

(** A number that is a Python/numpy integer or a float holding an integer: lines 82-104
    mix both. Integers are not bounded (they stay below 2^63). *)
Inductive num : Set :=
| Int (z : Z)
| Flt (z : Z).
Definition val (x : num) : Z := match x with Int z => z | Flt z => z end.
Definition is_int (x : num) : bool := match x with Int _ => true | Flt _ => false end.
Definition nadd (x y : num) : num :=
  match x, y with Int a, Int b => Int (a + b) | _, _ => Flt (val x + val y) end.
Definition nsub (x y : num) : num :=
  match x, y with Int a, Int b => Int (a - b) | _, _ => Flt (val x - val y) end.
Definition nlt (x y : num) : bool := val x <? val y.
(** [min(x, y)]: the first of the smallest ones. *)
Definition nmin (x y : num) : num := if nlt y x then y else x.
(** [np.array] of a list of numbers: floats if one of them is. *)
Definition np_array (l : list num) : list num :=
  if forallb is_int l then l else map (fun x => Flt (val x)) l.

Record block : Set := mk_block {
  k_by : string; k_start : num; k_stop : num; k_n : num
}.

(** distances.py lines 82-85: [max_block_size]. The float quotient
    [total_n_pairs / np.float(n_cpu)] is exact enough for its ceiling to be the exact one
    (totals below 2^53), and [buffer_max_size * 1000000 / 8] is a float. [n_cpu >= 1]. *)
Definition max_block_size (total : Z) (n_cpu : nat) (buffer_max_size : Z) : num :=
  nmin (Int (ceil_div total (Z.of_nat n_cpu))) (Flt (buffer_max_size * 1000000 / 8)).

(** distances.py lines 93-104: the while loop for one by. *)
Fixpoint split_by (fuel : nat) (m : num) (k : string) (n_pairs sta sto : num)
  : res (list block) :=
  if 0 <? val n_pairs then
    match fuel with
    | O => Err OutOfFuel
    | S fuel' =>
      let amount := if nlt m n_pairs then m else n_pairs in
      let sto' := nadd sto amount in
      r <- split_by fuel' m k (nsub n_pairs amount) (nadd sta amount) sto' ;;
      Ok (mk_block k sta sto' amount :: r)
    end
  else Ok [].

(** distances.py lines 86-104: the blocks of all bys. *)
Fixpoint split_bys (fuel : nat) (m : num) (bys : list (string * Z)) : res (list block) :=
  match bys with
  | [] => Ok []
  | (k, n) :: bys' =>
    b <- split_by fuel m k (Int n) (Int 0) (Int 0) ;;
    r <- split_bys fuel m bys' ;;
    Ok (b ++ r)
  end.

(** [np.argmin]: position of the first minimum. *)
Fixpoint argmin_from (i best : nat) (v : Z) (l : list Z) : nat :=
  match l with
  | [] => best
  | x :: l' => if x <? v then argmin_from (S i) i x l' else argmin_from (S i) best v l'
  end.
Definition argmin (l : list Z) : res nat :=
  match l with [] => Err ValueError | x :: l' => Ok (argmin_from 1 0 x l') end.

(** [l[i] = v] *)
Fixpoint set_nth {A : Type} (l : list A) (i : nat) (v : A) : list A :=
  match l, i with
  | [], _ => []
  | _ :: l', O => v :: l'
  | x :: l', S i' => x :: set_nth l' i' v
  end.

(** distances.py lines 113-115: the next block goes to the idlest cpu. *)
Definition assign_step (n_dist : list Z) (s : list nat * list Z) (i : nat)
  : res (list nat * list Z) :=
  let '(cpu, loads) := s in
  idlest <- argmin loads ;;
  d <- nth_res n_dist i ;;
  load <- nth_res loads idlest ;;
  Ok (set_nth cpu i idlest, set_nth loads idlest (load + d)).

(** A range of pairs of a by, as found in the jobs: job_description['by'][b],
    ['start'][b], ['stop'][b]. *)
Record range : Set := mk_range { r_by : string; r_start : num; r_stop : num }.
Definition job := list range.

(** distances.py lines 106-129, on the blocks of step 1. *)
Definition assign_jobs (argsort : list Z -> list nat) (n_cpu : nat) (bs : list block)
  : res (list job) :=
  let n_dist := map (fun b => val (k_n b)) bs in
  let order := rev (argsort n_dist) in
  s <- foldM (assign_step n_dist) order (repeat 0%nat (length bs), repeat 0 n_cpu) ;;
  let cpu := fst s in
  let by_ := map k_by bs in
  let start := np_array (map k_start bs) in
  let stop := np_array (map k_stop bs) in
  mapM (fun i =>
          let indices := np_where (map (Nat.eqb i) cpu) in
          b <- gather by_ indices ;;
          s <- gather start indices ;;
          e <- gather stop indices ;;
          Ok (map (fun x => mk_range (fst (fst x)) (snd (fst x)) (snd x))
                  (combine (combine b s) e)))
       (seq 0 n_cpu).

(** distances.py lines 79-129: the jobs for bys with the given numbers of pairs. *)
Definition distance_jobs (argsort : list Z -> list nat) (fuel : nat) (n_cpu : nat)
           (buffer_max_size : Z) (bys : list (string * Z)) : res (list job) :=
  let total := sumZ (map snd bys) in
  bs <- split_bys fuel (max_block_size total n_cpu buffer_max_size) bys ;;
  assign_jobs argsort n_cpu bs.

(** ** Files *)

Section Files.
Variable T : Type.                  (* times of frames, onsets and offsets *)
Variable tle : T -> T -> bool.      (* <= on them, as the floats compare *)
Variable F : Type.                  (* frames: rows of a feature matrix *)
Variable V : Type.                  (* values of a distance *)
Variable zero : V.                  (* fill value of a new dataset *)
(** The distance function; the first argument is the keyword [normalized] if given. *)
Variable distance : option bool -> list F -> list F -> res V.

(** A row of a feat_dbs dataframe. The file column is text ([str(f)] is then [f]). *)
Record item := mk_item { i_file : string; i_onset : T; i_offset : T }.

(** The task file, as far as the distances are concerned: dataset bys, attributes
    (base, start, stop) of the group unique_pairs, dataset unique_pairs/data, dataframes
    feat_dbs/by (label of a row, row). *)
Record pair_file := mk_pair_file {
  pf_bys : list string;
  pf_attrs : list (string * (Z * Z * Z));
  pf_data : list Z;
  pf_items : list (string * list (Z * item))
}.

(** The distance file: attribute done and dataset distances/data, if they exist. *)
Record dist_file := mk_dist_file { d_done : option bool; d_data : option (list V) }.

(** distances.py lines 54-61: number of pairs of each by. The variable [total_n_pairs] is
    only bound if there is a by. *)
Definition by_sizes (pf : pair_file) : res (list (string * Z)) :=
  mapM (fun k => a <- lookup (pf_attrs pf) k ;;
                 let '(_, s, e) := a in Ok (k, e - s)) (pf_bys pf).

(** distances.py lines 63-66: the state of the distance file afterwards, and whether
    something was raised. *)
Definition create_output (pf : pair_file) (df : dist_file) : dist_file * res unit :=
  match pf_bys pf with
  | [] => (mk_dist_file (Some false)
                        (d_data df), Err (if d_data df then ValueError else NameError))
  | _ =>
    match d_data df with
    | Some d => (mk_dist_file (Some false) (Some d), Err ValueError)
    | None => (mk_dist_file (Some false) (Some (repeat zero (length (pf_data pf)))), Ok tt)
    end
  end.

(** distances.py lines 33-129. *)
Definition create_distance_jobs (argsort : list Z -> list nat) (fuel : nat)
           (pf : pair_file) (df : dist_file) (n_cpu : nat) (buffer_max_size : Z)
  : dist_file * res (list job) :=
  match by_sizes pf with
  | Err e => (df, Err e)
  | Ok sizes =>
    match create_output pf df with
    | (df', Err e) => (df', Err e)
    | (df', Ok _) => (df', distance_jobs argsort fuel n_cpu buffer_max_size sizes)
    end
  end.

(** ** Features *)

(** What [h5features.read] returns: the times and the frames of each file. *)
Definition feature_data : Type := (list (string * list T) * list (string * list F))%type.

Definition mem_str (k : string) (l : list string) : bool := existsb (String.eqb k) l.

(** distances.py lines 158-170: the contents of all feature files; a file indexed twice
    is an error. *)
Definition merge_features (files : list feature_data) : res feature_data :=
  foldM (fun acc tf =>
           let '(times, features) := acc in
           let '(t, f) := tf in
           if existsb (fun k => mem_str k (map fst t)) (map fst times)
           then Err AssertionError
           else Ok (update times t, update features f)) files ([], []).

(** Dictionaries with integer keys (labels). *)
Fixpoint lookupZ {A : Type} (d : list (Z * A)) (k : Z) : res A :=
  match d with
  | [] => Err KeyError
  | (k', a) :: d' => if k' =? k then Ok a else lookupZ d' k
  end.

(** distances.py lines 353-368: [get_features_from_raw]. [features[f][t, :]] raises
    IndexError when a position is not a row of the matrix. The decoding of keys that are
    bytes (lines 344-351) is not modelled. *)
Definition item_features (fd : feature_data) (it : item) : res (list F) :=
  times <- lookup (fst fd) (i_file it) ;;
  let t := np_where (map (fun x => tle (i_onset it) x && tle x (i_offset it))%bool times) in
  frames <- lookup (snd fd) (i_file it) ;;
  gather frames t.
Definition get_features (fd : feature_data) (items : list (Z * item))
  : res (list (Z * list F)) :=
  foldM (fun d x => m <- item_features fd (snd x) ;; Ok ((fst x, m) :: d)) items [].

(** ** One block *)

(** What is read inside the first critical section. *)
Record block_data := mk_bd {
  bd_items : list (Z * item); bd_base : Z; bd_first : Z; bd_pairs : list Z
}.

(** distances.py lines 204-212: a slice with float bounds raises TypeError; bounds are
    not negative, and a slice past the end of the dataset is cut. *)
Definition read_block (pf : pair_file) (r : range) : res block_data :=
  items <- lookup (pf_items pf) (r_by r) ;;
  a <- lookup (pf_attrs pf) (r_by r) ;;
  let '(base, s, _) := a in
  match r_start r, r_stop r with
  | Int i, Int j =>
    Ok (mk_bd items base s (slice (Z.to_nat (s + i)) (Z.to_nat (s + j)) (pf_data pf)))
  | _, _ => Err TypeError
  end.

(** [by_db.iloc[by_inds]]; the positions are not negative. *)
Definition iloc {A : Type} (l : list A) (i : Z) : res A :=
  if i <? 0 then Err IndexError else nth_res l (Z.to_nat i).

(** distances.py lines 246-254: the keyword argument given to the distance. The variable
    [normalize] is then replaced by this boolean, which gives the same argument for the
    following pairs ([True == 1], [False == 0]). *)
Definition normalized_arg (normalize : option Z) : option bool :=
  match normalize with
  | None => None
  | Some z => if z =? 1 then Some true else if z =? 0 then Some false else Some true
  end.

(** distances.py lines 230-269: distances of the pairs. Warnings and messages are not
    modelled; exceptions are raised again. *)
Definition pair_distances (normalize : option Z) (features : list (Z * list F))
           (pairs : list (Z * Z)) : res (list V) :=
  mapM (fun p => a <- lookupZ features (fst p) ;;
                 b <- lookupZ features (snd p) ;;
                 distance (normalized_arg normalize) a b) pairs.

(** distances.py lines 216-269. *)
Definition compute_block (fd : feature_data) (normalize : option Z) (bd : block_data)
  : res (list V) :=
  let A := map (fun c => fst (decode_pair (bd_base bd) c)) (bd_pairs bd) in
  let B := map (fun c => snd (decode_pair (bd_base bd) c)) (bd_pairs bd) in
  let by_inds := np_unique (A ++ B) in
  items <- mapM (iloc (bd_items bd)) by_inds ;;
  features <- get_features fd items ;;
  pair_distances normalize features (combine A B).

(** distances.py lines 272-273: the rows of the block are replaced; h5py refuses a number
    of values that is not the number of rows. *)
Definition write_block (first : Z) (r : range) (dis : list V) (df : dist_file)
  : res dist_file :=
  match d_data df with
  | None => Err KeyError
  | Some data =>
    let i := Z.to_nat (first + val (r_start r)) in
    let j := Z.to_nat (first + val (r_stop r)) in
    if (length (slice i j data) =? length dis)%nat
    then Ok (mk_dist_file (d_done df) (Some (splice i dis data)))
    else Err TypeError
  end.

(** ** The workers *)

(** Where a worker ([run_distance_job], lines 150-275) is, and the ranges it has still to
    process. The lock is held in [W_read] and [W_write]. *)
Inductive worker :=
| W_init (todo : job)                                       (* line 153 *)
| W_start (todo : job)                                      (* line 174; finished if empty *)
| W_read (r : range) (todo : job)                           (* line 204 *)
| W_comp (r : range) (todo : job) (bd : block_data)         (* line 216 *)
| W_store (r : range) (todo : job) (first : Z) (dis : list V)   (* line 270 *)
| W_write (r : range) (todo : job) (first : Z) (dis : list V)   (* line 272 *)
| W_failed (e : exn).                                       (* an exception got out *)

(** Where [compute_distances] is. *)
Inductive main_state := M_running | M_returned | M_raised (e : exn).

Record sys := mk_sys {
  s_lock : option nat;          (* the worker that holds the lock *)
  s_file : dist_file;
  s_workers : list worker;
  s_main : main_state
}.

Record setting := mk_setting {
  c_pairs : pair_file;
  c_files : list feature_data;
  c_normalize : option Z
}.

Definition with_worker (s : sys) (i : nat) (w : worker) : sys :=
  mk_sys (s_lock s) (s_file s) (set_nth (s_workers s) i w) (s_main s).
Definition with_lock (s : sys) (l : option nat) : sys :=
  mk_sys l (s_file s) (s_workers s) (s_main s).
Definition with_file (s : sys) (f : dist_file) : sys :=
  mk_sys (s_lock s) f (s_workers s) (s_main s).

(** Lines 202-203 and 270-271: with a lock, wait until it is free. *)
Definition acquire (sync : bool) (s : sys) (i : nat) : option sys :=
  if sync then match s_lock s with None => Some (with_lock s (Some i)) | Some _ => None end
  else Some s.
(** Lines 213-214 and 274-275. *)
Definition release (sync : bool) (s : sys) : sys :=
  if sync then with_lock s None else s.

(** One step of worker [i]; [None] when it has to wait or has ended. Reading and writing
    the files inside a critical section is one step, together with the release of the
    lock; an exception there leaves the lock held. *)
Definition worker_step (c : setting) (sync : bool) (s : sys) (i : nat) (w : worker)
  : option sys :=
  match w with
  | W_init todo =>
    match merge_features (c_files c) with
    | Ok _ => Some (with_worker s i (W_start todo))
    | Err e => Some (with_worker s i (W_failed e))
    end
  | W_start [] => None
  | W_start (r :: todo) =>
    match acquire sync s i with
    | Some s' => Some (with_worker s' i (W_read r todo))
    | None => None
    end
  | W_read r todo =>
    match read_block (c_pairs c) r with
    | Ok bd => Some (release sync (with_worker s i (W_comp r todo bd)))
    | Err e => Some (with_worker s i (W_failed e))
    end
  | W_comp r todo bd =>
    match (fd <- merge_features (c_files c) ;; compute_block fd (c_normalize c) bd) with
    | Ok dis => Some (with_worker s i (W_store r todo (bd_first bd) dis))
    | Err e => Some (with_worker s i (W_failed e))
    end
  | W_store r todo first dis =>
    match acquire sync s i with
    | Some s' => Some (with_worker s' i (W_write r todo first dis))
    | None => None
    end
  | W_write r todo first dis =>
    match write_block first r dis (s_file s) with
    | Ok f => Some (release sync (with_worker (with_file s f) i (W_start todo)))
    | Err e => Some (with_worker s i (W_failed e))
    end
  | W_failed _ => None
  end.

Definition finished (w : worker) : bool :=
  match w with W_start [] => true | W_failed _ => true | _ => false end.
Fixpoint first_failure (ws : list worker) : option exn :=
  match ws with
  | [] => None
  | W_failed e :: _ => Some e
  | _ :: ws' => first_failure ws'
  end.

(** distances.py lines 311-328, once the jobs are created: the parent waits for all
    workers ([pool.map], [pool.join], or the call of line 324); an exception of a worker is
    raised again; with one cpu only, done is then set. *)
Definition main_step (s : sys) : option sys :=
  match s_main s with
  | M_running =>
    if forallb finished (s_workers s) then
      match first_failure (s_workers s) with
      | Some e => Some (mk_sys (s_lock s) (s_file s) (s_workers s) (M_raised e))
      | None =>
        if (1 <? length (s_workers s))%nat
        then Some (mk_sys (s_lock s) (s_file s) (s_workers s) M_returned)
        else Some (mk_sys (s_lock s) (mk_dist_file (Some true) (d_data (s_file s)))
                          (s_workers s) M_returned)
      end
    else None
  | _ => None
  end.

(** One step of process [who]: a worker, or the parent for any other number. With more
    than one job the workers use the lock (line 313), otherwise there is none. *)
Definition step (c : setting) (s : sys) (who : nat) : option sys :=
  match nth_error (s_workers s) who with
  | Some w => worker_step c (1 <? length (s_workers s))%nat s who w
  | None => main_step s
  end.

(** A schedule says which process moves next; one that cannot move is skipped. *)
Definition next (c : setting) (s : sys) (who : nat) : sys :=
  match step c s who with Some s' => s' | None => s end.
Definition run (c : setting) (s : sys) (schedule : list nat) : sys :=
  fold_left (next c) schedule s.

(** distances.py lines 282-308: [compute_distances] up to the creation of the workers.
    The computation of [mem_needed], not used, is left out. [n_cpu >= 1]. *)
Definition compute_distances (argsort : list Z -> list nat) (fuel : nat)
           (c : setting) (df : dist_file) (n_cpu : nat) : dist_file * res sys :=
  match create_distance_jobs argsort fuel (c_pairs c) df n_cpu 100 with
  | (df', Err e) => (df', Err e)
  | (df', Ok jobs) => (df', Ok (mk_sys None df' (map W_init jobs) M_running))
  end.

End Files.

Arguments W_init {T V} todo.
Arguments W_start {T V} todo.
Arguments W_read {T V} r todo.
Arguments W_comp {T V} r todo bd.
Arguments W_store {T V} r todo first dis.
Arguments W_write {T V} r todo first dis.
Arguments W_failed {T V} e.
