(** Property theorems: the computation of the distances (C24 to C30). *)
From Coq Require Import String.
From Coq Require Import List ZArith.
From Verif Require Import Prelude Pairs_spec Distances Distances_spec Distances_jobs
     Distances_proofs Distances_run Distances_main Distances_ex.
Import ListNotations.
Open Scope string_scope.
Open Scope list_scope.
Open Scope Z_scope.

(** C24: every pair of every by is in exactly one range of exactly one job... *)
Theorem C24_jobs_cover :
  forall argsort (fuel n_cpu : nat) buffer bys jobs,
    argsort_spec argsort -> (1 <= n_cpu)%nat -> 1 <= buffer ->
    (forall k n, In (k, n) bys -> 0 <= n) -> NoDup (map fst bys) ->
    distance_jobs argsort fuel n_cpu buffer bys = Ok jobs ->
    length jobs = n_cpu /\ cover_once bys (concat jobs).
Proof.
  exact (fun argsort fuel n_cpu buffer bys jobs A C B P N H =>
           @jobs_cover argsort A fuel n_cpu buffer bys C B P jobs N H).
Qed.
Print Assumptions C24_jobs_cover.

Example C24_jobs_cover_ex :
  NoDup (map fst [("a", 5); ("b", 0); ("c", 4)]) /\
  distance_jobs argsort_ins 10 3 100 [("a", 5); ("b", 0); ("c", 4)] =
  Ok [[mk_range "c" (Int 0) (Int 3)];
      [mk_range "a" (Int 0) (Int 3)];
      [mk_range "a" (Int 3) (Int 5); mk_range "c" (Int 3) (Int 4)]].
Proof. split; [repeat constructor; cbn; intuition discriminate|vm_compute; reflexivity]. Qed.

(** ... and there are always jobs. *)
Theorem C24_jobs_created :
  forall argsort (fuel n_cpu : nat) buffer bys,
    argsort_spec argsort -> (1 <= n_cpu)%nat -> 1 <= buffer ->
    (forall k n, In (k, n) bys -> 0 <= n) -> sumZ (map snd bys) <= Z.of_nat fuel ->
    exists jobs, distance_jobs argsort fuel n_cpu buffer bys = Ok jobs.
Proof.
  exact (fun argsort fuel n_cpu buffer bys A C B P H =>
           @jobs_total argsort A fuel n_cpu buffer bys C B P H).
Qed.
Print Assumptions C24_jobs_created.

Example C24_jobs_created_ex :
  sumZ (map snd [("a", 5); ("b", 0); ("c", 4)]) <= Z.of_nat 9 /\
  option_map (@length _) (match distance_jobs argsort_ins 9 3 100 [("a", 5); ("b", 0); ("c", 4)] with
                          | Ok jobs => Some jobs | Err _ => None end) = Some 3%nat.
Proof. split; [discriminate|vm_compute; reflexivity]. Qed.

(** C25: no range is larger than the share of a cpu, and no cpu has more pairs than another
    one when any of its ranges is taken away. *)
Theorem C25_jobs_balanced :
  forall argsort (fuel n_cpu : nat) buffer bys jobs,
    argsort_spec argsort -> (1 <= n_cpu)%nat -> 1 <= buffer ->
    (forall k n, In (k, n) bys -> 0 <= n) ->
    distance_jobs argsort fuel n_cpu buffer bys = Ok jobs ->
    balanced (sumZ (map snd bys)) n_cpu jobs.
Proof.
  exact (fun argsort fuel n_cpu buffer bys jobs A C B P H =>
           @jobs_balanced argsort A fuel n_cpu buffer bys C B P jobs H).
Qed.
Print Assumptions C25_jobs_balanced.

Example C25_jobs_balanced_ex :
  exists jobs, distance_jobs argsort_ins 20 3 100 [("a", 1); ("b", 7); ("c", 2); ("d", 3)] = Ok jobs /\
    map job_size jobs = [5; 4; 4].
Proof. eexists. split; vm_compute; reflexivity. Qed.

(** C26: when [compute_distances] returns, after any interleaving of the workers, row [p]
    of the distance file is the distance of the pair of row [p]... *)
Theorem C26_returned_complete :
  forall (T F V : Type) (tle : T -> T -> bool) (zero : V)
         (distance : option bool -> list F -> list F -> res V)
         (c : setting T F) argsort (fuel n_cpu : nat) df df' s0 s,
    argsort_spec argsort -> (1 <= n_cpu)%nat ->
    pair_file_ok (c_pairs c) -> features_ok (c_files c) ->
    compute_distances zero argsort fuel c df n_cpu = (df', Ok s0) ->
    reaches tle distance c s0 s -> s_main s = M_returned ->
    complete tle distance (c_pairs c) (c_files c) (c_normalize c) (s_file s).
Proof.
  exact (fun T F V tle zero distance c argsort fuel n_cpu df df' s0 s A C P Fe S R M =>
           @returned_complete T F V tle zero distance c argsort A fuel n_cpu df C P Fe df' s0 S s R M).
Qed.
Print Assumptions C26_returned_complete.

Example C26_returned_complete_ex :
  pair_file_ok ex_pairs /\ features_ok ex_files /\
  compute_distances 0 argsort_ins 10 ex_setting no_file 2 = (ex_zeros, Ok (ex_start 2)) /\
  reaches Z.leb ex_distance ex_setting (ex_start 2) ex_end /\ s_main ex_end = M_returned /\
  d_data (s_file ex_end) = Some [541023; 513023; 523041; 513041; 541013; 543033; 533043].
Proof.
  split; [exact ex_pairs_ok|]. split; [exact ex_features_ok|]. split; [apply ex_started; auto|].
  split; [exists ex_turns; reflexivity|]. vm_compute. split; reflexivity.
Qed.

(** ... so that all runs, with any number of cpus, any order of equal sizes and any
    interleaving, write the same distances. *)
Theorem C26_same_distances :
  forall (T F V : Type) (tle : T -> T -> bool)
         (distance : option bool -> list F -> list F -> res V)
         (c : setting T F) df df',
    pair_file_ok (c_pairs c) -> features_ok (c_files c) ->
    complete tle distance (c_pairs c) (c_files c) (c_normalize c) df ->
    complete tle distance (c_pairs c) (c_files c) (c_normalize c) df' ->
    d_data df = d_data df'.
Proof.
  exact (fun T F V tle distance c df df' P Fe => @complete_unique T F V tle distance c df df' P Fe).
Qed.
Print Assumptions C26_same_distances.

Example C26_same_distances_ex :
  let s := run Z.leb ex_distance ex_setting (ex_start 1) (repeat 0 12 ++ [1])%nat in
  let s' := run Z.leb ex_distance ex_setting (ex_start 3) (concat (repeat [3; 2; 1; 0]%nat 20)) in
  s_main s = M_returned /\ s_main s' = M_returned /\
  d_data (s_file s) = Some ex_data /\ d_data (s_file s') = Some ex_data.
Proof. vm_compute. auto. Qed.

(** When every distance can be computed, [compute_distances] does not end otherwise. *)
Theorem C26_returns :
  forall (T F V : Type) (tle : T -> T -> bool) (zero : V)
         (distance : option bool -> list F -> list F -> res V)
         (c : setting T F) argsort (fuel n_cpu : nat) df df' s0 s,
    argsort_spec argsort -> (1 <= n_cpu)%nat ->
    pair_file_ok (c_pairs c) -> features_ok (c_files c) ->
    computable tle distance (c_pairs c) (c_files c) (c_normalize c) ->
    compute_distances zero argsort fuel c df n_cpu = (df', Ok s0) ->
    has_items (c_pairs c) -> blocks_fit (c_pairs c) n_cpu ->
    reaches tle distance c s0 s -> ended s -> s_main s = M_returned.
Proof.
  exact (fun T F V tle zero distance c argsort fuel n_cpu df df' s0 s A C P Fe Co S I B R E =>
           @ends_by_returning T F V tle zero distance c argsort A fuel n_cpu df C P Fe Co df' s0 S s
                              I B R E).
Qed.
Print Assumptions C26_returns.

Example C26_returns_ex :
  pair_file_ok ex_pairs /\ features_ok ex_files /\
  computable Z.leb ex_distance ex_pairs ex_files (Some 1) /\
  compute_distances 0 argsort_ins 10 ex_setting no_file 2 = (ex_zeros, Ok (ex_start 2)) /\
  has_items ex_pairs /\ blocks_fit ex_pairs 2 /\
  reaches Z.leb ex_distance ex_setting (ex_start 2) ex_end /\ ended ex_end.
Proof.
  split; [exact ex_pairs_ok|]. split; [exact ex_features_ok|]. split; [exact ex_computable|].
  split; [apply ex_started; auto|]. split; [exact ex_has_items|]. split; [apply ex_fit; auto|].
  split; [exists ex_turns; reflexivity|vm_compute; discriminate].
Qed.

(** C27: once [compute_distances] has started, a file marked as done is complete... *)
Theorem C27_done_complete :
  forall (T F V : Type) (tle : T -> T -> bool) (zero : V)
         (distance : option bool -> list F -> list F -> res V)
         (c : setting T F) argsort (fuel n_cpu : nat) df df' s0 s,
    argsort_spec argsort -> (1 <= n_cpu)%nat ->
    pair_file_ok (c_pairs c) -> features_ok (c_files c) ->
    compute_distances zero argsort fuel c df n_cpu = (df', Ok s0) ->
    reaches tle distance c s0 s -> d_done (s_file s) = Some true ->
    complete tle distance (c_pairs c) (c_files c) (c_normalize c) (s_file s).
Proof.
  exact (fun T F V tle zero distance c argsort fuel n_cpu df df' s0 s A C P Fe S R D =>
           @done_complete T F V tle zero distance c argsort A fuel n_cpu df C P Fe df' s0 S s R D).
Qed.
Print Assumptions C27_done_complete.

Example C27_done_complete_ex :
  compute_distances 0 argsort_ins 10 ex_setting no_file 1 = (ex_zeros, Ok (ex_start 1)) /\
  let s := run Z.leb ex_distance ex_setting (ex_start 1) (repeat 0 12 ++ [1])%nat in
  d_done (s_file s) = Some true.
Proof. split; [apply ex_started; auto|vm_compute; reflexivity]. Qed.

(** ... it is marked as not done from the start, also when it was marked as done by an
    earlier computation and when the start fails... *)
Theorem C27_not_done_at_start :
  forall (T F V : Type) (zero : V) (c : setting T F) argsort (fuel n_cpu : nat)
         (df df' : dist_file V) (r : res (sys T V)),
    argsort_spec argsort -> (1 <= n_cpu)%nat -> pair_file_ok (c_pairs c) ->
    compute_distances zero argsort fuel c df n_cpu = (df', r) ->
    d_done df' = Some false.
Proof.
  exact (fun T F V zero c argsort fuel n_cpu df df' r A C P S =>
           proj1 (@start_cases T F V zero c argsort A fuel n_cpu df C P df' r S)).
Qed.
Print Assumptions C27_not_done_at_start.

Example C27_not_done_at_start_ex :
  compute_distances 0 argsort_ins 10 ex_setting (mk_dist_file (Some true) (Some ex_data)) 2 =
  (mk_dist_file (Some false) (Some ex_data), Err ValueError).
Proof. vm_compute. reflexivity. Qed.

(** ... with one cpu it is marked as done when [compute_distances] returns... *)
Theorem C27_done_one_cpu :
  forall (T F V : Type) (tle : T -> T -> bool) (zero : V)
         (distance : option bool -> list F -> list F -> res V)
         (c : setting T F) argsort (fuel : nat) df df' s0 s,
    argsort_spec argsort -> pair_file_ok (c_pairs c) -> features_ok (c_files c) ->
    compute_distances zero argsort fuel c df 1 = (df', Ok s0) ->
    reaches tle distance c s0 s -> s_main s = M_returned ->
    d_done (s_file s) = Some true.
Proof.
  exact (fun T F V tle zero distance c argsort fuel df df' s0 s A P Fe S R M =>
           @done_one_cpu T F V tle zero distance c argsort A fuel 1 df (le_n 1) P Fe df' s0 S s
                         eq_refl R M).
Qed.
Print Assumptions C27_done_one_cpu.

Example C27_done_one_cpu_ex :
  let s := run Z.leb ex_distance ex_setting (ex_start 1) (repeat 0 12 ++ [1])%nat in
  s_main s = M_returned /\ s_file s = mk_dist_file (Some true) (Some ex_data).
Proof. exact ex_alone. Qed.

(** ... but with more than one cpu it never is... *)
Theorem C27_never_done :
  forall (T F V : Type) (tle : T -> T -> bool) (zero : V)
         (distance : option bool -> list F -> list F -> res V)
         (c : setting T F) argsort (fuel n_cpu : nat) df df' s0 s,
    argsort_spec argsort -> (1 < n_cpu)%nat ->
    pair_file_ok (c_pairs c) -> features_ok (c_files c) ->
    compute_distances zero argsort fuel c df n_cpu = (df', Ok s0) ->
    reaches tle distance c s0 s -> d_done (s_file s) <> Some true.
Proof.
  exact (fun T F V tle zero distance c argsort fuel n_cpu df df' s0 s A C P Fe S R =>
           @never_done T F V tle zero distance c argsort A fuel n_cpu df
                       (PeanoNat.Nat.lt_le_incl _ _ C) P Fe df' s0 S s C R).
Qed.
Print Assumptions C27_never_done.

Example C27_never_done_ex :
  s_file ex_end = mk_dist_file (Some false) (Some ex_data).
Proof. exact (proj2 ex_end_ok). Qed.

(** ... so that a computation that has returned can be marked as not done. *)
Theorem C27_done_on_return_refuted :
  compute_distances 0 argsort_ins 10 ex_setting no_file 2 = (ex_zeros, Ok (ex_start 2)) /\
  let s := run Z.leb ex_distance ex_setting (ex_start 2) ex_turns in
  s_main s = M_returned /\ d_data (s_file s) = Some ex_data /\ d_done (s_file s) = Some false.
Proof. vm_compute. auto. Qed.
Print Assumptions C27_done_on_return_refuted.

(** C28: the bounds of the ranges can be used in slices when the blocks of pairs fit in the
    buffer... *)
Theorem C28_ranges_slices_partial :
  forall argsort (fuel n_cpu : nat) buffer bys jobs,
    argsort_spec argsort -> (1 <= n_cpu)%nat -> 1 <= buffer ->
    (forall k n, In (k, n) bys -> 0 <= n) ->
    (sumZ (map snd bys) <= Z.of_nat n_cpu * (buffer * 1000000 / 8) \/
     forall k n, In (k, n) bys -> n <= buffer * 1000000 / 8) ->
    distance_jobs argsort fuel n_cpu buffer bys = Ok jobs ->
    forall j r, In j jobs -> In r j -> sliceable r.
Proof.
  exact (fun argsort fuel n_cpu buffer bys jobs A C B P S H =>
           @jobs_sliceable argsort A fuel n_cpu buffer bys C B P jobs S H).
Qed.
Print Assumptions C28_ranges_slices_partial.

Example C28_ranges_slices_partial_ex :
  sumZ (map snd [("a", 12500001); ("b", 3)]) <= Z.of_nat 2 * (100 * 1000000 / 8) /\
  distance_jobs argsort_ins 10 2 100 [("a", 12500001); ("b", 3)] =
  Ok [[mk_range "a" (Int 0) (Int 6250002)];
      [mk_range "a" (Int 6250002) (Int 12500001); mk_range "b" (Int 0) (Int 3)]].
Proof. vm_compute. split; [discriminate|reflexivity]. Qed.

(** ... and never when the share of a cpu and a by do not fit in it... *)
Theorem C28_ranges_floats :
  forall argsort (fuel n_cpu : nat) buffer bys jobs k n,
    argsort_spec argsort -> (1 <= n_cpu)%nat -> 1 <= buffer ->
    (forall k n, In (k, n) bys -> 0 <= n) ->
    Z.of_nat n_cpu * (buffer * 1000000 / 8) < sumZ (map snd bys) ->
    In (k, n) bys -> buffer * 1000000 / 8 < n ->
    distance_jobs argsort fuel n_cpu buffer bys = Ok jobs ->
    forall j r, In j jobs -> In r j -> exists x y, r_start r = Flt x /\ r_stop r = Flt y.
Proof.
  exact (fun argsort fuel n_cpu buffer bys jobs k n A C B P S I N H =>
           @jobs_floats argsort A fuel n_cpu buffer bys C B P jobs k n S I N H).
Qed.
Print Assumptions C28_ranges_floats.

Example C28_ranges_floats_ex :
  Z.of_nat 1 * (100 * 1000000 / 8) < sumZ (map snd big_bys) /\
  In ("a", 12500001) big_bys /\ 100 * 1000000 / 8 < 12500001 /\
  distance_jobs argsort_ins 5 1 100 big_bys = Ok big_jobs.
Proof. vm_compute. auto. Qed.

(** ... in which case reading the first block of pairs raises a TypeError. *)
Theorem C28_ranges_slices_refuted :
  distance_jobs argsort_ins 5 1 100 [("a", 12500001); ("b", 3)] = Ok big_jobs /\
  ~ sliceable (mk_range "a" (Flt 0) (Flt 12500000)) /\
  In (mk_range "a" (Flt 0) (Flt 12500000)) (concat big_jobs) /\
  read_block (mk_pair_file ["a"] [("a", (2, 0, 12500001))] [] [("a", [(0, mk_item "f" 0 1)])])
             (mk_range "a" (Flt 0) (Flt 12500000)) = Err TypeError.
Proof.
  split; [exact big_jobs_ok|]. split; [intros (i & j & H & _); discriminate|].
  split; [left; reflexivity|vm_compute; reflexivity].
Qed.
Print Assumptions C28_ranges_slices_refuted.

(** C29: two workers are never in the files at the same time... *)
Theorem C29_exclusive :
  forall (T F V : Type) (tle : T -> T -> bool) (zero : V)
         (distance : option bool -> list F -> list F -> res V)
         (c : setting T F) argsort (fuel n_cpu : nat) df df' s0 s,
    argsort_spec argsort -> (1 <= n_cpu)%nat -> pair_file_ok (c_pairs c) ->
    compute_distances zero argsort fuel c df n_cpu = (df', Ok s0) ->
    reaches tle distance c s0 s -> exclusive s.
Proof.
  exact (fun T F V tle zero distance c argsort fuel n_cpu df df' s0 s A C P S R =>
           @mutual_exclusion T F V tle zero distance c argsort A fuel n_cpu df C P df' s0 S s R).
Qed.
Print Assumptions C29_exclusive.

Example C29_exclusive_ex :
  let s := run Z.leb ex_distance ex_setting (ex_start 2) [0; 1; 1; 0]%nat in
  s_lock s = Some 1%nat /\ nth_error (s_workers s) 0 = Some (W_start [mk_range "a" (Int 0) (Int 4)]) /\
  nth_error (s_workers s) 1 =
    Some (W_read (mk_range "a" (Int 4) (Int 5)) [mk_range "b" (Int 0) (Int 2)]).
Proof. vm_compute. auto. Qed.

(** ... the processes make a bounded number of moves... *)
Theorem C29_bounded_moves :
  forall (T F V : Type) (tle : T -> T -> bool) (zero : V)
         (distance : option bool -> list F -> list F -> res V)
         (c : setting T F) argsort (fuel n_cpu : nat) df df' s0,
    argsort_spec argsort -> (1 <= n_cpu)%nat ->
    pair_file_ok (c_pairs c) -> features_ok (c_files c) ->
    compute_distances zero argsort fuel c df n_cpu = (df', Ok s0) ->
    exists n, forall l s, moves tle distance c s0 l = Some s -> (length l <= n)%nat.
Proof.
  exact (fun T F V tle zero distance c argsort fuel n_cpu df df' s0 A C P Fe S =>
           @bounded_moves T F V tle zero distance c argsort A fuel n_cpu df C P Fe df' s0 S).
Qed.
Print Assumptions C29_bounded_moves.

Example C29_bounded_moves_ex :
  option_map (@s_main _ _) (moves Z.leb ex_distance ex_setting (ex_start 1) (repeat 0 11 ++ [1])%nat)
    = Some M_returned /\
  moves Z.leb ex_distance ex_setting (ex_start 1) (repeat 0 12)%nat = None.
Proof. vm_compute. auto. Qed.

(** ... and can only stop after [compute_distances] has ended, unless an exception is raised
    while a worker holds the lock: the dataframes of the bys exist and the blocks of pairs
    fit in the buffer. *)
Theorem C29_no_deadlock_partial :
  forall (T F V : Type) (tle : T -> T -> bool) (zero : V)
         (distance : option bool -> list F -> list F -> res V)
         (c : setting T F) argsort (fuel n_cpu : nat) df df' s0 s,
    argsort_spec argsort -> (1 <= n_cpu)%nat ->
    pair_file_ok (c_pairs c) -> features_ok (c_files c) ->
    compute_distances zero argsort fuel c df n_cpu = (df', Ok s0) ->
    has_items (c_pairs c) -> blocks_fit (c_pairs c) n_cpu ->
    reaches tle distance c s0 s -> (forall who, step tle distance c s who = None) -> ended s.
Proof.
  exact (fun T F V tle zero distance c argsort fuel n_cpu df df' s0 s A C P Fe S =>
           @stuck_ended T F V tle zero distance c argsort A fuel n_cpu df C P Fe df' s0 s S).
Qed.
Print Assumptions C29_no_deadlock_partial.

Example C29_no_deadlock_partial_ex :
  has_items ex_pairs /\ blocks_fit ex_pairs 2 /\
  reaches Z.leb ex_distance ex_setting (ex_start 2) ex_end /\
  forall who, step Z.leb ex_distance ex_setting ex_end who = None.
Proof.
  split; [exact ex_has_items|]. split; [apply ex_fit; auto|]. split; [exists ex_turns; reflexivity|].
  intros [|[|who]]; vm_compute; try reflexivity. destruct who; reflexivity.
Qed.

(** A worker that raises while it holds the lock blocks the computation forever. *)
Theorem C29_no_deadlock_refuted :
  exists (c : setting Z Z) s0 s,
    pair_file_ok (c_pairs c) /\ features_ok (c_files c) /\ blocks_fit (c_pairs c) 2 /\
    compute_distances 0 argsort_ins 10 c no_file 2 = (ex_zeros, Ok s0) /\
    reaches Z.leb ex_distance c s0 s /\
    forall s', reaches Z.leb ex_distance c s s' -> ~ ended s'.
Proof.
  exact (ex_intro _ bad_setting (ex_intro _ (bad_start 2) (ex_intro _ bad_end
    (conj bad_pairs_ok (conj ex_features_ok (conj (ex_fit 2 (le_S _ _ (le_n 1)))
    (conj eq_refl (conj (ex_intro _ [0; 1; 1; 1; 1; 1; 1; 1; 1]%nat eq_refl) bad_forever)))))))).
Qed.
Print Assumptions C29_no_deadlock_refuted.

(** C30: the frames of an item are the frames of its file, in the feature file that has it,
    with times between its onset and its offset, in order. *)
Theorem C30_frames_of_item :
  forall (T F : Type) (tle : T -> T -> bool) (files : list (feature_data T F)) fd items d,
    (forall x, In x files -> feature_file_ok x) ->
    merge_features files = Ok fd -> get_features tle fd items = Ok d ->
    NoDup (map fst items) ->
    forall k it, In (k, it) items ->
    exists m, lookupZ d k = Ok m /\ matrix_of tle files it m.
Proof.
  exact (fun T F tle files fd items d =>
           @features_of_items T F unit tle (fun _ _ _ => Err KeyError) files fd items d).
Qed.
Print Assumptions C30_frames_of_item.

Example C30_frames_of_item_ex :
  exists fd d, merge_features ex_files = Ok fd /\ get_features Z.leb fd itemsA = Ok d /\
    lookupZ d 0 = Ok [11; 12] /\ lookupZ d 1 = Ok [20; 21] /\ lookupZ d 2 = Ok [13].
Proof. do 2 eexists. split; [vm_compute; reflexivity|]. split; [vm_compute; reflexivity|]. vm_compute. auto. Qed.
