(** What the distance jobs and the distance file must be. *)
From Coq Require Import String.
From Coq Require Import List ZArith.
From Verif Require Import Prelude Pairs_spec Distances.
Import ListNotations.
Local Open Scope Z_scope.
Local Open Scope list_scope.
Set Implicit Arguments.

(** ** Jobs *)

(** The numbers of a range: the by, and the first pair and the end of the range. *)
Definition covers (r : range) (k : string) (p : Z) : Prop :=
  r_by r = k /\ val (r_start r) <= p < val (r_stop r).
Definition range_size (r : range) : Z := val (r_stop r) - val (r_start r).
Definition job_size (j : job) : Z := sumZ (map range_size j).

(** The ranges are not empty and inside the bys, and pair [p] of a by with [n] pairs is in
    exactly one of them. *)
Definition cover_once (bys : list (string * Z)) (ranges : list range) : Prop :=
  (forall r, In r ranges ->
     exists n, In (r_by r, n) bys /\ 0 <= val (r_start r) < val (r_stop r) /\
               val (r_stop r) <= n) /\
  (forall k n p, In (k, n) bys -> 0 <= p < n ->
     exists! i, exists r, nth_error ranges i = Some r /\ covers r k p).

(** The jobs are balanced for a total of [total] pairs: no range exceeds the share of a
    cpu, rounded up; taking away any of its ranges, a cpu has no more pairs than any other
    cpu. *)
Definition balanced (total : Z) (n_cpu : nat) (jobs : list job) : Prop :=
  (forall j r, In j jobs -> In r j -> (range_size r - 1) * Z.of_nat n_cpu < total) /\
  (forall j j' r, In j jobs -> In j' jobs -> In r j ->
                  job_size j - range_size r <= job_size j').

(** A range can be used as a slice. *)
Definition sliceable (r : range) : Prop :=
  exists i j, r_start r = Int i /\ r_stop r = Int j.

(** ** Features *)

Section Spec.
Variables T F V : Type.
Variable tle : T -> T -> bool.
Variable distance : option bool -> list F -> list F -> res V.

(** The frames of a file with times between [on] and [off], in order. *)
Definition frames_between (times : list T) (frames : list F) (on off : T) : list F :=
  map snd (filter (fun tf => tle on (fst tf) && tle (fst tf) off)%bool (combine times frames)).

(** Times and frames recorded for [f] in one of the feature files. *)
Definition recorded (files : list (feature_data T F)) (f : string) (times : list T)
           (frames : list F) : Prop :=
  exists fd, In fd files /\ In (f, times) (fst fd) /\ In (f, frames) (snd fd).

(** A feature file records each of its files once, with times and frames. *)
Definition feature_file_ok (fd : feature_data T F) : Prop :=
  NoDup (map fst (fst fd)) /\ map fst (fst fd) = map fst (snd fd).

(** The feature files of a computation: no file is recorded in two of them. *)
Definition features_ok (files : list (feature_data T F)) : Prop :=
  (forall fd, In fd files -> feature_file_ok fd) /\
  NoDup (flat_map (fun fd => map fst (fst fd)) files).

(** [m] is the feature matrix of the item. *)
Definition matrix_of (files : list (feature_data T F)) (it : item T) (m : list F) : Prop :=
  exists times frames, recorded files (i_file it) times frames /\
    m = frames_between times frames (i_onset it) (i_offset it).

(** ** The distance file *)

(** The keyword normalized: absent, or any integer other than 0 meaning True. *)
Definition meant (normalize : option Z) : option bool :=
  option_map (fun z => negb (z =? 0)) normalize.

(** The task file is well formed: the pairs of the bys follow each other in the table of
    pairs, every by has a dataframe, labelled by position. *)
Definition pair_file_ok (pf : pair_file T) : Prop :=
  pf_bys pf <> [] /\ NoDup (pf_bys pf) /\ NoDup (map fst (pf_items pf)) /\
  map fst (pf_attrs pf) = pf_bys pf /\
  (forall k base s e, In (k, (base, s, e)) (pf_attrs pf) -> 0 < base /\ 0 <= s <= e) /\
  consecutive 0 (map (fun x => (Z.to_nat (snd (fst (snd x))), Z.to_nat (snd (snd x))))
                     (pf_attrs pf)) (length (pf_data pf)) /\
  (forall k l, In (k, l) (pf_items pf) ->
               map fst l = map Z.of_nat (seq 0 (length l))).

(** [v] is the distance of the pair in row [p]: the row belongs to a by, and its code is
    that of a pair of items of this by, the first one A or B and the second one X. *)
Definition row_value (pf : pair_file T) (files : list (feature_data T F))
           (normalize : option Z) (p : nat) (v : V) : Prop :=
  exists k base s e items i j it it' m m',
    In (k, (base, s, e)) (pf_attrs pf) /\ s <= Z.of_nat p < e /\
    In (k, items) (pf_items pf) /\
    nth_error (pf_data pf) p = Some (code base (Z.of_nat i) (Z.of_nat j)) /\
    (Z.of_nat i < base) /\
    nth_error items i = Some (Z.of_nat i, it) /\ nth_error items j = Some (Z.of_nat j, it') /\
    matrix_of files it m /\ matrix_of files it' m' /\
    distance (meant normalize) m m' = Ok v.

(** All distances are in the file. *)
Definition complete (pf : pair_file T) (files : list (feature_data T F))
           (normalize : option Z) (df : dist_file V) : Prop :=
  exists data, d_data df = Some data /\ length data = length (pf_data pf) /\
    forall p v, nth_error data p = Some v -> row_value pf files normalize p v.

(** Every distance can be computed: the items of the pair of each row exist, their files
    are recorded with as many frames as times, and the distance function returns a value. *)
Definition computable (pf : pair_file T) (files : list (feature_data T F))
           (normalize : option Z) : Prop :=
  (forall p, (p < length (pf_data pf))%nat -> exists v, row_value pf files normalize p v) /\
  (forall f times frames, recorded files f times frames -> length times = length frames).

(** Every by has a dataframe. *)
Definition has_items (pf : pair_file T) : Prop :=
  forall k, In k (pf_bys pf) -> In k (map fst (pf_items pf)).

(** The blocks of pairs are small enough for a buffer of 100 megabytes. *)
Definition blocks_fit (pf : pair_file T) (n_cpu : nat) : Prop :=
  Z.of_nat (length (pf_data pf)) <= Z.of_nat n_cpu * 12500000 \/
  forall k base s e, In (k, (base, s, e)) (pf_attrs pf) -> e - s <= 12500000.

(** ** Processes *)

(** The state [s'] can be reached from [s]. *)
Definition reaches (c : setting T F) (s s' : sys T V) : Prop :=
  exists schedule, s' = run tle distance c s schedule.

(** The processes of a list move one after the other, none of them having to wait. *)
Fixpoint moves (c : setting T F) (s : sys T V) (l : list nat) : option (sys T V) :=
  match l with
  | [] => Some s
  | i :: l' => match step tle distance c s i with Some s' => moves c s' l' | None => None end
  end.

(** A worker that is inside a critical section. *)
Definition in_critical (w : worker T V) : Prop :=
  match w with W_read _ _ => True | W_write _ _ _ _ => True | _ => False end.

(** Both [i] and [j] in a critical section only if they are the same worker. *)
Definition exclusive (s : sys T V) : Prop :=
  forall i j w w', nth_error (s_workers s) i = Some w -> nth_error (s_workers s) j = Some w' ->
    in_critical w -> in_critical w' -> i = j.

(** [compute_distances] has ended, by returning or by raising an exception. *)
Definition ended (s : sys T V) : Prop := s_main s <> M_running.

End Spec.
