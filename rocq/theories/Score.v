(** Model of ABXpy/score.py. *)
From Coq Require Import String.
From Coq Require Import List ZArith QArith.
From Verif Require Import Prelude TypeFitting H52np Pairs Rounding Distances.
Import ListNotations.
Local Open Scope Z_scope.
Local Open Scope list_scope.
Set Implicit Arguments.

(** What score.py reads in the task file: /bys, /triplets/data with its type,
    /triplets/by_index, the attributes (base, start, stop) of /unique_pairs and
    /unique_pairs/data (of type int64). *)
Record scored_task := mk_scored {
  sc_bys : list string;
  sc_type : itype;
  sc_triplets : list triplet;
  sc_by_index : list (nat * nat);
  sc_attrs : list (string * (Z * Z * Z));
  sc_pairs : list Z
}.

Section Score.
(** Distances, and [<] on them (floats: false when one of the two is not a number). *)
Variable V : Type.
Variable vlt : V -> V -> bool.
(** Conversion to float64. *)
Variable rnd : Q -> Q.
(** Rows of the reading buffer, see Pairs.v. *)
Variable rlen : Z -> nat.

(** score.py lines 110 and 112: [np.searchsorted(pairs, codes)]. [pairs] is an int64 array;
    when the codes are uint64 numpy compares them as float64. *)
Definition find_pairs (t : itype) (pairs codes : list Z) : list nat :=
  match t with
  | U64 => map (searchsorted (map (to_float rnd) pairs)) (map (to_float rnd) codes)
  | _ => map (searchsorted pairs) codes
  end.

(** [np.int8] of a boolean. *)
Definition int8 (b : bool) : Z := if b then 1 else 0.

(** score.py lines 102-114: the scores of a block of triplets. *)
Definition score_rows (t : itype) (base : Z) (pairs : list Z) (dis : list V)
           (rows : list triplet) : res (list Z) :=
  let pairs_AX := map (fun r : triplet => let '(a, b, x) := r in pair_code t base (cast t a) (cast t x)) rows in
  let pairs_BX := map (fun r : triplet => let '(a, b, x) := r in pair_code t base (cast t b) (cast t x)) rows in
  dis_AX <- gather dis (find_pairs t pairs pairs_AX) ;;
  dis_BX <- gather dis (find_pairs t pairs pairs_BX) ;;
  Ok (map (fun d => int8 (vlt (fst d) (snd d)) - int8 (vlt (snd d) (fst d)))
          (combine dis_AX dis_BX)).

(** score.py lines 101-119: the loop over the blocks read; rows [idx_start:idx_end] of
    /scores are assigned (TypeError if they do not exist). The result is the dataset, and
    the exception if any. *)
Fixpoint score_blocks (t : itype) (base : Z) (pairs : list Z) (dis : list V)
         (idx_start : nat) (blocks : list (list triplet)) (scores : list Z)
  : list Z * option exn :=
  match blocks with
  | [] => (scores, None)
  | rows :: blocks' =>
    match score_rows t base pairs dis rows with
    | Err e => (scores, Some e)
    | Ok s =>
      let idx_end := (idx_start + length rows)%nat in
      if (idx_end <=? length scores)%nat
      then score_blocks t base pairs dis idx_end blocks' (splice idx_start s scores)
      else (scores, Some TypeError)
    end
  end.

(** score.py lines 85-101: what is read for a by. *)
Definition by_data (T : scored_task) (dis : list V) (n_by : nat) (by_ : string)
  : res (itype * Z * list Z * list V * nat * list (list triplet)) :=
  trip_attrs <- nth_res (sc_by_index T) n_by ;;
  pair_attrs <- lookup (sc_attrs T) by_ ;;
  let '(base, start, stop) := pair_attrs in
  let d := slice (Z.to_nat start) (Z.to_nat stop) dis in
  let pairs := slice (Z.to_nat start) (Z.to_nat stop) (sc_pairs T) in
  t <- fit_integer_type (base ^ 2 - 1) false ;;
  blocks <- read_all rlen (0, 0, 0) (sc_type T) 3 (Some trip_attrs) (sc_triplets T) ;;
  Ok (t, base, pairs, d, fst trip_attrs, blocks).

Definition score_by (T : scored_task) (dis : list V) (n_by : nat) (by_ : string)
           (scores : list Z) : list Z * option exn :=
  match by_data T dis n_by by_ with
  | Err e => (scores, Some e)
  | Ok (t, base, pairs, d, start, blocks) => score_blocks t base pairs d start blocks scores
  end.

(** score.py lines 84-119: the loop over the bys. *)
Fixpoint score_bys (T : scored_task) (dis : list V) (n_by : nat) (bys : list string)
         (scores : list Z) : list Z * option exn :=
  match bys with
  | [] => (scores, None)
  | by_ :: bys' =>
    match score_by T dis n_by by_ scores with
    | (scores', None) => score_bys T dis (S n_by) bys' scores'
    | (scores', Some e) => (scores', Some e)
    end
  end.

(** Files by name. *)
Record disk := mk_disk {
  k_tasks : list (string * scored_task);
  k_distances : list (string * list V);
  k_scores : list (string * list Z);
  k_others : list string
}.

(** [os.path.exists]. *)
Definition exists_file (k : disk) (f : string) : bool :=
  existsb (String.eqb f) (map fst (k_tasks k)) || existsb (String.eqb f) (map fst (k_distances k))
  || existsb (String.eqb f) (map fst (k_scores k)) || existsb (String.eqb f) (k_others k).

(** [os.path.splitext(name)[0]], not modelled further. *)
Variable stem : string -> string.

(** score.py lines 64-67: name of the score file. *)
Definition score_name (task_file distance_file : string) (score_file : option string) : string :=
  match score_file with
  | Some f => f
  | None => (stem task_file ++ "_" ++ stem distance_file ++ ".score")%string
  end.

(** score.py lines 51-119: [score]. The distance file is read for each by only: a distance
    file that cannot be read is an IOError (here KeyError of [lookup]) after the creation
    of the score file. *)
Definition score (k : disk) (task_file distance_file : string) (score_file : option string)
  : disk * res unit :=
  let name := score_name task_file distance_file score_file in
  if negb (exists_file k task_file) then (k, Err AssertionError)
  else if negb (exists_file k distance_file) then (k, Err AssertionError)
  else if exists_file k name then (k, Err AssertionError)
  else
    match lookup (k_tasks k) task_file with
    | Err e => (k, Err e)
    | Ok T =>
      let zeros := repeat 0 (length (sc_triplets T)) in
      let r := match sc_bys T, lookup (k_distances k) distance_file with
               | [], _ => (zeros, None)
               | _, Err e => (zeros, Some e)
               | _, Ok dis => score_bys T dis 0 (sc_bys T) zeros
               end in
      (mk_disk (k_tasks k) (k_distances k) ((name, fst r) :: k_scores k) (k_others k),
       match snd r with None => Ok tt | Some e => Err e end)
    end.

End Score.
