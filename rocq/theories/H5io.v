(** Model of ABXpy/h5tools/h5io.py. *)
From Coq Require Import Ascii String.
From Coq Require Import List ZArith.
From Verif Require Import Prelude TypeFitting Distances.
Import ListNotations.
Local Open Scope Z_scope.
Local Open Scope list_scope.
Set Implicit Arguments.

Section H5io.
(** The labels of the indexes, with their equality. *)
Variable V : Type.
Variable veq : forall x y : V, {x = y} + {x <> y}.
(** Labels that [np.array(data, dtype='S')] can hold: numbers, and strings without characters
    outside ASCII. *)
Variable plain : V -> bool.

Definition mem (s : string) (l : list string) : bool := existsb (String.eqb s) l.
Definition subset (l l' : list string) : bool := forallb (fun s => mem s l') l.

(** The two forms of the argument [datasets] of the constructor. *)
Inductive declared :=
| DDict (d : list (string * option string))
| DList (l : list string).

(** What the constructor stores in the group and loads back. *)
Record h5io := mk_h5io {
  h_managed : list string;
  h_raw : list string;
  h_indexed : list (string * string);      (* dataset, name of its index *)
  h_indexes : list (string * list V);
  h_non_fused : list string;
  h_fused : list (string * list string);
  h_nb_levels : list (string * list Z)
}.

(** Lines 34-46: the indexed datasets with their indexes, and the datasets; the two checks
    of the declarations. *)
Definition indexed_datasets (d : declared) (indexes : list (string * list V))
  : res (list string * list (string * string)) :=
  match d with
  | DDict d =>
    let idx := flat_map (fun kv => match snd kv with Some v => [(fst kv, v)] | None => [] end) d in
    if subset (map snd idx) (map fst indexes) && subset (map fst indexes) (map snd idx)
    then Ok (map fst d, idx)
    else Err ValueError
  | DList l =>
    if subset (map fst indexes) l
    then Ok (l, map (fun kv => (fst kv, fst kv)) indexes)
    else Err ValueError
  end.

(** No byte of a text (in UTF-8) is out of ASCII. *)
Definition plain_text (s : string) : bool :=
  forallb (fun c => nat_of_ascii c <? 128)%nat (list_ascii_of_string s).

(** Lines 361-364: [get_array]. [data[0]] fails on an empty list; the conversion of strings to
    bytes raises UnicodeEncodeError, a ValueError, out of ASCII. *)
Definition get_array {A : Type} (ok : A -> bool) (data : list A) : res (list A) :=
  match data with
  | [] => Err IndexError
  | _ => if forallb ok data then Ok data else Err ValueError
  end.

(** Lines 24-117 (with __load_metadata__, 124-162): a new group. The names of the datasets with
    an index are names of datasets, and the names of the indexes are supposed to be in ASCII, so
    only the first [get_array] of names can fail. The order of the raw datasets, a Python set,
    is not significant. That h5py 2 cannot store the names of raw and fused datasets, and the
    names in the file, are in H5ioFile.v. *)
Definition init (d : declared) (indexes : list (string * list V)) (fused : list (string * list string))
  : res h5io :=
  di <- indexed_datasets d indexes ;;
  let '(datasets, indexed) := di in
  let all_fused := flat_map snd fused in
  if negb (subset all_fused (map fst indexed)) then Err ValueError
  else
    managed <- get_array plain_text datasets ;;
    stored <- mapM (fun kv : string * list V => l <- get_array plain (snd kv) ;; Ok (fst kv, l)) indexes ;;
    nb_levels <- mapM (fun nf : string * list string =>
        levels <- mapM (fun dset => ix <- lookup indexed dset ;; l <- lookup indexes ix ;;
                                    Ok (Z.of_nat (length l))) (snd nf) ;;
        Ok (fst nf, levels)) fused ;;
    Ok (mk_h5io managed
         (filter (fun s => negb (mem s (map fst indexed))) datasets)
         indexed stored
         (filter (fun s => negb (mem s all_fused)) (map fst indexed))
         fused nb_levels).

(** The value given for a dataset: a list of labels, a list of integers, or a matrix of
    integers with its number of columns. *)
Inductive values :=
| Labels (l : list V)
| Ints (l : list Z)
| Rows (width : nat) (l : list (list Z)).

Definition width (v : values) : nat := match v with Rows w _ => w | _ => 1%nat end.

(** The two forms of the argument [data] of [write]. *)
Inductive input :=
| InDict (d : list (string * values))
| InList (l : list values).

(** Lines 219-228. A dataset named twice in a list keeps its last values. *)
Definition parse_input (H : h5io) (data : input) : res (list (string * values)) :=
  let d := match data with
           | InDict d => d
           | InList l => rev (combine (h_managed H) l)
           end in
  if subset (map fst d) (h_managed H) && subset (h_managed H) (map fst d) then Ok d
  else Err ValueError.

(** [l.index(e)]. *)
Fixpoint index_of (e : V) (l : list V) (i : Z) : res Z :=
  match l with
  | [] => Err ValueError
  | x :: l' => if veq e x then Ok i else index_of e l' (i + 1)
  end.

(** Lines 322-325, for one dataset: the labels are replaced by their positions. Integers are
    not labels: looking them up fails. *)
Definition compute_indexes (H : h5io) (dset : string) (v : values) : res values :=
  match lookup (h_indexed H) dset with
  | Ok ix =>
    index <- lookup (h_indexes H) ix ;;
    match v with
    | Labels l => is <- mapM (fun e => index_of e index 0) l ;; Ok (Ints is)
    | Ints [] | Rows _ [] => Ok (Ints [])
    | _ => Err ValueError
    end
  | Err _ => Ok v
  end.

(** Lines 230-239: matrices; strings cannot be written. *)
Definition convert (v : values) : res (list (list Z)) :=
  match v with
  | Labels _ => Err TypeError
  | Ints l => Ok (map (fun x => [x]) l)
  | Rows _ l => Ok l
  end.

(** [np.concatenate(..., axis=1)]. *)
Fixpoint hcat (ms : list (list (list Z))) : res (list (list Z)) :=
  match ms with
  | [] => Err ValueError
  | [m] => Ok m
  | m :: ms' =>
    r <- hcat ms' ;;
    if (length m =? length r)%nat then Ok (map (fun p => fst p ++ snd p) (combine m r))
    else Err ValueError
  end.

(** A fused dataset: type, weights and keys. *)
Record fused_out := mk_fused { f_type : itype; f_weights : list Z; f_keys : list Z }.

(** What is written: raw datasets, indexed_data with its type, fused datasets. The buffers of
    np2h5 are taken as the rows written so far (property C20). *)
Record out := mk_out {
  o_raw : list (string * list (list Z));
  o_indexed : option (itype * list (list Z));
  o_fused : list (string * fused_out)
}.

(** Running products. *)
Fixpoint cumprod (a : Z) (l : list Z) : list Z :=
  match l with
  | [] => []
  | x :: l' => let p := cast U64 (a * x) in p :: cumprod p l'
  end.

(** Lines 270-297, for one fused dataset. The products are uint64, so that the test of line
    275 is never true. [np.cumprod] of small unsigned integers gives uint64. *)
Definition init_fused (H : h5io) (dims : string -> res nat) (nf : string * list string)
  : res (string * fused_out) :=
  fused_dims <- mapM dims (snd nf) ;;
  nb_levels <- lookup (h_nb_levels H) (fst nf) ;;
  let max_key := cast U64 (cast U64 (prodZ (map (fun p => fst p ^ Z.of_nat (snd p)) (combine nb_levels fused_dims))) - 1) in
  if 2 ^ 64 <=? max_key then Err ValueError
  else
    d_type <- fit_integer_type max_key false ;;
    if (length (snd nf) =? 0)%nat then Err ValueError
    else
      let mult := flat_map (fun p => repeat (cast d_type (fst p)) (snd p)) (combine nb_levels fused_dims) in
      Ok (fst nf, mk_fused d_type (1 :: removelast (cumprod 1 mult)) []).

(** Lines 241-297. Line 261: the index of a dataset is looked up with the name of the
    dataset. A first batch without rows for a raw dataset, whose type cannot be found at line
    352, is not modelled. *)
Definition initialize (H : h5io) (sample : input) : res out :=
  d <- parse_input H sample ;;
  let dims := fun s => v <- lookup d s ;; Ok (width v) in
  indexed <- (if (length (h_non_fused H) =? 0)%nat then Ok None
              else
                levels <- mapM (fun s => l <- lookup (h_indexes H) s ;; Ok (Z.of_nat (length l))) (h_non_fused H) ;;
                t <- fit_integer_type (maxZ levels) false ;;
                Ok (Some (t, []))) ;;
  fused <- mapM (init_fused H dims) (h_fused H) ;;
  Ok (mk_out (map (fun s => (s, [])) (h_raw H)) indexed fused).

(** Lines 327-333: the keys of rows, in uint64. *)
Definition compute_keys (weights : list Z) (rows : list (list Z)) : list Z :=
  map (fun r => cast U64 (sumZ (map (fun p => cast U64 (fst p * cast U64 (snd p))) (combine weights r)))) rows.

(** Lines 299-318. *)
Definition write_data (H : h5io) (o : out) (data : input) (indexed : bool) : res out :=
  d <- parse_input H data ;;
  d' <- mapM (fun kv => v <- (if indexed then Ok (snd kv) else compute_indexes H (fst kv) (snd kv)) ;;
                        m <- convert v ;; Ok (fst kv, m)) d ;;
  raw <- mapM (fun kv => m <- lookup d' (fst kv) ;; Ok (fst kv, snd kv ++ m)) (o_raw o) ;;
  ind <- (match o_indexed o with
          | None => Ok None
          | Some (t, rows) =>
            ms <- mapM (lookup d') (h_non_fused H) ;;
            m <- hcat ms ;;
            Ok (Some (t, rows ++ map (map (cast t)) m))
          end) ;;
  fused <- mapM (fun nf =>
      members <- lookup (h_fused H) (fst nf) ;;
      ms <- mapM (lookup d') members ;;
      m <- hcat ms ;;
      let f := snd nf in
      Ok (fst nf, mk_fused (f_type f) (f_weights f)
                    (f_keys f ++ map (cast (f_type f)) (compute_keys (f_weights f) m)))) (o_fused o) ;;
  Ok (mk_out raw ind fused).

(** Lines 184-217, [append] being True: successive calls of [write] within the [with]
    statement. [None] as long as nothing is written. *)
Fixpoint write_all (H : h5io) (o : option out) (batches : list (input * bool)) : res (option out) :=
  match batches with
  | [] => Ok o
  | (data, indexed) :: batches' =>
    o1 <- (match o with None => initialize H data | Some o => Ok o end) ;;
    o2 <- write_data H o1 data indexed ;;
    write_all H (Some o2) batches'
  end.

End H5io.
