(** Model of ABXpy/dbfun/dbfun_lookuptable.py. *)
From Coq Require Import String.
From Coq Require Import List ZArith.
From Verif Require Import Prelude TypeFitting Distances H5io.
Import ListNotations.
Local Open Scope Z_scope.
Local Open Scope list_scope.
Set Implicit Arguments.

Section LookupTable.
(** The labels of the indexes, with their equality. *)
Variable V : Type.
Variable veq : forall x y : V, {x = y} + {x <> y}.
(** The cells of the outputs, with the fill value of HDF5 datasets and the value as an integer,
    for the outputs stored as indexes. The element types of the datasets that are not indexed
    are not modelled. *)
Variable C : Type.
Variable c0 : C.
Variable as_int : C -> Z.
(** [numpy.argsort]: any sorting permutation. *)
Variable argsort : list Z -> list nat.

(** Whether the interpreter is Python 2, where [unicode] and [reduce] exist. *)
Variable py2 : bool.

(** The two forms of the inputs: by name, or a list of columns. *)
Inductive inputs :=
| InNames (d : list (string * list V))
| InCols (l : list (list V)).

(** An output: an array with one or two dimensions (then with its number of columns). Other
    dimensions are not modelled. *)
Inductive arr :=
| Vec (l : list C)
| Mat (w : nat) (m : list (list C)).

Inductive outputs :=
| OutNames (d : list (string * arr))
| OutCols (l : list arr).

(** The h5 file and the object. Once the table is sorted the object and the file hold the same
    things. An output named indexed_outputs is not modelled. *)
Record table := mk_table {
  t_indexed : bool;
  t_empty : bool;
  t_sorted : bool;
  t_in_names : list string;
  t_out_names : list string;
  t_in_types : list string;
  t_indexes : list (string * list V);
  t_levels : list Z;
  t_iouts : list string;
  t_dims : option (list nat);                          (* synopsis/indexed_outputs_dims *)
  t_keys : list Z;
  t_data : list (string * (nat * list (list C)));      (* data/o: columns and rows *)
  t_idata : option (itype * nat * list (list Z))       (* data/indexed_outputs *)
}.

Definition set_flags (e s : bool) (t : table) : table :=
  mk_table (t_indexed t) e s (t_in_names t) (t_out_names t) (t_in_types t) (t_indexes t) (t_levels t) (t_iouts t)
    (t_dims t) (t_keys t) (t_data t) (t_idata t).
Definition set_dims (d : list nat) (t : table) : table :=
  mk_table (t_indexed t) (t_empty t) (t_sorted t) (t_in_names t) (t_out_names t) (t_in_types t) (t_indexes t)
    (t_levels t) (t_iouts t) (Some d) (t_keys t) (t_data t) (t_idata t).
Definition set_keys (k : list Z) (t : table) : table :=
  mk_table (t_indexed t) (t_empty t) (t_sorted t) (t_in_names t) (t_out_names t) (t_in_types t) (t_indexes t)
    (t_levels t) (t_iouts t) (t_dims t) k (t_data t) (t_idata t).
Definition set_data (d : list (string * (nat * list (list C)))) (t : table) : table :=
  mk_table (t_indexed t) (t_empty t) (t_sorted t) (t_in_names t) (t_out_names t) (t_in_types t) (t_indexes t)
    (t_levels t) (t_iouts t) (t_dims t) (t_keys t) d (t_idata t).
Definition set_idata (i : itype * nat * list (list Z)) (t : table) : table :=
  mk_table (t_indexed t) (t_empty t) (t_sorted t) (t_in_names t) (t_out_names t) (t_in_types t) (t_indexes t)
    (t_levels t) (t_iouts t) (t_dims t) (t_keys t) (t_data t) (Some i).

(** A method that changes the table: what an exception leaves behind counts. *)
Definition outcome : Type := table * option exn.
Definition andthen (o : outcome) (k : table -> outcome) : outcome :=
  match o with
  | (t, None) => k t
  | (t, Some e) => (t, Some e)
  end.
(** A computation on the way. *)
Definition compute (A : Type) (t : table) (r : res A) (k : A -> outcome) : outcome :=
  match r with
  | Ok a => k a
  | Err e => (t, Some e)
  end.

(** Lines 44-112, for a file that does not exist: the names of the columns of the database with
    the number of distinct values of each, the types of the inputs if there is a synopsis.
    Line 57 or 60 needs [unicode]; line 97 tests whether a dictionary is part of a string,
    which is a TypeError. The remaining lines are not reached. *)
Definition create (columns : list (string * Z)) (in_types : option (list string)) : res table :=
  if negb py2 then Err NameError
  else
    match in_types with
    | None => Err TypeError
    | Some in_types =>
      if negb (subset in_types (map fst columns)) then Err ValueError
      else
        levels <- mapM (lookup columns) in_types ;;
        if existsb (Z.eqb 0) levels then Err IndexError
        else if 2 ^ 64 <=? prodZ levels - 1 then Err ValueError
        else Err TypeError
    end.

(** Lines 47-51 with 110-112: opening a file, [file] being its contents. *)
Definition construct (file : option table) (columns : list (string * Z)) (in_types : option (list string)) : res table :=
  match file, in_types with
  | Some _, Some _ => Err ValueError
  | Some t, None => Ok t
  | None, _ => create columns in_types
  end.

(** Lines 133-135. *)
Definition key_weights (t : table) : list Z := 1 :: removelast (cumprod 1 (t_levels t)).

(** Lines 275-287. Columns of different lengths, or no columns, make numpy fail. *)
Definition get_keys (t : table) (ins : inputs) : res (list Z) :=
  cols <- (match ins with
           | InNames d =>
             mapM (fun nt : string * string =>
                     col <- lookup d (fst nt) ;;
                     ix <- lookup (t_indexes t) (snd nt) ;;
                     mapM (fun e => index_of veq e ix 0) col) (combine (t_in_names t) (t_in_types t))
           | InCols l =>
             mapM (fun it : nat * string =>
                     col <- nth_res l (fst it) ;;
                     ix <- lookup (t_indexes t) (snd it) ;;
                     mapM (fun e => index_of veq e ix 0) col) (combine (seq 0 (length (t_in_types t))) (t_in_types t))
           end) ;;
  match cols with
  | [] => Err ValueError
  | c :: _ =>
    if forallb (fun c' => (length c' =? length c)%nat) cols
    then Ok (compute_keys (key_weights t)
               (map (fun j => map (fun c' => nth j c' 0) cols) (seq 0 (length c))))
    else Err ValueError
  end.

(** [output_names.index(o)]. *)
Fixpoint name_index (o : string) (l : list string) : res nat :=
  match l with
  | [] => Err ValueError
  | x :: l' => if String.eqb x o then Ok 0%nat else (i <- name_index o l' ;; Ok (S i))
  end.

(** Line 203. *)
Definition dim (a : arr) : nat := match a with Vec _ => 1%nat | Mat w _ => w end.
Definition rows (a : arr) : nat := match a with Vec l => length l | Mat _ m => length m end.

(** Lines 206-210: one dataset. A dataset that exists already cannot be created. *)
Fixpoint create_dsets (t : table) (l : list (string * nat)) : outcome :=
  match l with
  | [] => (t, None)
  | (o, d) :: l' =>
    if mem o (t_iouts t) then create_dsets t l'
    else if mem o (map fst (t_data t)) then (t, Some RuntimeError)
    else create_dsets (set_data (t_data t ++ [(o, (d, []))]) t) l'
  end.

Fixpoint cumsum (a : nat) (l : list nat) : list nat :=
  match l with
  | [] => []
  | x :: l' => (a + x)%nat :: cumsum (a + x) l'
  end.

(** Lines 194-230. Line 196 replaces a mapping by the array of its names, whose elements have no
    dimension; get_dtype (416-426) needs [unicode], and a first element. *)
Definition initialize_output_dsets (t : table) (outs : outputs) : outcome :=
  match outs with
  | OutNames (_ :: _) => (t, Some IndexError)
  | OutNames [] | OutCols _ =>
    let l := match outs with OutNames _ => [] | OutCols l => l end in
    if negb py2 && (0 <? length l)%nat then (t, Some NameError)
    else if existsb (fun a => (rows a =? 0)%nat) l then (t, Some IndexError)
    else
      let dims := map dim l in
      andthen (create_dsets t (combine (t_out_names t) dims)) (fun t1 =>
      compute t1 (mapM (fun o =>
                    i <- name_index o (t_out_names t) ;;
                    d <- nth_res dims i ;;
                    ix <- lookup (t_indexes t) o ;;
                    Ok (d, Z.of_nat (length ix))) (t_iouts t)) (fun dl =>
      let idims := map fst dl in
      compute t1 (if (length dl =? 0)%nat then Err ValueError
                  else fit_integer_type (maxZ (map snd dl)) false) (fun ty =>
      match t_idata t1 with
      | Some _ => (t1, Some RuntimeError)
      | None => (set_dims (cumsum 0 idims) (set_idata (ty, sumn idims, []) t1), None)
      end)))
  end.

(** What h5py writes in a selection of [n] rows and [d] columns: each dimension of the array is
    that of the selection, or 1. *)
Definition broadcast (A : Type) (n d : nat) (w : nat) (m : list (list A)) (a0 : A) : res (list (list A)) :=
  if ((w =? d) || (w =? 1))%nat && ((length m =? n) || (length m =? 1))%nat
  then Ok (map (fun i => map (fun j => nth (if (w =? 1)%nat then 0%nat else j)
                                           (nth (if (length m =? 1)%nat then 0%nat else i) m []) a0) (seq 0 d)) (seq 0 n))
  else Err TypeError.

(** A dataset of [d] columns is resized to [old + length new] rows, new rows being filled with
    [a0], then the last ones are written. *)
Definition resized (A : Type) (a0 : A) (d n : nat) (m : list (list A)) : list (list A) :=
  m ++ repeat (repeat a0 d) (n - length m).

Definition set_dset (o : string) (v : nat * list (list C)) (l : list (string * (nat * list (list C)))) :=
  map (fun kv => if String.eqb (fst kv) o then (o, v) else kv) l.

(** Lines 249-257. The arrays given with one dimension are resized in place to two; this is
    modelled as a new array. *)
Fixpoint write_raw (old n : nat) (t : table) (l : list (string * arr)) : outcome :=
  match l with
  | [] => (t, None)
  | (o, a) :: l' =>
    if mem o (t_iouts t) then write_raw old n t l'
    else
      compute t (lookup (t_data t) o) (fun ds =>
      let '(d, m) := ds in
      let m1 := resized c0 d (old + n) m in
      let t1 := set_data (set_dset o (d, m1) (t_data t)) t in
      let v := match a with
               | Vec c => if (d =? 1)%nat then broadcast n d 1 (map (fun x => [x]) c) c0
                          else broadcast n d (length c) [c] c0
               | Mat w m' => broadcast n d w m' c0
               end in
      compute t1 v (fun v =>
      write_raw old n (set_data (set_dset o (d, splice old v m1) (t_data t1)) t1) l'))
  end.

(** Line 263: [numpy.concatenate(..., axis=1)], on arrays of two dimensions only. *)
Fixpoint hcat (l : list arr) : res (nat * list (list C)) :=
  match l with
  | [] => Err ValueError
  | Vec _ :: _ => Err ValueError
  | [Mat w m] => Ok (w, m)
  | Mat w m :: l' =>
    r <- hcat l' ;;
    if (length m =? length (snd r))%nat
    then Ok ((w + fst r)%nat, map (fun p => fst p ++ snd p) (combine m (snd r)))
    else Err ValueError
  end.

(** What HDF5 stores of an integer in a dataset of another type: the nearest value. *)
Definition clip (ty : itype) (v : Z) : Z := Z.max (tmin ty) (Z.min v (tmax ty)).

(** Lines 258-271. *)
Definition write_indexed (old n : nat) (t : table) (l : list arr) : outcome :=
  compute t (mapM (fun o => i <- name_index o (t_out_names t) ;; nth_res l i) (t_iouts t)) (fun vs =>
  compute t (hcat vs) (fun wm =>
  match t_idata t with
  | None => (t, Some KeyError)
  | Some (ty, d, m) =>
    let m1 := resized 0 d (old + n) m in
    let t1 := set_idata (ty, d, m1) t in
    compute t1 (broadcast n d (fst wm) (map (map as_int) (snd wm)) 0) (fun v =>
    (set_idata (ty, d, splice old (map (map (clip ty)) v) m1) t1, None))
  end)).

(** Lines 234-271. Line 244: there is no attribute [outputs]. *)
Definition write (t : table) (ins : inputs) (outs : outputs) : outcome :=
  compute t (get_keys t ins) (fun keys =>
  let old := length (t_keys t) in
  let t1 := set_keys (t_keys t ++ keys) t in
  match outs with
  | OutNames _ => (t1, Some AttributeError)
  | OutCols l =>
    andthen (write_raw old (length keys) t1 (combine (t_out_names t) l)) (fun t2 =>
    write_indexed old (length keys) t2 l)
  end).

(** Lines 167-192, with [iterate] False. *)
Definition fill (t : table) (ins : inputs) (outs : outputs) (append : bool) : outcome :=
  if negb (t_empty t) && negb append then (t, Some IOError)
  else
    andthen (if t_empty t then initialize_output_dsets t outs else (t, None)) (fun t1 =>
    write (set_flags false false t1) ins outs).

(** Lines 167-192, with [iterate] True (Python 2): the outputs of the first batch instantiate
    the datasets; the first batch is written before the flags are set. *)
Definition fill_iterate (t : table) (batches : list (inputs * outputs)) (append : bool) : outcome :=
  let write_all t l := fold_left (fun o b => andthen o (fun t => write t (fst b) (snd b))) l (t, None) in
  if negb (t_empty t) && negb append then (t, Some IOError)
  else if negb py2 && t_empty t then (t, Some AttributeError)
  else if t_empty t then
    match batches with
    | [] => (t, Some StopIteration)
    | (ins, outs) :: batches' =>
      andthen (initialize_output_dsets t outs) (fun t1 =>
      andthen (write t1 ins outs) (fun t2 => write_all (set_flags false false t2) batches'))
    end
  else write_all (set_flags false false t) batches.

(** Lines 308-310: one dataset reordered. *)
Definition reorder (A : Type) (order : list nat) (m : list (list A)) : res (list (list A)) :=
  m' <- gather m order ;;
  if (length m' =? length m)%nat || (length m' =? 1)%nat
  then Ok (if (length m' =? length m)%nat then m' else repeat (nth 0 m' []) (length m))
  else Err TypeError.

Fixpoint pack_dsets (order : list nat) (t : table) (l : list string) : outcome :=
  match l with
  | [] => (t, None)
  | o :: l' =>
    compute t (lookup (t_data t) o) (fun ds =>
    compute t (reorder order (snd ds)) (fun m =>
    pack_dsets order (set_data (set_dset o (fst ds, m) (t_data t)) t) l'))
  end.

(** Lines 296-314. *)
Definition pack (t : table) : outcome :=
  let order := argsort (t_keys t) in
  compute t (gather (t_keys t) order) (fun keys =>
  let t1 := set_keys keys t in
  andthen (pack_dsets order t1 (filter (fun o => negb (mem o (t_iouts t))) (t_out_names t))) (fun t2 =>
  match t_idata t2 with
  | None => (t2, Some KeyError)
  | Some (ty, d, m) =>
    compute t2 (reorder order m) (fun m' => (set_flags (t_empty t2) true (set_idata (ty, d, m') t2), None))
  end)).

(** Lines 316-321. *)
Definition output_specs (t : table) : res (nat * list string * list (string * list V)) :=
  indexes <- (if t_indexed t
              then mapM (fun o => ix <- lookup (t_indexes t) o ;; Ok (o, ix)) (t_iouts t)
              else Ok []) ;;
  Ok (length (t_out_names t), t_out_names t, indexes).

(** What is returned for an output: stored cells, positions in its index, or labels. *)
Inductive answer :=
| ACells (m : list (list C))
| APositions (m : list (list Z))
| ALabels (m : list (list V))
| APlaceholder.

Definition set_nth (A : Type) (i : nat) (a : A) (l : list A) : list A :=
  firstn i l ++ a :: skipn (S i) l.

(** Lines 386-391: columns [d:next_d] for each indexed output. *)
Fixpoint indexed_answers (t : table) (io : list (list Z)) (d : nat) (l : list (nat * string)) (acc : list answer)
  : res (list answer) :=
  match l with
  | [] => Ok acc
  | (next_d, o) :: l' =>
    ind <- name_index o (t_out_names t) ;;
    indexed_answers t io next_d l' (set_nth ind (APositions (map (slice d next_d) io)) acc)
  end.

(** Lines 392-396. Positions are unsigned. *)
Definition decode (ix : list V) (m : list (list Z)) : res (list (list V)) :=
  mapM (fun r => mapM (fun p => nth_res ix (Z.to_nat p)) r) m.

Fixpoint decoded_answers (t : table) (l : list string) (acc : list answer) : res (list answer) :=
  match l with
  | [] => Ok acc
  | o :: l' =>
    ind <- name_index o (t_out_names t) ;;
    ix <- lookup (t_indexes t) o ;;
    a <- nth_res acc ind ;;
    match a with
    | APositions m => m' <- decode ix m ;; decoded_answers t l' (set_nth ind (ALabels m') acc)
    | _ => Err IndexError
    end
  end.

(** Lines 328-407. Line 145 looks for the code among the datasets of the file whereas line 57
    stores it in the attributes: the object has no code, and missing queries raise. Line 344
    uses the insertion point of keys beyond the last one. Lines 375-376: with no query numpy's
    setdiff1d gives an array of floats. *)
Definition evaluate (t : table) (ctx : inputs) : res (list answer) :=
  if negb (t_sorted t) then Err IOError
  else
    keys <- get_keys t ctx ;;
    if (length (t_keys t) =? 0)%nat then Err AttributeError
    else
      let points := map (searchsorted (t_keys t)) keys in
      found <- gather (t_keys t) points ;;
      let missing := np_where (map (fun p => negb (fst p =? snd p)) (combine found keys)) in
      if (0 <? length missing)%nat then Err RuntimeError
      else if (length keys =? 0)%nat then Err IndexError
      else
        present <- mapM (fun o =>
            if mem o (t_iouts t) then Ok APlaceholder
            else ds <- lookup (t_data t) o ;; m <- gather (snd ds) points ;; Ok (ACells m)) (t_out_names t) ;;
        match t_idata t, t_dims t with
        | None, _ => Err KeyError
        | Some _, None => Err AttributeError
        | Some (_, _, m), Some dims =>
          io <- gather m points ;;
          present' <- indexed_answers t io 0 (combine dims (t_iouts t)) present ;;
          if t_indexed t then Ok present' else decoded_answers t (t_iouts t) present'
        end.

End LookupTable.
