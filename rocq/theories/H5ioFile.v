(** Model of the life of the files of ABXpy/h5tools/h5io.py: creation, loading and writing, with
    the names in the HDF5 file. H5io.v has the values that are written. *)
From Coq Require Import Ascii String.
From Coq Require Import List ZArith.
From Verif Require Import Prelude TypeFitting Distances H5Names H5io.
Import ListNotations.
Local Open Scope string_scope.
Local Open Scope list_scope.
Set Implicit Arguments.

Section H5ioFile.
Variable V : Type.
Variable veq : forall x y : V, {x = y} + {x <> y}.
Variable plain : V -> bool.
(** Whether h5py can store a list of Python strings: h5py 2, for which ABXpy is written, raises
    TypeError (no conversion path for the numpy type of the strings). Later versions can, but
    read strings as bytes, which is not modelled. *)
Variable texts : bool.

(** The contents of the datasets: strings, labels, integers, or the rows of a table. *)
Inductive content :=
| Texts (l : list string)
| Levels (l : list V)
| Numbers (l : list Z)
| Table (t : itype) (columns : nat) (rows : list (list Z)).

Notation file := (file content).

(** Something done to the file. *)
Definition step := file -> res file.

(** What is done before an exception stays in the file. *)
Fixpoint run (steps : list step) (f : file) : file * res unit :=
  match steps with
  | [] => (f, Ok tt)
  | s :: steps' =>
    match s f with
    | Ok f' => run steps' f'
    | Err e => (f, Err e)
    end
  end.

(** [g.create_dataset(name, data=data)]. *)
Definition new_dataset (data : res content) (p : path) : step :=
  fun f => c <- data ;; make RuntimeError f p (Dataset c).

(** [data=get_array(names), dtype=str_dtype]. *)
Definition bytes_of (names : list string) : res content :=
  l <- get_array plain_text names ;; Ok (Texts l).

(** [data=names, dtype=str_dtype]. *)
Definition texts_of (names : list string) : res content :=
  if texts then Ok (Texts names) else Err TypeError.

(** Lines 70-73. *)
Definition open_group (q : path) : step := fun f =>
  match get f q with
  | Some _ => Ok f
  | None => make ValueError f q (Group [])
  end.

(** Lines 79-80. A dataset has no method [create_dataset]. *)
Definition new_managed (q : path) (datasets : list string) : step := fun f =>
  match get f q with
  | Some (Dataset _) => Err AttributeError
  | _ => new_dataset (bytes_of datasets) (q ++ ["managed_datasets"]) f
  end.

(** Lines 85-99. *)
Definition index_steps (q : path) (indexed : list (string * string)) (indexes : list (string * list V))
  (all_fused : list string) : list step :=
  match indexed with
  | [] => []
  | _ =>
    let non_fused := filter (fun s => negb (mem s all_fused)) (map fst indexed) in
    [new_dataset (bytes_of (map fst indexed)) (q ++ ["indexed_datasets"]);
     new_dataset (bytes_of (map snd indexed)) (q ++ ["indexed_datasets_indexes"]);
     fun f => make ValueError f (q ++ ["indexes"]) (Group [])]
    ++ map (fun kv : string * list V =>
              new_dataset (l <- get_array plain (snd kv) ;; Ok (Levels l))
                          (resolve (q ++ ["indexes"]) (fst kv))) indexes
    ++ match non_fused with
       | [] => []
       | _ => [new_dataset (bytes_of non_fused) (q ++ ["non_fused_datasets"])]
       end
  end.

(** Lines 109-110. *)
Definition levels_of (indexed : list (string * string)) (indexes : list (string * list V))
  (members : list string) : res content :=
  l <- mapM (fun dset => ix <- lookup indexed dset ;; l <- lookup indexes ix ;;
                         Ok (Z.of_nat (List.length l))) members ;;
  Ok (Numbers l).

(** Lines 101-112. *)
Definition fused_steps (q : path) (indexed : list (string * string)) (indexes : list (string * list V))
  (fused : list (string * list string)) : list step :=
  match fused with
  | [] => []
  | _ =>
    [new_dataset (texts_of (map fst fused)) (q ++ ["fused_datasets"]);
     fun f => make ValueError f (q ++ ["fused"]) (Group [])]
    ++ flat_map (fun nf : string * list string =>
         let i := resolve (q ++ ["fused"]) (fst nf) in
         [fun f => make ValueError f i (Group []);
          new_dataset (texts_of (snd nf)) (i ++ ["datasets"]);
          new_dataset (levels_of indexed indexes (snd nf)) (i ++ ["nb_levels"])]) fused
  end.

(** Lines 69-112. The order of the raw datasets, a Python set, is not significant. *)
Definition creation (q : path) (datasets : list string) (indexed : list (string * string))
  (indexes : list (string * list V)) (fused : list (string * list string)) : list step :=
  let raw := filter (fun s => negb (mem s (map fst indexed))) datasets in
  [open_group q;
   fun f => Ok (set_attr f q "empty" true);
   fun f => Ok (set_attr f q "sorted" false);
   new_managed q datasets]
  ++ match raw with
     | [] => []
     | _ => [new_dataset (texts_of raw) (q ++ ["raw_datasets"])]
     end
  ++ index_steps q indexed indexes (flat_map snd fused)
  ++ fused_steps q indexed indexes fused.

(** [g.attrs[name]]. *)
Definition get_attr (f : file) (p : path) (name : string) : res bool :=
  match get f p with
  | Some (Group attrs) => lookup attrs name
  | _ => Err KeyError
  end.

(** [g[name][...]]: a group cannot be read so (AttributeError with h5py 2, TypeError with
    h5py 3). *)
Definition read (f : file) (p : path) : res content :=
  match get f p with
  | Some (Dataset c) => Ok c
  | Some (Group _) => Err AttributeError
  | None => Err KeyError
  end.

(** The contents expected where they are read; the files have no other there. *)
Definition read_texts (f : file) (p : path) : res (list string) :=
  c <- read f p ;; match c with Texts l => Ok l | _ => Err TypeError end.
Definition read_levels (f : file) (p : path) : res (list V) :=
  c <- read f p ;; match c with Levels l => Ok l | _ => Err TypeError end.
Definition read_numbers (f : file) (p : path) : res (list Z) :=
  c <- read f p ;; match c with Numbers l => Ok l | _ => Err TypeError end.

(** [name in g]. *)
Definition present (f : file) (p : path) : bool :=
  match get f p with Some _ => true | None => false end.

(** The list of a dataset that may be missing. *)
Definition read_if (f : file) (p : path) : res (list string) :=
  if present f p then read_texts f p else Ok [].

(** Line 139, 152: [for name in g]; what is not a group has no members that are names. *)
Definition members (f : file) (p : path) : res (list string) :=
  match get f p with
  | Some (Group _) => Ok (listing f p)
  | Some (Dataset _) => Err TypeError
  | None => Err KeyError
  end.

(** Lines 153-160, for one fused dataset: its members, and its numbers of levels unless the
    weights of its keys are there; these are looked up under a name that is never written. *)
Definition load_fused (f : file) (h : path) (name : string) : res (list string * option (list Z)) :=
  dsets <- read_texts f (h ++ [name; "datasets"]) ;;
  if present f (h ++ [name; "key_weights"]) then
    _ <- read f (h ++ [name; "key_weigths"]) ;; Ok (dsets, None)
  else
    n <- read_numbers f (h ++ [name; "nb_levels"]) ;; Ok (dsets, Some n).

(** What is loaded: the flags [is_empty] and [is_sorted], and the rest. *)
Definition loaded := (bool * bool * h5io V)%type.

(** Lines 124-162: [__load_metadata__]. *)
Definition load (f : file) (q : path) : res loaded :=
  is_empty <- get_attr f q "empty" ;;
  is_sorted <- get_attr f q "sorted" ;;
  managed <- read_texts f (q ++ ["managed_datasets"]) ;;
  raw <- read_if f (q ++ ["raw_datasets"]) ;;
  ix <- (if present f (q ++ ["indexed_datasets"]) then
           a <- read_texts f (q ++ ["indexed_datasets"]) ;;
           b <- read_texts f (q ++ ["indexed_datasets_indexes"]) ;;
           names <- members f (q ++ ["indexes"]) ;;
           c <- mapM (fun dset => l <- read_levels f (q ++ ["indexes"; dset]) ;; Ok (dset, l)) names ;;
           Ok (combine a b, c)
         else Ok ([], [])) ;;
  non_fused <- read_if f (q ++ ["non_fused_datasets"]) ;;
  fu <- (if present f (q ++ ["fused_datasets"]) then
           _ <- read_texts f (q ++ ["fused_datasets"]) ;;
           names <- members f (q ++ ["fused"]) ;;
           mapM (fun name => x <- load_fused f (q ++ ["fused"]) name ;; Ok (name, x)) names
         else Ok []) ;;
  Ok (is_empty, is_sorted,
      mk_h5io managed raw (fst ix) (snd ix) non_fused
        (map (fun nx => (fst nx, fst (snd nx))) fu)
        (flat_map (fun nx => match snd (snd nx) with Some n => [(fst nx, n)] | None => [] end) fu)).

(** Lines 24-53: the checks of the arguments. *)
Definition check (d : declared) (indexes : list (string * list V)) (fused : list (string * list string))
  : res (list string * list (string * string)) :=
  di <- indexed_datasets d indexes ;;
  if negb (subset (flat_map snd fused) (map fst (snd di))) then Err ValueError else Ok di.

(** Lines 24-117: the constructor. The argument [datasets] may be None, and the file may not
    exist. The IOError of line 59 is caught at line 66, so that a group is also created in a
    file that exists. *)
Definition construct (fs : option file) (d : option declared) (indexes : list (string * list V))
  (fused : list (string * list string)) (group : string) : option file * res loaded :=
  let q := components group in
  match d with
  | None =>
    match fs with
    | None => (None, Err IOError)
    | Some f => if present f q then (Some f, load f q) else (Some f, Err IOError)
    end
  | Some d =>
    match check d indexes fused with
    | Err e => (fs, Err e)
    | Ok (datasets, indexed) =>
      let f := match fs with Some f => f | None => new_file content end in
      match run (creation q datasets indexed indexes fused) f with
      | (f', Err e) => (Some f', Err e)
      | (f', Ok _) => (Some f', load f' q)
      end
    end
  end.

(** An H5IO object: its file, the path of its group, what it has loaded, and, within a [with]
    statement, what [write] has prepared there ([None] before the first call). *)
Record handle := mk_handle {
  w_file : file;
  w_path : path;
  w_empty : bool;
  w_sorted : bool;
  w_meta : h5io V;
  w_inside : bool;
  w_out : option out
}.

(** Lines 165-182: [__enter__] and [__exit__]. The buffers are flushed at the end; the rows are in
    the file of the model as soon as they are written (property C21). *)
Definition enter (h : handle) : handle :=
  mk_handle (w_file h) (w_path h) (w_empty h) (w_sorted h) (w_meta h) true None.
Definition leave (h : handle) : handle :=
  mk_handle (w_file h) (w_path h) (w_empty h) (w_sorted h) (w_meta h) false None.

(** np2h5.py lines 129-153: a new table, without rows, unless there is something of this name. A
    group that is a dataset is an error too, not the same one in the code. *)
Definition new_table (t : itype) (columns : nat) (p : path) : step :=
  fun f => make IOError f p (Dataset (Table t columns [])).

(** Running sums. *)
Fixpoint cumsum (a : Z) (l : list Z) : list Z :=
  match l with
  | [] => []
  | x :: l' => (a + x)%Z :: cumsum (a + x)%Z l'
  end.

(** Lines 241-297, what is done to the file: [o] has the types and the weights that are computed,
    and [d] the data of the first call. The raw datasets, of 64 bits integers, are written from the
    root of the file. An exception raised in the computation of [o], between
    these steps in the code, is as if it was raised before them. *)
Definition table_steps (q : path) (H : h5io V) (d : list (string * values V)) (o : out) : list step :=
  let dim := fun s => match lookup d s with Ok v => width v | Err _ => 0%nat end in
  map (fun s => new_table I64 (dim s) (components s)) (h_raw H)
  ++ match o_indexed o with
     | None => []
     | Some (t, _) =>
       let dims := map dim (h_non_fused H) in
       [new_table t (sumn dims) (q ++ ["indexed_data"]);
        new_dataset (Ok (Numbers (cumsum 0 (map Z.of_nat dims)))) (q ++ ["indexed_cumudims"])]
     end
  ++ flat_map (fun nf : string * fused_out =>
       [new_table (f_type (snd nf)) 1 (resolve q (fst nf));
        new_dataset (Ok (Numbers (f_weights (snd nf)))) (resolve (q ++ ["fused"]) (fst nf) ++ ["key_weights"])])
     (o_fused o).

(** New rows of a table. *)
Definition put_rows (p : path) (rows : list (list Z)) (f : file) : file :=
  match get f p with
  | Some (Dataset (Table t n _)) => set_data f p (Table t n rows)
  | _ => f
  end.

(** The tables after [write]. *)
Definition put (q : path) (o : out) (f : file) : file :=
  let f1 := fold_left (fun f sr => put_rows (components (fst sr)) (snd sr) f) (o_raw o) f in
  let f2 := match o_indexed o with Some (_, rows) => put_rows (q ++ ["indexed_data"]) rows f1 | None => f1 end in
  fold_left (fun f nf => put_rows (resolve q (fst nf)) (map (fun k => [k]) (f_keys (snd nf))) f) (o_fused o) f2.

(** What is given to [write], with [iterate=False] or [iterate=True]. *)
Inductive given := Once (data : input V) | Each (l : list (input V)).

(** Lines 213-217. *)
Fixpoint write_each (H : h5io V) (o : out) (l : list (input V)) (indexed : bool) : res out :=
  match l with
  | [] => Ok o
  | d :: l' => o' <- write_data veq H o d indexed ;; write_each H o' l' indexed
  end.

(** Lines 191-202: the datasets of the file, prepared at the first call. Python 3 has no method
    [next] of iterators. *)
Definition prepare (h : handle) (data : given) : file * res out :=
  if w_empty h then
    match data with
    | Each _ => (w_file h, Err AttributeError)
    | Once d =>
      match (o <- initialize (w_meta h) d ;; p <- parse_input (w_meta h) d ;; Ok (o, p)) with
      | Err e => (w_file h, Err e)
      | Ok (o, p) =>
        match run (table_steps (w_path h) (w_meta h) p o) (w_file h) with
        | (f, Ok _) => (f, Ok o)
        | (f, Err e) => (f, Err e)
        end
      end
    end
  else match w_out h with
       | Some o => (w_file h, Ok o)
       | None => (w_file h, Err ValueError)
       end.

(** Lines 184-217: [write]. What is written in the tables before an exception is not modelled. *)
Definition write (h : handle) (data : given) (append indexed : bool) : handle * res unit :=
  if negb (w_inside h) then (h, Err RuntimeError)
  else if negb (w_empty h) && negb append then (h, Err IOError)
  else
    let q := w_path h in
    match prepare h data with
    | (f, Err e) => (mk_handle f q (w_empty h) (w_sorted h) (w_meta h) true (w_out h), Err e)
    | (f, Ok o) =>
      let f1 := if w_empty h then set_attr f q "empty" false else f in
      let f2 := if w_sorted h then set_attr f1 q "sorted" false else f1 in
      match write_each (w_meta h) o (match data with Once d => [d] | Each l => l end) indexed with
      | Err e => (mk_handle f2 q false false (w_meta h) true (Some o), Err e)
      | Ok o' => (mk_handle (put q o' f2) q false false (w_meta h) true (Some o'), Ok tt)
      end
    end.

(** [with h: h.write(data, indexed=indexed); ...]: successive calls of [write], up to the first
    exception. *)
Fixpoint writes (h : handle) (batches : list (input V * bool)) : handle * res unit :=
  match batches with
  | [] => (h, Ok tt)
  | (d, indexed) :: batches' =>
    match write h (Once d) true indexed with
    | (h', Ok _) => writes h' batches'
    | (h', Err e) => (h', Err e)
    end
  end.

End H5ioFile.
