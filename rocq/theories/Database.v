(** Model of the item file: [ABXpy/database/database.py] and of
    [ABXpy/task.py] lines 285-325, which splits it into by blocks. *)

From Coq Require Import ZArith List Bool Arith Lia Ascii String.
From Verif Require Import Prelude Tree Task.
Import ListNotations.
Set Implicit Arguments.
Local Open Scope nat_scope.
Local Open Scope list_scope.

(** A cell of a table; [None] is pandas' null. Texts and numbers are represented by
    integers, only their equality matters. *)
Definition cell := option Z.

Definition isnull (c : cell) : bool := match c with None => true | Some _ => false end.

(** A pandas DataFrame: column names, and lines carrying their label. *)
Record table := mk_table { columns : list string; lines : list (Z * list cell) }.

(** The text of a file once cut at blanks by [pandas.read_csv]: its header and its
    lines, as many cells as names in the header (short lines are completed with nulls by
    pandas, which refuses long ones). *)
Record file := mk_file { header : list string; body : list (list cell) }.

(** database.py lines 11-15: [read_table]. [read_csv] labels the lines 0, 1, ...;
    [dropna(how='all')] drops the lines made of nulls and keeps the other labels. *)
Definition read_table (f : file) : table :=
  mk_table (header f)
    (filter (fun p => negb (forallb isnull (snd p)))
            (combine (map Z.of_nat (seq 0 (List.length (body f)))) (body f))).

(** database.py lines 35-39: positions of the names starting with a sharp, and the names
    without it; [c[0]] refuses an empty name. *)
Fixpoint sharps (i : nat) (cols : list string) : res (list nat * list string) :=
  match cols with
  | [] => Ok ([], [])
  | c :: cols' =>
    match c with
    | EmptyString => Err IndexError
    | String a c' =>
      r <- sharps (S i) cols' ;;
      if Ascii.eqb a "#" then Ok (i :: fst r, c' :: snd r) else Ok (fst r, c :: snd r)
    end
  end.

(** [df[names]]: every column of each name, in the order of the names. *)
Definition positions (names : list string) (cols : list string) : list nat :=
  flat_map (fun n => filter (fun i => String.eqb n (nth i cols EmptyString))
                            (seq 0 (List.length cols))) names.

Definition select (t : table) (names : list string) : table :=
  let ps := positions names (columns t) in
  mk_table (map (fun i => nth i (columns t) EmptyString) ps)
           (map (fun p => (fst p, map (fun i => nth i (snd p) None) ps)) (lines t)).

(** database.py lines 75-99: [load_aux_dbs] for the columns [cols] of the main table.
    [aux col] is the header of the file with extension [col] if there is one; the
    extension item is the main file (line 82). The recursive call of line 89 lacks its
    fourth argument and raises whatever the file contains; a file that cannot be opened is
    skipped (line 97). The main table is thus returned as it is, with a tree without
    children per column. *)
Fixpoint load_aux_dbs (aux : string -> option (list string)) (cols : list string)
  : res (list tree) :=
  match cols with
  | [] => Ok []
  | col :: cols' =>
    t <- (if String.eqb col "item" then Ok (Node col [])
          else match aux col with
               | None => Ok (Node col [])
               | Some h => c <- nth_res h 0 ;;
                           assert! String.eqb col c else AssertionError ;;
                           Err TypeError
               end) ;;
    ts <- load_aux_dbs aux cols' ;;
    Ok (t :: ts)
  end.

(** [df[~ mask]] where the mask is true at the lines with a null. *)
Definition drop_where (mask : list bool) (ls : list (Z * list cell)) : list (Z * list cell) :=
  map snd (filter (fun p => negb (fst p)) (combine mask ls)).

(** database.py lines 18-72: [load] with [features_info]. Writing the dropped lines to a
    file (line 63) is left out. *)
Definition load (f : file) (aux : string -> option (list string))
  : res (table * list tree * table) :=
  let t := read_table f in
  assert! String.eqb (String.concat " " (firstn 3 (columns t))) "#file onset offset"
    else AssertionError ;;
  r <- sharps 0 (columns t) ;;
  let l := fst r in
  let t := mk_table (snd r) (lines t) in
  assert! (0 <? List.length l) && (nth 0 l 1 =? 0) else AssertionError ;;
  assert! List.length l =? 2 else AssertionError ;;
  let feat_db := select t (firstn (nth 1 l 0) (columns t)) in
  let db := select t (skipn (nth 1 l 0) (columns t)) in
  forest <- load_aux_dbs aux (columns db) ;;
  let nanrows := map (fun p => existsb isnull (snd p)) (lines db) in
  let db := if existsb (fun b => b) nanrows
            then mk_table (columns db) (drop_where nanrows (lines db)) else db in
  let feat_db := mk_table (columns feat_db) (drop_where nanrows (lines feat_db)) in
  Ok (db, forest, feat_db).

(** A line of the table as the task sees it: a value per column name. Columns that are not
    in the table have no value; the model gives them -1. *)
Fixpoint to_row (cols : list string) (cells : list cell) : row :=
  fun c =>
    match cols, cells with
    | n :: cols', v :: cells' =>
      if String.eqb c n then match v with Some z => z | None => (-1)%Z end
      else to_row cols' cells' c
    | _, _ => (-1)%Z
    end.

Definition to_frame (t : table) : frame :=
  map (fun p => (fst p, to_row (columns t) (snd p))) (lines t).

(** task.py lines 213-219 on the labelled table: dummy columns; the lines are numbered
    from 0 in [range(len(self.db))] whatever their labels. *)
Definition add_dummies (by_ across : list string) (db : frame) : list string * list string * frame :=
  let db1 := match by_ with
             | [] => map (fun p => (fst p, set_cell (snd p) "#by" 0)) db
             | _ => db
             end in
  let by1 := match by_ with [] => ["#by"%string] | _ => by_ end in
  let db2 := match across with
             | [] => map (fun q => (fst (snd q), set_cell (snd (snd q)) "#across" (fst q)))
                         (combine (map Z.of_nat (seq 0 (List.length db1))) db1)
             | _ => db1
             end in
  let across1 := match across with [] => ["#across"%string] | _ => across end in
  (by1, across1, db2).

(** [df.iloc[l]] for a list of positions. *)
Definition iloc_list (ls : list (Z * list cell)) (pos : list Z) : res (list (list cell)) :=
  mapM (fun i => if (i <? 0)%Z then Err IndexError
                 else p <- nth_res ls (Z.to_nat i) ;; Ok (snd p)) pos.

(** task.py lines 293-321 for one by block: its lines numbered from 0, and the features
    of its items. The labels of the block are used as positions in the feature table
    (line 307). [None] when the by filter drops the block. *)
Definition prepare_block (by_filter : row -> bool) (generic_filter : row -> row -> bool)
    (by_ : list string) (db : frame) (feat_db : table) (k : key)
  : res (option (key * (frame * list (list cell)))) :=
  let by_frame := filter (fun p => key_eqb (proj by_ (snd p)) k) db in
  by_values <- nth_res (map snd by_frame) 0 ;;
  if by_filter by_values
  then by_feat_db <- iloc_list (lines feat_db) (labels by_frame) ;;
       let by_frame := reset_index (map snd by_frame) in
       Ok (Some (k, (filter (fun p => generic_filter by_values (snd p)) by_frame, by_feat_db)))
  else Ok None.

Fixpoint catMaybes (A : Type) (l : list (option A)) : list A :=
  match l with
  | [] => []
  | Some a :: l' => a :: catMaybes l'
  | None :: l' => catMaybes l'
  end.

(** task.py lines 285-325: [_init_prepare_database], preceded by lines 213-219; the order
    of the blocks is pandas'. *)
Definition prepare_database (korder : list key -> list key)
    (by_filter : row -> bool) (generic_filter : row -> row -> bool)
    (by_ across : list string) (db feat_db : table)
  : res (list (key * (frame * list (list cell)))) :=
  let '(by_, _, fr) := add_dummies by_ across (to_frame db) in
  r <- mapM (prepare_block by_filter generic_filter by_ fr feat_db)
            (korder (keys by_ (map snd fr))) ;;
  Ok (catMaybes r).
