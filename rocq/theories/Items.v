(** Model of [ABXpy/misc/items.py] and of [ABXpy/verify.py]. *)

From Coq Require Import List Bool Arith Lia Ascii String.
From Verif Require Import Prelude Text.
Import ListNotations.
Local Open Scope nat_scope.
Local Open Scope list_scope.

(** items.py lines 15-26: the cell [(i, j)] of the file of [generate_testitems]. *)
Definition test_cell (base i j : nat) : string :=
  match i with
  | 0 => if j <? 4 then nth j ["#file"; "onset"; "offset"; "#src"]%string EmptyString
         else ("c" ++ str (j - 4))%string
  | S i' => if j <? 4 then (nth j ["s"; "n"; "f"; "i"]%string EmptyString ++ str i')%string
            else str (i' / base ^ (j - 4) mod base)
  end.

(** items.py lines 39-54: the cell [(i, j)] of the file of [generate_named_testitems]. *)
Definition named_cell (base i j : nat) : string :=
  match i with
  | 0 => if j <? 4 then nth j ["#file"; "onset"; "offset"; "#item"]%string EmptyString
         else ("c" ++ str (j - 4))%string
  | S i' => if j =? 0 then ("s" ++ str i')%string
            else if (j =? 1) || (j =? 2) then "0"%string
            else if j =? 3 then ("i" ++ str i')%string
            else ("c" ++ str (j - 4) ++ "_v" ++ str (i' / base ^ (j - 4) mod base))%string
  end.

(** items.py lines 13, 28-29 and 37, 56-57. *)
Definition cells (fun_ : nat -> nat -> string) (base n repeats : nat) : list (list string) :=
  let dim_i := base ^ n * (repeats + 1) + 1 in
  let dim_j := n + 4 in
  map (fun i => map (fun j => fun_ i j) (seq 0 dim_j)) (seq 0 dim_i).

Definition newline : string := String "010" EmptyString.

(** [np.savetxt(name, res, delimiter=' ', fmt='%s')]: the lines of the file. *)
Definition savetxt (res : list (list string)) : list string :=
  map (fun l => (String.concat " " l ++ newline)%string) res.

Definition generate_testitems (base n repeats : nat) : list string :=
  savetxt (cells (test_cell base) base n repeats).

Definition generate_named_testitems (base n repeats : nat) : list string :=
  savetxt (cells (named_cell base) base n repeats).

(** items.py lines 61-74: the names of the files of [generate_features]; the frames are
    random. *)
Definition generate_features (n_files : nat) : list string :=
  map (fun i => ("s" ++ str i)%string) (seq 0 n_files).

(** items.py lines 77-84: [generate_db_and_feat], the item file and the names of the files
    of the feature file. *)
Definition generate_db_and_feat (base n repeats : nat) : list string * list string :=
  (generate_named_testitems base n repeats, generate_features (base ^ n * (repeats + 1))).

(** items.py lines 102-114: [csv_cmp] on what [pandas.read_csv] makes of the two files,
    once written back as text lines with their columns in order. [list.sort] sorts in
    place and returns [None]; the two [None] are then compared. *)
Definition list_sort (l : list string) : option (list string) := None.

Definition option_eqb (a b : option (list string)) : bool :=
  match a, b with
  | None, None => true
  | Some x, Some y => if list_eq_dec string_dec x y then true else false
  | _, _ => false
  end.

Definition csv_cmp (csv1 csv2 : res (list string)) : res bool :=
  c1 <- csv1 ;;
  c2 <- csv2 ;;
  Ok (option_eqb (list_sort c1) (list_sort c2)).

(** verify.py lines 25-52: [check] on the first line and the other lines of the item file,
    and the names of the files of the feature file. *)
Definition check (first : string) (others : list string) (files : list string) : res unit :=
  let cols := split first in
  assert! 4 <=? List.length cols else AssertionError ;;
  c0 <- nth_res cols 0 ;;
  assert! String.eqb c0 "#file" else AssertionError ;;
  c1 <- nth_res cols 1 ;;
  assert! String.eqb c1 "onset" else AssertionError ;;
  c2 <- nth_res cols 2 ;;
  assert! String.eqb c2 "offset" else AssertionError ;;
  c3 <- nth_res cols 3 ;;
  a <- nth_res (list_ascii_of_string c3) 0 ;;
  assert! Ascii.eqb a "#" else AssertionError ;;
  foldM (fun _ line => assert! existsb (String.eqb (before " " line)) files else AssertionError ;;
                       Ok tt) others tt.
