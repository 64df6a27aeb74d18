(** Model of the names and indexes of the regressors of a task (ABXpy/sideop/regressor_manager.py,
    [get_regressor_info]), with which the groups of the task file are declared (TaskGroups.v). *)
From Coq Require Import String.
From Coq Require Import List.
Import ListNotations.
Local Open Scope string_scope.
Local Open Scope list_scope.
Set Implicit Arguments.

Section Info.
Variable L : Type.
(** [str] of a number. *)
Variable str : nat -> string.

(** What [output_specs] of a function returns: the number of its outputs, their names if it has some,
    and their indexes. *)
Record specs := mk_specs { sp_number : nat; sp_names : option (list string); sp_indexes : list (string * list L) }.

(** dbfun_column.py lines 25-30, with the values found at lines 16-19. *)
Definition column_specs (name : string) (index : list L) : specs :=
  mk_specs 1 (Some [name]) (match index with [] => [] | _ => [(name, index)] end).

(** dbfun_compute.py lines 36-37 and 170-171. *)
Definition script_specs : specs := mk_specs 1 None [].

(** [indexes[key] = index]: a dictionary keeps the order in which its keys came. *)
Fixpoint store (d : list (string * list L)) (key : string) (index : list L) : list (string * list L) :=
  match d with
  | [] => [(key, index)]
  | (k, i) :: d' => if String.eqb key k then (k, index) :: d' else (k, i) :: store d' key index
  end.

(** regressor_manager.py lines 117-127: [fetch_regressor_info], for the functions of one stage. *)
Fixpoint fetch_regressor_info (funs : list specs) (reg_id : nat) : list (list string) * list (list (string * list L)) * nat :=
  match funs with
  | [] => ([], [], reg_id)
  | f :: funs' =>
    let '(o_names, reg_id') :=
      match sp_names f with
      | None => (map (fun n => ("reg_" ++ str (reg_id + n))%string) (seq 0 (sp_number f)), reg_id + sp_number f)
      | Some l => (l, reg_id)
      end in
    let '(names, indexes, last) := fetch_regressor_info funs' reg_id' in
    (o_names :: names, sp_indexes f :: indexes, last)
  end.

(** Lines 98-115: [get_regressor_info]; the stages are by, on_across_by, A, B, X, ABX in this order. *)
Fixpoint fetch_all (stages : list (list specs)) (reg_id : nat) : list (list (list string) * list (list (string * list L))) :=
  match stages with
  | [] => []
  | funs :: stages' =>
    let '(names, indexes, reg_id') := fetch_regressor_info funs reg_id in (names, indexes) :: fetch_all stages' reg_id'
  end.

Definition get_regressor_info (by_ on_across_by a b x abx : list specs) : list string * list (string * list L) :=
  fold_left (fun acc (st : list (list string) * list (list (string * list L))) =>
      (fst acc ++ concat (fst st),
       fold_left (fun d dictionary => fold_left (fun d (ki : string * list L) => store d (fst ki) (snd ki)) dictionary d) (snd st) (snd acc)))
    (fetch_all [by_; on_across_by; a; b; x; abx] 0) ([], []).

End Info.
