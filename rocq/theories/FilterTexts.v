(** Model of the constructors of ABXpy/sideop/filter_manager.py and
    ABXpy/sideop/regressor_manager.py: from the texts given by the user to functions of columns,
    then to the stages of SideOps.v. *)
From Coq Require Import String.
From Coq Require Import List ZArith.
From Verif Require Import Prelude Task Tree SideOps Compute.
Import ListNotations.
Local Open Scope string_scope.
Local Open Scope list_scope.
Set Implicit Arguments.

(** [self.index.index(e)]. *)
Fixpoint index_of (l : list Z) (e : Z) : res Z :=
  match l with
  | [] => Err ValueError
  | x :: l' => if Z.eqb x e then Ok 0%Z else (i <- index_of l' e ;; Ok (1 + i)%Z)
  end.

(** dbfun_column.py lines 15-39 with [indexed=True]; [values] is the column of the item file. The
    values of the item file are numbers here, see Task.v; [sorted] gives the order of the values
    themselves. *)
Definition DBfun_Column_indexed (sorted : list Z -> list Z) (name : string) (values : list Z) : dbfun :=
  let index := sorted (nodup Z.eq_dec values) in
  mk_dbfun [name] (fun ctx =>
    match index with
    | [] => l <- dict_get ctx name ;; Ok (Nested l)
    | _ => l <- dict_get ctx name ;; codes <- mapM (index_of index) l ;; Ok (Nested codes)
    end).

Section Texts.
Variable V : Type.
Variable mk_list : list V -> V.
Variable items : V -> res (list V).
Variable truth : V -> res bool.
Variable prim : string -> list V -> res V.
Variable builtin : string -> option V.
Variable import_ : string -> res V.
Variable inlined : bool.
Variable order : list string -> list string.          (* the order of a set of names *)
Variable read : string -> res string.                 (* the text of a file *)
Variable ast_parse : string -> res (list (stmt V)).
Variable table : string -> res dbfun.                 (* dbfun_lookuptable.py: see LookupTable.v *)
Variable of_column : list Z -> V.                     (* the list of the values of a column *)
Variable to_result : V -> res result.                 (* what the script returns, as the filter reads it *)

(** dbfun_compute.py: the function of a script, given the columns of the context. *)
Definition script_fun (f : function V) : dbfun :=
  mk_dbfun (f_inputs f) (fun ctx =>
    v <- Compute.evaluate mk_list items truth prim builtin import_ inlined f
           (map (fun p => (fst p, of_column (snd p))) ctx) ;;
    to_result v).

(** filter_manager.py lines 28-39: the function of a filter. *)
Definition filter_fun (C : columns) (filt : string) : res dbfun :=
  match kind_of (extended_cols C) filt with
  | Column => Ok (SideOps.DBfun_Column filt)
  | Table => table filt
  | Computed => f <- Compute.DBfun_Compute read ast_parse order filt (extended_cols C) ;; Ok (script_fun f)
  end.

(** filter_manager.py lines 16-40: the constructor. *)
Definition texts_manager (forest : list tree) (on : string) (across by_ : list string) (filters : list string) : res manager :=
  C <- init_columns forest on across by_ ;;
  foldM (fun m filt => f <- filter_fun C filt ;; add false m f) filters (empty_manager C).

Variable sorted : list Z -> list Z.

(** regressor_manager.py lines 35-45: the function of a regressor. *)
Definition regressor_fun (C : columns) (db : list row) (reg : string) : res dbfun :=
  match kind_of (extended_cols C) reg with
  | Column => cs <- parse_extended_column C reg ;; Ok (DBfun_Column_indexed sorted reg (map (fun r => r (fst cs)) db))
  | Table => table reg
  | Computed => f <- Compute.DBfun_Compute read ast_parse order reg (extended_cols C) ;; Ok (script_fun f)
  end.

(** regressor_manager.py lines 21-30. The test that across is ["#across"] alone does not matter: this
    column is in no hierarchy, so that [across_cols] is empty then. *)
Definition default_regressors (C : columns) (on : string) : list string :=
  [(on ++ "_1")%string; (on ++ "_2")%string] ++
  flat_map (fun col => [(col ++ "_1")%string; (col ++ "_2")%string]) (order (nodup string_dec (across_cols C))).

(** regressor_manager.py lines 16-46: the constructor, without the lines about names and indexes
    (Pipeline.v has them). *)
Definition regressor_manager (db : list row) (forest : list tree) (on : string) (across by_ : list string) (regressors : list string)
  : res manager :=
  C <- init_columns forest on across by_ ;;
  foldM (fun m reg => f <- regressor_fun C db reg ;; add true m f)
        (regressors ++ default_regressors C on) (empty_manager C).

End Texts.
