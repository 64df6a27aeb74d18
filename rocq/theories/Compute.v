(** Model of ABXpy/dbfun/dbfun_compute.py: functions of the columns given by a Python script
    (filters and regressors). Python is restricted to the statements and expressions below, on
    values that are not modified in place; calls, operators, attributes and subscripts are
    primitives. *)
From Coq Require Import Ascii String List Bool ZArith.
From Verif Require Import Prelude.
Import ListNotations.
Set Implicit Arguments.
Local Open Scope string_scope.

Section Python.
Variable V : Type.                                    (* Python values *)
Variable mk_list : list V -> V.
Variable items : V -> res (list V).                   (* what a loop over the value goes through *)
Variable truth : V -> res bool.
Variable prim : string -> list V -> res V.            (* calls, operators, ... *)
Variable builtin : string -> option V.
Variable import_ : string -> res V.                   (* the value that an import binds *)
(** From Python 3.12 on, comprehensions of a script are not functions of their own. *)
Variable inlined : bool.

Inductive expr :=
| Const (v : V)
| Name (x : string)
| Prim (op : string) (args : list expr)
| IfExp (c a b : expr)                                (* a if c else b *)
| BoolOp (is_and : bool) (a b : expr)                 (* a and b, a or b *)
| Comp (elt : expr) (targets : list string) (iter : expr) (conds : list expr).
                                                      (* [elt for targets in iter if conds...] *)

Inductive stmt :=
| Import (x module : string)                          (* import module as x; from ... import ... as x *)
| Assign (x : string) (e : expr)
| Expr (e : expr)
| With (body : list stmt).                            (* with ...: body *)

(** A dictionary of names, the last assignment first. *)
Definition names_dict := list (string * V).
Fixpoint assoc (d : names_dict) (x : string) : option V :=
  match d with
  | [] => None
  | (y, v) :: d' => if String.eqb x y then Some v else assoc d' x
  end.

(** Where an expression is evaluated: the local dictionary given to [eval], the variables of the
    comprehensions around it, and whether there are comprehensions around it. The global
    dictionary given to [eval] is empty but for the builtins. *)
Record scope := mk_scope { sc_local : names_dict; sc_comp : names_dict; sc_inside : bool }.

Definition orelse (o : option V) (x : string) : res V :=
  match o with Some v => Ok v | None => match builtin x with Some v => Ok v | None => Err NameError end end.

(** The value of a name: inside a comprehension, which is a function, the local dictionary is
    not looked at. *)
Definition lookup_name (s : scope) (x : string) : res V :=
  match assoc (sc_comp s) x with
  | Some v => Ok v
  | None => if sc_inside s && negb inlined then orelse None x else orelse (assoc (sc_local s) x) x
  end.

(** [for targets in ...]: one target, or as many as the value has items. *)
Definition assign (targets : list string) (v : V) : res names_dict :=
  match targets with
  | [x] => Ok [(x, v)]
  | _ =>
    l <- items v ;;
    if Nat.eqb (List.length l) (List.length targets) then Ok (rev (combine targets l)) else Err ValueError
  end.

Section Lists.
Variable f : expr -> res V.
Fixpoint eval_list (l : list expr) : res (list V) :=
  match l with
  | [] => Ok []
  | e :: l' => v <- f e ;; vs <- eval_list l' ;; Ok (v :: vs)
  end.
Fixpoint eval_conds (l : list expr) : res bool :=
  match l with
  | [] => Ok true
  | e :: l' => v <- f e ;; t <- truth v ;; if t : bool then eval_conds l' else Ok false
  end.
End Lists.

Section Loop.
Variable f : V -> res (list V).
Fixpoint collect (l : list V) : res (list V) :=
  match l with
  | [] => Ok []
  | v :: l' => here <- f v ;; rest <- collect l' ;; Ok (here ++ rest)%list
  end.
End Loop.

(** [eval]. (The items of an iterator are computed before the loop.) *)
Fixpoint eval (e : expr) (s : scope) : res V :=
  match e with
  | Const v => Ok v
  | Name x => lookup_name s x
  | Prim op args => vs <- eval_list (fun a => eval a s) args ;; prim op vs
  | IfExp c a b => v <- eval c s ;; t <- truth v ;; if t : bool then eval a s else eval b s
  | BoolOp is_and a b => v <- eval a s ;; t <- truth v ;; if Bool.eqb t is_and then eval b s else Ok v
  | Comp elt targets iter conds =>
    it <- eval iter s ;;
    l <- items it ;;
    vs <- collect (fun v =>
            d <- assign targets v ;;
            let s' := mk_scope (sc_local s) (d ++ sc_comp s)%list true in
            keep <- eval_conds (fun c => eval c s') conds ;;
            if keep : bool then r <- eval elt s' ;; Ok [r] else Ok []) l ;;
    Ok (mk_list vs)
  end.

(** [exec]: the local dictionary after the statements. *)
Fixpoint exec (l : list stmt) (d : names_dict) : res names_dict :=
  match l with
  | [] => Ok d
  | st :: l' =>
    d' <- match st with
          | Import x m => v <- import_ m ;; Ok ((x, v) :: d)
          | Assign x e => v <- eval e (mk_scope d [] false) ;; Ok ((x, v) :: d)
          | Expr e => _ <- eval e (mk_scope d [] false) ;; Ok d
          | With _ => Err RuntimeError                (* never there: see [parse] *)
          end ;;
    exec l' d'
  end.

(** dbfun_compute.py lines 200-206: [nameVisitor], the names in an expression, read or written. *)
Fixpoint visit (e : expr) : list string :=
  match e with
  | Const _ => []
  | Name x => [x]
  | Prim _ args => flat_map visit args
  | IfExp c a b => visit c ++ visit a ++ visit b
  | BoolOp _ a b => visit a ++ visit b
  | Comp elt targets iter conds => visit elt ++ targets ++ visit iter ++ flat_map visit conds
  end%list.

Definition visit_stmt (st : stmt) : list string :=
  match st with
  | Assign x e => x :: visit e
  | Expr e => visit e
  | Import _ _ | With _ => []
  end.

Definition is_import (st : stmt) : bool := match st with Import _ _ => true | _ => false end.
Definition is_with (st : stmt) : bool := match st with With _ => true | _ => false end.

Record function := mk_function {
  f_imports : list stmt; f_main : list stmt; f_final : expr; f_inputs : list string
}.

(** [list(names.intersection(self.columns))]; [order] is the order of the set. *)
Definition inputs_of (order : list string -> list string) (columns : list string) (names : list string) : list string :=
  order (filter (fun x => existsb (String.eqb x) columns) (nodup string_dec names)).

(** dbfun_compute.py lines 40-125: [parse], from the statements of the script. With Python 3 a
    [with] statement has no attribute [context_expr] (line 135), so that the rest about lookup
    tables is not reached. *)
Definition parse (order : list string -> list string) (columns : list string) (script : list stmt) : res function :=
  let imports := filter is_import script in
  let rest := filter (fun st => negb (is_import st)) script in
  if existsb is_with rest then Err AttributeError
  else
    match rev rest with
    | [] => Err IndexError
    | Expr e :: main => Ok (mk_function imports (rev main) e (inputs_of order columns (flat_map visit_stmt rest)))
    | _ :: _ => Err ValueError
    end.

(** dbfun_compute.py lines 175-195: [evaluate]. The context is copied before (side_operations_manager.py
    lines 429-438), so that what the script binds in it is lost. *)
Definition evaluate (f : function) (context : names_dict) : res V :=
  d <- exec (f_imports f) context ;;
  d <- exec (f_main f) d ;;
  eval (f_final f) (mk_scope d [] false).

(** [definition[-n:] == suffix] when the definition is long enough. *)
Definition ends_with (suffix definition : string) : bool :=
  let n := String.length suffix in
  Nat.leb n (String.length definition)
  && String.eqb (substring (String.length definition - n) n definition) suffix.

(** dbfun_compute.py lines 23-37: the constructor. *)
Variable read : string -> res string.                 (* the text of a file *)
Variable ast_parse : string -> res (list stmt).
Definition DBfun_Compute (order : list string -> list string) (definition : string) (columns : list string)
  : res function :=
  text <- (if ends_with ".py" definition then read definition else Ok definition) ;;
  script <- ast_parse text ;;
  parse order columns script.

(** filter_manager.py lines 28-40 and regressor_manager.py lines 35-45: what a filter or
    regressor given on the command line is. *)
Inductive kind := Column | Table | Computed.
Definition kind_of (extended_cols : list string) (filt : string) : kind :=
  if existsb (String.eqb filt) extended_cols then Column
  else if ends_with ".dbfun" filt then Table
  else Computed.

End Python.
