(** What a script means, independently of how it is run: one environment, in which the variables
    of a comprehension hide the others. *)
From Coq Require Import Ascii String List Bool ZArith.
From Verif Require Import Prelude Compute.
Import ListNotations.
Set Implicit Arguments.
Local Open Scope string_scope.

Section Meaning.
Variable V : Type.
Variable mk_list : list V -> V.
Variable items : V -> res (list V).
Variable truth : V -> res bool.
Variable prim : string -> list V -> res V.
Variable import_ : string -> res V.

Definition env := string -> option V.
Definition bind1 (E : env) (x : string) (v : V) : env := fun y => if String.eqb y x then Some v else E y.
Fixpoint bind_all (E : env) (xs : list string) (vs : list V) : env :=
  match xs, vs with
  | x :: xs', v :: vs' => bind_all (bind1 E x v) xs' vs'
  | _, _ => E
  end.

(** The environment for one turn of a loop. *)
Definition turn (E : env) (targets : list string) (v : V) : res env :=
  match targets with
  | [x] => Ok (bind1 E x v)
  | _ => l <- items v ;;
         if Nat.eqb (List.length l) (List.length targets) then Ok (bind_all E targets l) else Err ValueError
  end.

Fixpoint value_of (E : env) (e : expr V) : res V :=
  let fix values (l : list (expr V)) : res (list V) :=
    match l with
    | [] => Ok []
    | a :: l' => v <- value_of E a ;; vs <- values l' ;; Ok (v :: vs)
    end in
  match e with
  | Const v => Ok v
  | Name _ x => match E x with Some v => Ok v | None => Err NameError end
  | Prim op args => vs <- values args ;; prim op vs
  | IfExp c a b => v <- value_of E c ;; t <- truth v ;; if t : bool then value_of E a else value_of E b
  | BoolOp true a b => v <- value_of E a ;; t <- truth v ;; if t : bool then value_of E b else Ok v
  | BoolOp false a b => v <- value_of E a ;; t <- truth v ;; if t : bool then Ok v else value_of E b
  | Comp elt targets iter conds =>
    it <- value_of E iter ;;
    l <- items it ;;
    let fix loop (l : list V) : res (list V) :=
      match l with
      | [] => Ok []
      | v :: l' =>
        E' <- turn E targets v ;;
        let fix all (cs : list (expr V)) : res bool :=
          match cs with
          | [] => Ok true
          | c :: cs' => v <- value_of E' c ;; t <- truth v ;; if t : bool then all cs' else Ok false
          end in
        keep <- all conds ;;
        if keep : bool then r <- value_of E' elt ;; vs <- loop l' ;; Ok (r :: vs) else loop l'
      end in
    vs <- loop l ;;
    Ok (mk_list vs)
  end.

(** The value of a script: its statements in order, the last one being the result. *)
Fixpoint script_value (E : env) (script : list (stmt V)) : res V :=
  match script with
  | [] => Err ValueError
  | [Expr e] => value_of E e
  | Import _ x m :: l => v <- import_ m ;; script_value (bind1 E x v) l
  | Assign x e :: l => v <- value_of E e ;; script_value (bind1 E x v) l
  | Expr e :: l => _ <- value_of E e ;; script_value E l
  | With _ :: _ => Err ValueError
  end.

End Meaning.

(** The environment of a dictionary of columns and the builtins. *)
Definition env_of {V} (builtin : string -> option V) (context : list (string * V)) : env V :=
  fun x => match find (fun p => String.eqb x (fst p)) context with Some p => Some (snd p) | None => builtin x end.

(** Names whose value an expression needs from outside. *)
Fixpoint free {V} (e : expr V) : list string :=
  match e with
  | Const _ => []
  | Name _ x => [x]
  | Prim _ args => flat_map free args
  | IfExp c a b => free c ++ free a ++ free b
  | BoolOp _ a b => free a ++ free b
  | Comp elt targets iter conds =>
    free iter ++ filter (fun x => negb (existsb (String.eqb x) targets)) (free elt ++ flat_map free conds)
  end%list.

(** Those that it needs in the element or the conditions of a comprehension. *)
Fixpoint captured {V} (e : expr V) : list string :=
  match e with
  | Const _ => []
  | Name _ x => []
  | Prim _ args => flat_map captured args
  | IfExp c a b => captured c ++ captured a ++ captured b
  | BoolOp _ a b => captured a ++ captured b
  | Comp elt targets iter conds =>
    captured iter ++ filter (fun x => negb (existsb (String.eqb x) targets)) (free elt ++ flat_map free conds)
  end%list.

(** Statements of the scripts considered: imports, assignments, expressions; the imports first,
    an expression at the end. *)
Definition plain {V} (st : stmt V) : Prop := match st with Assign _ _ | Expr _ => True | _ => False end.
Definition import {V} (st : stmt V) : Prop := match st with Import _ _ _ => True | _ => False end.
Definition well_formed {V} (script : list (stmt V)) : Prop :=
  exists imports main e, script = (imports ++ main ++ [Expr e])%list /\ Forall import imports /\ Forall plain main.

Definition expr_of {V} (st : stmt V) : option (expr V) :=
  match st with Assign _ e | Expr e => Some e | _ => None end.
Definition bound_by {V} (st : stmt V) : option string :=
  match st with Assign x _ | Import _ x _ => Some x | _ => None end.

(** A name that a script binds or is given. *)
Definition local_name {V} (context : list (string * V)) (script : list (stmt V)) (x : string) : Prop :=
  In x (map fst context) \/ exists st, In st script /\ bound_by st = Some x.

(** Comprehensions use their own variables and builtins only. *)
Definition closed_comprehensions {V} (context : list (string * V)) (script : list (stmt V)) : Prop :=
  forall st e x, In st script -> expr_of st = Some e -> In x (captured e) -> ~ local_name context script x.

(** A name occurs in an expression. *)
Inductive occurs {V} (x : string) : expr V -> Prop :=
| Occ_name : occurs x (Name V x)
| Occ_prim op args a : In a args -> occurs x a -> occurs x (Prim op args)
| Occ_if1 c a b : occurs x c -> occurs x (IfExp c a b)
| Occ_if2 c a b : occurs x a -> occurs x (IfExp c a b)
| Occ_if3 c a b : occurs x b -> occurs x (IfExp c a b)
| Occ_bool1 w a b : occurs x a -> occurs x (BoolOp w a b)
| Occ_bool2 w a b : occurs x b -> occurs x (BoolOp w a b)
| Occ_elt elt ts it cs : occurs x elt -> occurs x (Comp elt ts it cs)
| Occ_target elt ts it cs : In x ts -> occurs x (Comp elt ts it cs)
| Occ_iter elt ts it cs : occurs x it -> occurs x (Comp elt ts it cs)
| Occ_cond elt ts it cs c : In c cs -> occurs x c -> occurs x (Comp elt ts it cs).

Definition occurs_in {V} (x : string) (script : list (stmt V)) : Prop :=
  exists st, In st script /\
  match st with
  | Assign y e => x = y \/ occurs x e
  | Expr e => occurs x e
  | _ => False
  end.

(** An expression starts by reading a name. *)
Inductive reads_first {V} (y : string) : expr V -> Prop :=
| First_name : reads_first y (Name V y)
| First_prim op a args : reads_first y a -> reads_first y (Prim op (a :: args))
| First_if c a b : reads_first y c -> reads_first y (IfExp c a b)
| First_bool w a b : reads_first y a -> reads_first y (BoolOp w a b)
| First_iter elt ts it cs : reads_first y it -> reads_first y (Comp elt ts it cs).
