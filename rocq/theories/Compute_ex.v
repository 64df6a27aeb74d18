(** Concrete scripts for the examples of [Props_Compute]. *)
From Coq Require Import Ascii String List Bool ZArith Permutation.
From Verif Require Import Prelude Compute Compute_spec.
Import ListNotations.
Local Open Scope string_scope.

Inductive pv := PI (z : Z) | PB (b : bool) | PL (l : list pv) | PM (s : string).

Definition pv_items (v : pv) : res (list pv) := match v with PL l => Ok l | _ => Err TypeError end.
Definition pv_truth (v : pv) : res bool :=
  Ok match v with PI z => negb (Z.eqb z 0) | PB b => b | PL l => negb (Nat.eqb (List.length l) 0) | PM _ => true end.
Definition pv_eq (v w : pv) : bool := match v, w with PI a, PI b => Z.eqb a b | _, _ => false end.
Definition pv_prim (op : string) (args : list pv) : res pv :=
  match args with
  | [a; b] =>
    if String.eqb op "==" then Ok (PB (pv_eq a b))
    else if String.eqb op "in" then l <- pv_items b ;; Ok (PB (existsb (pv_eq a) l))
    else if String.eqb op "zip" then
      x <- pv_items a ;; y <- pv_items b ;; Ok (PL (map (fun p => PL [fst p; snd p]) (combine x y)))
    else Err TypeError
  | _ => Err TypeError
  end.
Definition pv_builtin (x : string) : option pv := if String.eqb x "id" then Some (PM "id") else None.
Definition pv_import (m : string) : res pv := Ok (PM m).

Definition run inlined f ctx := evaluate PL pv_items pv_truth pv_prim pv_builtin pv_import inlined f ctx.
Definition meaning script ctx := script_value PL pv_items pv_truth pv_prim pv_import (env_of pv_builtin ctx) script.
Definition ctx1 : list (string * pv) := [("talker_A", PL [PI 1; PI 2; PI 1]); ("talker_B", PL [PI 1; PI 1; PI 3])].
Definition cols1 : list string := ["talker"; "talker_A"; "talker_B"; "talker_X"].
Definition parse1 script := @parse pv (fun l => l) cols1 script.
Definition nm := Name pv.

(** [[a == b for a, b in zip(talker_A, talker_B)]] *)
Definition zip_script : list (stmt pv) :=
  [Expr (Comp (Prim "==" [nm "a"; nm "b"]) ["a"; "b"] (Prim "zip" [nm "talker_A"; nm "talker_B"]) [])].
(** [import math; t = talker_A; [x == 1 for x in t if x in [1, 2]]] *)
Definition long_script : list (stmt pv) :=
  [Import _ "math" "math"; Assign "t" (nm "talker_A");
   Expr (Comp (Prim "==" [nm "x"; Const (PI 1)]) ["x"] (nm "t") [Prim "in" [nm "x"; Const (PL [PI 1; PI 2])]])].
(** [[x in talker_B for x in talker_A]] *)
Definition two_columns : list (stmt pv) :=
  [Expr (Comp (Prim "in" [nm "x"; nm "talker_B"]) ["x"] (nm "talker_A") [])].
(** [id = 1; [x == id for x in talker_A]] *)
Definition shadow : list (stmt pv) :=
  [Assign "id" (Const (PI 1)); Expr (Comp (Prim "==" [nm "x"; nm "id"]) ["x"] (nm "talker_A") [])].
(** [[talker == 1 for talker in talker_A]] *)
Definition same_name : list (stmt pv) :=
  [Expr (Comp (Prim "==" [nm "talker"; Const (PI 1)]) ["talker"] (nm "talker_A") [])].

Definition run1 inlined script ctx := f <- parse1 script ;; run inlined f ctx.

Lemma two_columns_refuted :
  well_formed two_columns /\ run1 false two_columns ctx1 = Err NameError /\ meaning two_columns ctx1 = Ok (PL [PB true; PB false; PB true]).
Proof.
  split; [|split; vm_compute; reflexivity]. eexists [], [], _. split; [reflexivity|]. split; constructor.
Qed.

Lemma shadow_refuted :
  well_formed shadow /\ run1 false shadow ctx1 = Ok (PL [PB false; PB false; PB false]) /\
  meaning shadow ctx1 = Ok (PL [PB true; PB false; PB true]).
Proof.
  split; [|split; vm_compute; reflexivity]. eexists [], [Assign "id" (Const (PI 1))], _. split; [reflexivity|]. split; repeat constructor.
Qed.

Lemma same_name_refuted :
  (f <- parse1 same_name ;; Ok (f_inputs f)) = Ok ["talker"; "talker_A"] /\
  (forall e, In (Expr e) same_name -> free e = ["talker_A"]).
Proof. split; [reflexivity|]. intros e [H|[]]. injection H as <-. reflexivity. Qed.
