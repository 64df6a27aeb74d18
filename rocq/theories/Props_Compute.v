(** Property theorems: filters and regressors given by scripts (C65). *)
From Coq Require Import Ascii String List Bool ZArith Permutation.
From Verif Require Import Prelude Compute Compute_spec Compute_proofs Compute_ex.
Import ListNotations.
Local Open Scope string_scope.

(** C65: a script (imports, then statements, then an expression) computes its value from the
    columns, whenever its comprehensions use only their own variables and builtins, or always
    from Python 3.12 on. *)
Theorem C65_value : forall (V : Type) mk_list items truth prim builtin import_ inlined order columns (script : list (stmt V)) ctx,
  well_formed script -> inlined = true \/ closed_comprehensions ctx script ->
  exists f, parse order columns script = Ok f /\
  evaluate mk_list items truth prim builtin import_ inlined f ctx
  = script_value mk_list items truth prim import_ (env_of builtin ctx) script.
Proof. exact @script_runs. Qed.
Print Assumptions C65_value.

Example C65_value_ex :
  well_formed zip_script /\ closed_comprehensions ctx1 zip_script /\
  run1 false zip_script ctx1 = Ok (PL [PB true; PB false; PB false]) /\
  run1 false long_script ctx1 = Ok (PL [PB true; PB false; PB true]).
Proof.
  split; [eexists [], [], _; split; [reflexivity|split; constructor]|]. split; [|split; vm_compute; reflexivity].
  intros st e x [<-|[]] [= <-] [].
Qed.

(** C65: that it always does is false before Python 3.12: a column that is read inside a
    comprehension is unbound, ... *)
Theorem C65_value_refuted :
  well_formed two_columns /\ run1 false two_columns ctx1 = Err NameError /\
  meaning two_columns ctx1 = Ok (PL [PB true; PB false; PB true]).
Proof. exact two_columns_refuted. Qed.
Print Assumptions C65_value_refuted.

Example C65_value_refuted_ex : run1 true two_columns ctx1 = Ok (PL [PB true; PB false; PB true]).
Proof. vm_compute. reflexivity. Qed.

(** ... as any name that is neither a variable of the comprehension nor a builtin; ... *)
Theorem C65_unbound : forall (V : Type) mk_list items truth prim builtin elt y xs iter (d : list (string * V)) v w l,
  reads_first y elt -> ~ In y xs -> builtin y = None ->
  eval mk_list items truth prim builtin false iter (mk_scope d [] false) = Ok v -> items v = Ok (w :: l) ->
  List.length xs = 1%nat \/ (exists us, items w = Ok us /\ List.length us = List.length xs) ->
  eval mk_list items truth prim builtin false (Comp elt xs iter []) (mk_scope d [] false) = Err NameError.
Proof. exact @captured_raises. Qed.
Print Assumptions C65_unbound.

Example C65_unbound_ex :
  reads_first "math" (Prim "." [nm "math"; nm "x"]) /\
  run1 false [Import _ "math" "math"; Expr (Comp (Prim "." [nm "math"; nm "x"]) ["x"] (nm "talker_A") [])] ctx1 = Err NameError.
Proof. split; [do 2 constructor|]. vm_compute. reflexivity. Qed.

(** ... and a name that the script has assigned is silently taken as the builtin of that name. *)
Theorem C65_builtin_refuted :
  well_formed shadow /\ run1 false shadow ctx1 = Ok (PL [PB false; PB false; PB false]) /\
  meaning shadow ctx1 = Ok (PL [PB true; PB false; PB true]).
Proof. exact shadow_refuted. Qed.
Print Assumptions C65_builtin_refuted.

Example C65_builtin_refuted_ex : pv_builtin "id" = Some (PM "id") /\ pv_builtin "x" = None.
Proof. split; reflexivity. Qed.

(** C65: the inputs are the columns whose name occurs in the script, imports apart, each once, ... *)
Theorem C65_inputs : forall (V : Type) order columns (script : list (stmt V)) f, (forall l, Permutation (order l) l) ->
  parse order columns script = Ok f ->
  NoDup (f_inputs f) /\ forall x, In x (f_inputs f) <-> In x columns /\ occurs_in x script.
Proof. exact @inputs_ok. Qed.
Print Assumptions C65_inputs.

Example C65_inputs_ex :
  (f <- parse1 zip_script ;; Ok (f_inputs f)) = Ok ["talker_A"; "talker_B"] /\
  (f <- parse1 long_script ;; Ok (f_inputs f)) = Ok ["talker_A"].
Proof. split; reflexivity. Qed.

(** ... and the value depends on them only. *)
Theorem C65_depends : forall (V : Type) mk_list items truth prim builtin import_ inlined order columns (script : list (stmt V)) f ctx ctx',
  (forall l, Permutation (order l) l) ->
  parse order columns script = Ok f -> incl (map fst ctx) columns -> incl (map fst ctx') columns ->
  (forall x, In x (f_inputs f) -> env_of (fun _ => None) ctx x = env_of (fun _ => None) ctx' x) ->
  evaluate mk_list items truth prim builtin import_ inlined f ctx = evaluate mk_list items truth prim builtin import_ inlined f ctx'.
Proof. exact @depends. Qed.
Print Assumptions C65_depends.

Example C65_depends_ex :
  let ctx := [("talker_X", PL []); ("talker_A", PL [PI 1; PI 2; PI 1])] in
  incl (map fst ctx) cols1 /\ run1 false long_script ctx = run1 false long_script ctx1.
Proof. split; [|vm_compute; reflexivity]. intros x [<-|[<-|[]]]; cbn; auto. Qed.

(** C65: that the inputs are those whose value is needed is false: a variable of a comprehension
    that has the name of a column makes it an input. *)
Theorem C65_inputs_refuted :
  (f <- parse1 same_name ;; Ok (f_inputs f)) = Ok ["talker"; "talker_A"] /\
  (forall e, In (Expr e) same_name -> free e = ["talker_A"]).
Proof. exact same_name_refuted. Qed.
Print Assumptions C65_inputs_refuted.

Example C65_inputs_refuted_ex : run1 false same_name ctx1 = Ok (PL [PB true; PB false; PB true]).
Proof. vm_compute. reflexivity. Qed.

(** C65: a script without final expression is refused, ... *)
Theorem C65_no_value : forall (V : Type) order columns (l imports : list (stmt V)) x e,
  (forall st, In st l -> is_with st = false) -> Forall import imports ->
  parse order columns (l ++ Assign x e :: imports)%list = Err ValueError.
Proof. exact @no_value_refused. Qed.
Print Assumptions C65_no_value.

Example C65_no_value_ex : parse1 [Expr (nm "x"); Assign "x" (nm "talker_A"); Import _ "m" "m"] = Err ValueError.
Proof. reflexivity. Qed.

(** ... one with imports only too, ... *)
Theorem C65_imports_only : forall (V : Type) order columns (script : list (stmt V)),
  Forall import script -> parse order columns script = Err IndexError.
Proof. exact @empty_refused. Qed.
Print Assumptions C65_imports_only.

Example C65_imports_only_ex : parse1 [Import _ "a" "a"; Import _ "b" "b"] = Err IndexError /\ parse1 [] = Err IndexError.
Proof. split; reflexivity. Qed.

(** ... and with a with statement, by which scripts were to use lookup tables, always. *)
Theorem C65_with_refuted : forall (V : Type) order columns (script : list (stmt V)) body,
  In (With body) script -> parse order columns script = Err AttributeError.
Proof. exact @with_refused. Qed.
Print Assumptions C65_with_refuted.

Example C65_with_refuted_ex : parse1 [Import _ "a" "a"; With [Expr (nm "talker_A")]] = Err AttributeError.
Proof. vm_compute. reflexivity. Qed.

(** C65: a definition that ends by .py is the name of the file of the script, any other is the
    script; ... *)
Theorem C65_file : forall (V : Type) (read : string -> res string) (ast_parse : string -> res (list (stmt V))) order definition columns,
  ((exists p, definition = p ++ ".py") ->
   DBfun_Compute read ast_parse order definition columns
   = (text <- read definition ;; script <- ast_parse text ;; parse order columns script)) /\
  (~ (exists p, definition = p ++ ".py") ->
   DBfun_Compute read ast_parse order definition columns = (script <- ast_parse definition ;; parse order columns script)).
Proof. exact @script_file. Qed.
Print Assumptions C65_file.

Example C65_file_ex :
  let read n := if String.eqb n "f.py" then Ok "talker_A" else Err IOError in
  let ast t := Ok [Expr (nm t)] in
  DBfun_Compute read ast (fun l => l) "f.py" cols1 = parse1 [Expr (nm "talker_A")] /\
  DBfun_Compute read ast (fun l => l) "talker_B" cols1 = parse1 [Expr (nm "talker_B")].
Proof. split; reflexivity. Qed.

(** C65: a filter or regressor is a column, a lookup table or a script, in this order. *)
Theorem C65_kinds : forall extended filt,
  (In filt extended -> kind_of extended filt = Column) /\
  (~ In filt extended -> (exists p, filt = p ++ ".dbfun") -> kind_of extended filt = Table) /\
  (~ In filt extended -> ~ (exists p, filt = p ++ ".dbfun") -> kind_of extended filt = Computed).
Proof. exact kinds. Qed.
Print Assumptions C65_kinds.

Example C65_kinds_ex :
  (kind_of cols1 "talker_A", kind_of cols1 "a.dbfun", kind_of cols1 "[t == 1 for t in talker_A]") = (Column, Table, Computed).
Proof. vm_compute. reflexivity. Qed.
