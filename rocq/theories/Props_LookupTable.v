(** Properties of lookup tables (C49). *)
From Coq Require Import Ascii String.
From Coq Require Import List ZArith.
From Verif Require Import Prelude LookupTable LookupTable_spec LookupTable_main LookupTable_ex.
Import ListNotations.
Local Open Scope string_scope.
Local Open Scope list_scope.
Local Open Scope Z_scope.

(** C49: a table that is filled in any number of batches, then packed, answers queries for
    inputs it holds with the outputs of an entry stored for these inputs, in the order of the
    queries. Missing: tables can neither be created nor filled with Python 3, see below. *)
Theorem C49_answers_partial : forall (V C : Type) (veq : forall x y : V, {x = y} + {x <> y}) (c0 : C) (as_int : C -> Z) argsort,
  argsort_spec argsort -> forall t ws, new_table t -> length (t_out_names t) = length ws ->
  forall b batches, batch_ok as_int t ws b -> Forall (batch_ok as_int t ws) batches -> snd b <> [] ->
  forall t1 t2, fill_all veq c0 as_int t (map (@arguments V C) (b :: batches)) = (t1, None) -> pack argsort t1 = (t2, None) ->
  forall ctx qs, holds_inputs t ctx qs -> qs <> [] ->
  (forall q, In q qs -> exists e, In e (flat_map (@snd _ _) (b :: batches)) /\ e_in e = q) ->
  exists es l, evaluate veq t2 ctx = Ok l /\
    Forall2 (fun q e => In e (flat_map (@snd _ _) (b :: batches)) /\ e_in e = q) qs es /\
    length l = length (t_out_names t) /\
    forall i o a, nth_error (t_out_names t) i = Some o -> nth_error l i = Some a -> answers as_int t i o es a.
Proof. exact (fun V C veq c0 as_int argsort S t ws N L b bs B Bs Ne t1 t2 F P ctx qs => lookup_answers V C veq c0 as_int argsort S t N ws L b bs B Bs Ne t1 t2 F P ctx qs). Qed.
Example C49_answers_partial_ex :
  new_table (ex_t true) /\ batch_ok id_int (ex_t true) ex_ws ex_b0 /\ batch_ok id_int (ex_t true) ex_ws ex_b1 /\
  holds_inputs (ex_t true) ex_q [["o"; "s1"]; ["e"; "s2"]; ["o"; "s1"]] /\
  evaluate string_dec (ex_packed true) ex_q = Ok [ACells _ [[5; 6]; [7; 8]; [5; 6]]; APositions _ _ [[1]; [2]; [1]]] /\
  evaluate string_dec (ex_packed false) ex_q = Ok [ACells _ [[5; 6]; [7; 8]; [5; 6]]; ALabels _ [["y"]; ["z"]; ["y"]]].
Proof.
  split; [exact (ex_new true)|]. split; [exact (ex_batch0 true)|]. split; [exact (ex_batch1 true)|]. split; [exact (ex_q_holds true)|].
  split; vm_compute; reflexivity.
Qed.
Print Assumptions C49_answers_partial.

(** C49: filling such a table and packing it raise nothing. *)
Theorem C49_fills_partial : forall (V C : Type) (veq : forall x y : V, {x = y} + {x <> y}) (c0 : C) (as_int : C -> Z) argsort,
  argsort_spec argsort -> forall t ws, new_table t -> length (t_out_names t) = length ws ->
  forall b batches, batch_ok as_int t ws b -> Forall (batch_ok as_int t ws) batches -> snd b <> [] ->
  exists t1 t2, fill_all veq c0 as_int t (map (@arguments V C) (b :: batches)) = (t1, None) /\ pack argsort t1 = (t2, None).
Proof. exact (fun V C veq c0 as_int argsort S t ws N L b bs B Bs Ne => fills_succeed V C veq c0 as_int argsort S t N ws b bs B Bs Ne). Qed.
Example C49_fills_partial_ex :
  snd (fill_all string_dec 0 id_int (ex_t true) (map (@arguments _ _) [ex_b0; ex_b1])) = None /\
  t_keys (ex_filled true) = [4; 0; 2] /\ snd (pack argsort_ins (ex_filled true)) = None /\ t_keys (ex_packed true) = [0; 2; 4].
Proof. repeat split; vm_compute; reflexivity. Qed.
Print Assumptions C49_fills_partial.

(** C49: with [iterate] the batches give the same table. *)
Theorem C49_iterate_partial : forall (V C : Type) (veq : forall x y : V, {x = y} + {x <> y}) (c0 : C) (as_int : C -> Z) t ws,
  new_table t -> forall b batches, batch_ok as_int t ws b -> Forall (batch_ok as_int t ws) batches -> snd b <> [] ->
  forall append, fill_iterate veq c0 as_int true t (map (@arguments V C) (b :: batches)) append
  = fill_all veq c0 as_int t (map (@arguments V C) (b :: batches)).
Proof. exact (fun V C veq c0 as_int t ws N b bs B Bs Ne append => iterate_same V C veq c0 as_int t N ws b bs B Bs Ne append). Qed.
Example C49_iterate_partial_ex :
  batch_ok id_int (ex_t true) ex_ws ex_b0 /\ batch_ok id_int (ex_t true) ex_ws ex_b1 /\
  fill_iterate string_dec 0 id_int true (ex_t true) (map (@arguments _ _) [ex_b0; ex_b1]) false = (ex_filled true, None).
Proof. split; [exact (ex_batch0 true)|]. split; [exact (ex_batch1 true)|]. vm_compute. reflexivity. Qed.
Print Assumptions C49_iterate_partial.

(** C49: a query with a label that the synopsis does not know raises ValueError. *)
Theorem C49_unknown_partial : forall (V C : Type) (veq : forall x y : V, {x = y} + {x <> y}) (c0 : C) (as_int : C -> Z) argsort,
  argsort_spec argsort -> forall t ws, new_table t -> length (t_out_names t) = length ws ->
  forall b batches, batch_ok as_int t ws b -> Forall (batch_ok as_int t ws) batches -> snd b <> [] ->
  forall t1 t2, fill_all veq c0 as_int t (map (@arguments V C) (b :: batches)) = (t1, None) -> pack argsort t1 = (t2, None) ->
  forall ctx qs q, holds_inputs t ctx qs -> In q qs -> ~ known t q -> evaluate veq t2 ctx = Err ValueError.
Proof. exact (fun V C veq c0 as_int argsort S t ws N L b bs B Bs Ne t1 t2 F P ctx qs q => lookup_unknown V C veq c0 as_int argsort S t N ws b bs B Bs Ne t1 t2 F P ctx qs q). Qed.
Example C49_unknown_partial_ex :
  holds_inputs (ex_t true) (ex_one "u" "s1") [["u"; "s1"]] /\ evaluate string_dec (ex_packed true) (ex_one "u" "s1") = Err ValueError.
Proof. split; [exact (ex_one_holds true "u" "s1")|vm_compute; reflexivity]. Qed.
Print Assumptions C49_unknown_partial.

(** C49: a query for inputs that come after all the entries raises IndexError; otherwise a query
    for inputs that are not stored raises RuntimeError. *)
Theorem C49_after_partial : forall (V C : Type) (veq : forall x y : V, {x = y} + {x <> y}) (c0 : C) (as_int : C -> Z) argsort,
  argsort_spec argsort -> forall t ws, new_table t -> length (t_out_names t) = length ws ->
  forall b batches, batch_ok as_int t ws b -> Forall (batch_ok as_int t ws) batches -> snd b <> [] ->
  forall t1 t2, fill_all veq c0 as_int t (map (@arguments V C) (b :: batches)) = (t1, None) -> pack argsort t1 = (t2, None) ->
  forall ctx qs q, holds_inputs t ctx qs -> Forall (known t) qs -> In q qs ->
  after_all t (flat_map (@snd _ _) (b :: batches)) q -> evaluate veq t2 ctx = Err IndexError.
Proof. exact (fun V C veq c0 as_int argsort S t ws N L b bs B Bs Ne t1 t2 F P ctx qs q => lookup_after V C veq c0 as_int argsort S t N ws b bs B Bs Ne t1 t2 F P ctx qs q). Qed.
Example C49_after_partial_ex :
  known (ex_t true) ["o"; "s2"] /\ after_all (ex_t true) [ex_e1; ex_e2; ex_e3] ["o"; "s2"] /\
  evaluate string_dec (ex_packed true) (ex_one "o" "s2") = Err IndexError.
Proof. split; [apply ex_known; cbn; auto|]. split; [exact (ex_after true)|vm_compute; reflexivity]. Qed.
Print Assumptions C49_after_partial.

Theorem C49_missing_partial : forall (V C : Type) (veq : forall x y : V, {x = y} + {x <> y}) (c0 : C) (as_int : C -> Z) argsort,
  argsort_spec argsort -> forall t ws, new_table t -> length (t_out_names t) = length ws ->
  forall b batches, batch_ok as_int t ws b -> Forall (batch_ok as_int t ws) batches -> snd b <> [] ->
  forall t1 t2, fill_all veq c0 as_int t (map (@arguments V C) (b :: batches)) = (t1, None) -> pack argsort t1 = (t2, None) ->
  forall ctx qs q, holds_inputs t ctx qs -> Forall (known t) qs ->
  (forall q', In q' qs -> ~ after_all t (flat_map (@snd _ _) (b :: batches)) q') -> In q qs ->
  (forall e, In e (flat_map (@snd _ _) (b :: batches)) -> e_in e <> q) -> evaluate veq t2 ctx = Err RuntimeError.
Proof. exact (fun V C veq c0 as_int argsort S t ws N L b bs B Bs Ne t1 t2 F P ctx qs q => lookup_missing V C veq c0 as_int argsort S t N ws L b bs B Bs Ne t1 t2 F P ctx qs q). Qed.
Example C49_missing_partial_ex :
  known (ex_t true) ["e"; "s1"] /\ ~ after_all (ex_t true) [ex_e1; ex_e2; ex_e3] ["e"; "s1"] /\
  evaluate string_dec (ex_packed true) (ex_one "e" "s1") = Err RuntimeError.
Proof. split; [apply ex_known; cbn; auto|]. split; [exact (ex_not_after true)|vm_compute; reflexivity]. Qed.
Print Assumptions C49_missing_partial.

(** C49: a table that has not been packed since it was filled refuses queries, and a packed
    table refuses to be filled again without append. *)
Theorem C49_unpacked_partial : forall (V C : Type) (veq : forall x y : V, {x = y} + {x <> y}) (c0 : C) (as_int : C -> Z) t ws,
  new_table t -> forall b batches, batch_ok as_int t ws b -> Forall (batch_ok as_int t ws) batches -> snd b <> [] ->
  forall t1, fill_all veq c0 as_int t (map (@arguments V C) (b :: batches)) = (t1, None) ->
  forall ctx, evaluate veq t1 ctx = Err IOError.
Proof. exact (fun V C veq c0 as_int t ws N b bs B Bs Ne t1 F ctx => lookup_unpacked V C veq c0 as_int t N ws b bs B Bs Ne t1 F ctx). Qed.
Example C49_unpacked_partial_ex : evaluate string_dec (ex_filled true) ex_q = Err IOError.
Proof. vm_compute. reflexivity. Qed.
Print Assumptions C49_unpacked_partial.

Theorem C49_refill_partial : forall (V C : Type) (veq : forall x y : V, {x = y} + {x <> y}) (c0 : C) (as_int : C -> Z) argsort,
  argsort_spec argsort -> forall t ws, new_table t -> length (t_out_names t) = length ws ->
  forall b batches, batch_ok as_int t ws b -> Forall (batch_ok as_int t ws) batches -> snd b <> [] ->
  forall t1 t2, fill_all veq c0 as_int t (map (@arguments V C) (b :: batches)) = (t1, None) -> pack argsort t1 = (t2, None) ->
  forall ins outs, fill veq c0 as_int true t2 ins outs false = (t2, Some IOError).
Proof. exact (fun V C veq c0 as_int argsort S t ws N L b bs B Bs Ne t1 t2 F P ins outs => lookup_refill V C veq c0 as_int argsort S t N ws b bs B Bs Ne t1 t2 F P ins outs). Qed.
Example C49_refill_partial_ex :
  fill string_dec 0 id_int true (ex_packed true) (fst (fst ex_b1)) (OutCols (snd (fst ex_b1))) false = (ex_packed true, Some IOError).
Proof. vm_compute. reflexivity. Qed.
Print Assumptions C49_refill_partial.

(** C49: entries are refused when the first output, not indexed, has neither one row nor as many
    rows as the inputs, or neither one column nor as many as the entries stored. *)
Theorem C49_misfit_partial : forall (V C : Type) (veq : forall x y : V, {x = y} + {x <> y}) (c0 : C) (as_int : C -> Z) t,
  new_table t -> forall ws b batches, batch_ok as_int t ws b -> Forall (batch_ok as_int t ws) batches -> snd b <> [] ->
  forall t1 o names ins qs w m l, fill_all veq c0 as_int t (map (@arguments V C) (b :: batches)) = (t1, None) ->
  t_out_names t = o :: names -> ~ In o (t_iouts t) -> holds_inputs t ins qs -> Forall (known t) qs ->
  (length m <> length qs /\ length m <> 1%nat) \/ (w <> nth 0 ws 0%nat /\ w <> 1%nat) ->
  exists t', fill veq c0 as_int true t1 ins (OutCols (Mat w m :: l)) true = (t', Some TypeError).
Proof. exact misfit_rejected. Qed.
Example C49_misfit_partial_ex :
  holds_inputs (ex_t true) (ex_one "a" "s1") [["a"; "s1"]] /\ known (ex_t true) ["a"; "s1"] /\
  snd (fill string_dec 0 id_int true (ex_filled true) (ex_one "a" "s1") (OutCols [Mat 2 []; Mat 1 [[1]]]) true) = Some TypeError /\
  snd (fill string_dec 0 id_int true (ex_filled true) (ex_one "a" "s1") (OutCols [Mat 3 [[1; 2; 3]]; Mat 1 [[1]]]) true) = Some TypeError.
Proof.
  split; [apply ex_one_holds|]. split; [|split; vm_compute; reflexivity].
  intros i ty ix l A B D. destruct i as [|[|i]]; [| |destruct i; discriminate]; injection A as <-;
    destruct B as [B|[B|[B|[]]]]; try discriminate; injection B as <-; injection D as <-; cbn; auto.
Qed.
Print Assumptions C49_misfit_partial.

(** C49: the specifications of the outputs are those of the synopsis. *)
Theorem C49_specs_partial : forall (V C : Type) (veq : forall x y : V, {x = y} + {x <> y}) (c0 : C) (as_int : C -> Z) argsort,
  argsort_spec argsort -> forall t ws, new_table t -> length (t_out_names t) = length ws ->
  forall b batches, batch_ok as_int t ws b -> Forall (batch_ok as_int t ws) batches -> snd b <> [] ->
  forall t1 t2, fill_all veq c0 as_int t (map (@arguments V C) (b :: batches)) = (t1, None) -> pack argsort t1 = (t2, None) ->
  exists indexes, output_specs t2 = Ok (length (t_out_names t), t_out_names t, indexes) /\
    (t_indexed t = true -> map fst indexes = t_iouts t /\ forall o ix, In (o, ix) indexes -> In (o, ix) (t_indexes t)) /\
    (t_indexed t = false -> indexes = []).
Proof. exact (fun V C veq c0 as_int argsort S t ws N L b bs B Bs Ne t1 t2 F P => lookup_specs V C veq c0 as_int argsort S t N ws b bs B Bs Ne t1 t2 F P). Qed.
Example C49_specs_partial_ex :
  output_specs (ex_packed true) = Ok (2%nat, ["dist"; "label"], [("label", ["x"; "y"; "z"])]) /\
  output_specs (ex_packed false) = Ok (2%nat, ["dist"; "label"], []).
Proof. split; vm_compute; reflexivity. Qed.
Print Assumptions C49_specs_partial.

(** C49 does not hold of new tables: a table whose file does not exist is never created, with
    Python 2 or 3, whatever the database and the synopsis. *)
Theorem C49_creation_refuted : forall (V C : Type) py2 columns in_types (t : table V C),
  construct py2 None columns in_types <> Ok t.
Proof. exact no_creation. Qed.
Example C49_creation_refuted_ex :
  @construct string Z true None [("phone", 3); ("talker", 2)] (Some ["phone"; "talker"]) = Err TypeError /\
  @construct string Z false None [("phone", 3); ("talker", 2)] (Some ["phone"; "talker"]) = Err NameError.
Proof. split; vm_compute; reflexivity. Qed.
Print Assumptions C49_creation_refuted.

(** ... what is raised tells what is wrong first: with Python 2, no synopsis, a type of the
    synopsis that the database does not have, a type without any value, or more than 2^64
    combinations of inputs; a table that has nothing wrong raises TypeError. *)
Theorem C49_creation_raises : forall (V C : Type) (columns : list (string * Z)) in_types, NoDup (map fst columns) ->
  (@construct V C false None columns in_types = Err NameError) /\
  (@construct V C true None columns None = Err TypeError) /\
  (forall tys, in_types = Some tys ->
    ((exists ty, In ty tys /\ ~ In ty (map fst columns)) -> @construct V C true None columns in_types = Err ValueError) /\
    (forall levels, Forall2 (fun ty n => In (ty, n) columns) tys levels ->
      (In 0 levels -> @construct V C true None columns in_types = Err IndexError) /\
      (~ In 0 levels -> 2 ^ 64 < prodZ levels -> @construct V C true None columns in_types = Err ValueError) /\
      (~ In 0 levels -> prodZ levels <= 2 ^ 64 -> @construct V C true None columns in_types = Err TypeError))).
Proof. exact creation_raises. Qed.
Example C49_creation_raises_ex :
  Forall2 (fun ty n => In (ty, n) [("phone", 2 ^ 40); ("talker", 2 ^ 24)]) ["talker"; "phone"] [2 ^ 24; 2 ^ 40] /\
  @construct string Z true None [("phone", 2 ^ 40); ("talker", 2 ^ 24)] (Some ["talker"; "phone"]) = Err TypeError /\
  @construct string Z true None [("phone", 2 ^ 40); ("talker", 2 ^ 24 + 1)] (Some ["talker"; "phone"]) = Err ValueError.
Proof.
  split; [constructor; [right; left; reflexivity|constructor; [left; reflexivity|constructor]]|].
  split; vm_compute; reflexivity.
Qed.
Print Assumptions C49_creation_raises.

(** C49 does not hold with Python 3: a table without data, however it was created, cannot be
    filled. *)
Theorem C49_python3_refuted : forall (V C : Type) (veq : forall x y : V, {x = y} + {x <> y}) (c0 : C) (as_int : C -> Z) (t : table V C) ins l append,
  t_empty t = true -> l <> [] -> fill veq c0 as_int false t ins (OutCols l) append = (t, Some NameError).
Proof. exact no_fill3. Qed.
Example C49_python3_refuted_ex :
  fill string_dec 0 id_int false (ex_t true) (fst (fst ex_b1)) (OutCols (snd (fst ex_b1))) false = (ex_t true, Some NameError).
Proof. vm_compute. reflexivity. Qed.
Print Assumptions C49_python3_refuted.

(** C49 does not hold after a call of fill that raises: the keys of its inputs stay in the
    table and, once more entries are added, these inputs are answered with zeros. Here the
    outputs were given by name. *)
Theorem C49_failed_fill_refuted : exists (t : table string Z) b failed b', new_table t /\
  batch_ok id_int t ex_ws b /\ batch_ok id_int t ex_ws b' /\
  let t1 := fst (fill string_dec 0 id_int true t (fst (fst b)) (OutCols (snd (fst b))) false) in
  let o2 := fill string_dec 0 id_int true t1 (ex_one "a" "s2") failed true in
  let t3 := fst (fill string_dec 0 id_int true (fst o2) (fst (fst b')) (OutCols (snd (fst b'))) true) in
  snd o2 = Some AttributeError /\
  evaluate string_dec (fst (pack argsort_ins t3)) (ex_one "a" "s2") = Ok [ACells _ [[0; 0]]; APositions _ _ [[0]]].
Proof. exact failed_fill. Qed.
Example C49_failed_fill_refuted_ex : known (ex_t true) ["a"; "s2"].
Proof. apply ex_known; cbn; auto. Qed.
Print Assumptions C49_failed_fill_refuted.
