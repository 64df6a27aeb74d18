(** Properties of the files of the indexed storage H5IO (C72). *)
From Coq Require Import Ascii String.
From Coq Require Import List ZArith Permutation.
From Verif Require Import Prelude TypeFitting H5Names H5io H5io_spec H5io_ex H5ioFile H5ioFile_spec H5ioFile_life H5ioFile_ex.
Import ListNotations.
Local Open Scope string_scope.
Local Open Scope list_scope.
Local Open Scope Z_scope.

(** C72: a group is created in a new file or in a file that has nothing there, without touching the
    rest of the file, and opening it again gives the declarations it was made with. Missing: groups
    with datasets that have no index or that are fused (false of h5py 2, see below), and names of
    indexes with slashes (property C71). *)
Theorem C72_created_partial : forall (V : Type) (plain : V -> bool) texts d indexes H fs group,
  init plain d indexes [] = Ok H -> h_raw H = [] -> NoDup (map fst indexes) ->
  (forall s, In s (map fst indexes) -> simple s /\ ascii_only s) ->
  (match fs with Some f => well_formed f /\ free f (components group) | None => True end) ->
  exists f' H', construct plain texts fs (Some d) indexes [] group = (Some f', Ok (true, false, H')) /\
    same_group H H' /\ well_formed f' /\ elsewhere (components group) (before fs) f' /\
    construct plain texts (Some f') None [] [] group = (Some f', Ok (true, false, H')).
Proof. exact made_files. Qed.
Example C72_created_partial_ex :
  init plain_text (DList reg_list) reg_indexes [] = Ok reg_meta /\ h_raw reg_meta = [] /\ NoDup (map fst reg_indexes) /\
  (forall s, In s (map fst reg_indexes) -> simple s /\ ascii_only s) /\
  construct plain_text false None (Some (DList reg_list)) reg_indexes [] reg_group = (Some reg_file, Ok (true, false, reg_read)) /\
  h_indexes reg_read = [("phone", ["aa"; "ee"; "oo"]); ("talker", ["t2"; "t1"])] /\
  listing reg_file ["regressors"; "t1"] = ["indexed_datasets"; "indexed_datasets_indexes"; "indexes"; "managed_datasets"; "non_fused_datasets"] /\
  get reg_file ["regressors"; "t1"; "indexes"; "phone"] = Some (Dataset (Levels ["aa"; "ee"; "oo"])) /\
  get reg_file ["regressors"; "t1"; "indexed_datasets"] = Some (Dataset (Texts string ["talker"; "phone"])).
Proof.
  split; [reflexivity|]. split; [reflexivity|]. split; [exact reg_nodup|]. split; [exact reg_simple|]. split; [vm_compute; reflexivity|].
  repeat split.
Qed.
Print Assumptions C72_created_partial.

(** C72: what is written in a new group, in several calls, is in its table once the group is closed;
    opening it again gives its declarations and that it is not empty. Missing: as above. *)
Theorem C72_written_partial : forall (V : Type) (veq : forall x y : V, {x = y} + {x <> y}) (plain : V -> bool) texts d indexes H fs group batches o f' H',
  init plain d indexes [] = Ok H -> h_raw H = [] -> NoDup (map fst indexes) ->
  (forall s, In s (map fst indexes) -> simple s /\ ascii_only s) ->
  (match fs with Some f => well_formed f /\ free f (components group) | None => True end) ->
  batches <> [] -> write_all veq H None batches = Ok (Some o) ->
  construct plain texts fs (Some d) indexes [] group = (Some f', Ok (true, false, H')) ->
  exists g t n rows H'',
    writes veq (enter (mk_handle f' (components group) true false H' false None)) batches =
      (mk_handle g (components group) false false H' true (Some o), Ok tt) /\
    o_indexed o = Some (t, rows) /\
    get g (components group ++ ["indexed_data"]) = Some (Dataset (Table V t n rows)) /\
    well_formed g /\ elsewhere (components group) (before fs) g /\
    construct plain texts (Some g) None [] [] group = (Some g, Ok (false, false, H'')) /\ same_group H H''.
Proof. exact written_files. Qed.
Example C72_written_partial_ex : exists o,
  write_all String.string_dec reg_meta None [(InDict reg_b0, true); (InDict reg_b1, true)] = Ok (Some o) /\
  get reg_written ["regressors"; "t1"; "indexed_data"] = Some (Dataset (Table string U8 2 [[0; 1]; [0; 2]; [1; 0]; [1; 2]])) /\
  get reg_written ["regressors"; "t1"; "indexed_cumudims"] = Some (Dataset (Numbers string [1; 2])) /\
  construct plain_text false (Some reg_written) None [] [] reg_group = (Some reg_written, Ok (false, false, reg_read)).
Proof. eexists. split; [vm_compute; reflexivity|]. repeat split. Qed.
Print Assumptions C72_written_partial.

(** C72: a group that was written cannot be completed once it is closed: nothing changes. *)
Theorem C72_closed : forall (V : Type) (veq : forall x y : V, {x = y} + {x <> y}) f q sorted (H : h5io V) data append ix,
  let h := mk_handle f q false sorted H false None in
  write veq (enter h) data append ix = (enter h, Err (if append then ValueError else IOError)).
Proof. exact closed. Qed.
Example C72_closed_ex :
  snd (write String.string_dec (enter (mk_handle reg_written ["regressors"; "t1"] false false reg_read false None)) (Once (InDict reg_b1)) true true)
  = Err ValueError.
Proof. reflexivity. Qed.
Print Assumptions C72_closed.

(** C72: writing is refused outside a [with] statement, and without [append] once something is
    written: nothing changes. *)
Theorem C72_refused : forall (V : Type) (veq : forall x y : V, {x = y} + {x <> y}) (h : handle V) data append ix,
  (w_inside h = false -> write veq h data append ix = (h, Err RuntimeError)) /\
  (w_inside h = true -> w_empty h = false -> write veq h data false ix = (h, Err IOError)).
Proof. exact (fun V veq h data append ix => conj (outside V veq h data append ix) (append_refused V veq h data ix)). Qed.
Example C72_refused_ex :
  let h := mk_handle reg_file ["regressors"; "t1"] true false reg_read false None in
  snd (write String.string_dec h (Once (InDict reg_b1)) true true) = Err RuntimeError /\
  let h' := fst (write String.string_dec (enter h) (Once (InDict reg_b1)) true true) in
  w_inside h' = true /\ w_empty h' = false /\ snd (write String.string_dec h' (Once (InDict reg_b1)) false true) = Err IOError.
Proof. vm_compute. repeat split. Qed.
Print Assumptions C72_refused.

(** C72: without declarations, a file or a group that does not exist is refused with IOError, and
    nothing is created; declarations that are refused leave the file as it is too. *)
Theorem C72_missing : forall (V : Type) (plain : V -> bool) texts fs indexes fused group,
  ((match fs with Some f => get f (components group) = None | None => True end) ->
   construct plain texts fs None indexes fused group = (fs, Err IOError)) /\
  forall d e, check d indexes fused = Err e -> construct plain texts fs (Some d) indexes fused group = (fs, Err e).
Proof.
  exact (fun V plain texts fs indexes fused group =>
    conj (missing V plain texts fs indexes fused group) (fun d e => checked V plain texts fs d indexes fused group e)).
Qed.
Example C72_missing_ex :
  get reg_file (components "/regressors/t2/") = None /\
  construct plain_text false (Some reg_file) None [] [] "/regressors/t2/" = (Some reg_file, Err IOError) /\
  check (DList ["talker"]) reg_indexes [] = Err ValueError.
Proof. repeat split. Qed.
Print Assumptions C72_missing.

(** C72: with h5py 2, no group can be created with a dataset that has no index. *)
Theorem C72_raw : forall (V : Type) (plain : V -> bool) texts d indexes fused H fs group,
  texts = false -> init plain d indexes fused = Ok H -> h_raw H <> [] ->
  (match fs with Some f => well_formed f /\ free f (components group) | None => True end) ->
  exists f', construct plain texts fs (Some d) indexes fused group = (Some f', Err TypeError).
Proof. exact raw_fails. Qed.
Example C72_raw_ex : init plain_text (DList ex_list) ex_indexes ex_fused = Ok ex_group /\ h_raw ex_group = ["time"] /\
  snd (construct plain_text false None (Some (DList ex_list)) ex_indexes ex_fused "/") = Err TypeError.
Proof. repeat split. Qed.
Print Assumptions C72_raw.

(** C72, refuted: "datasets can be declared without index, and indexed datasets can be fused", with
    h5py 2, and, for fused datasets that are written, "the file can be opened again" with any
    h5py. *)
Theorem C72_kinds_refuted :
  init plain_text (DList ["phone"; "talker"]) reg_indexes [("both", ["phone"; "talker"])] <> Err ValueError /\
  snd (construct plain_text false None (Some (DList ["phone"; "talker"])) reg_indexes [("both", ["phone"; "talker"])] "/") = Err TypeError /\
  snd (construct plain_text false None (Some (DList ["phone"; "talker"; "time"])) reg_indexes [] "/") = Err TypeError /\
  let x := construct plain_text true None (Some (DList ["phone"; "talker"])) reg_indexes [("both", ["phone"; "talker"])] "/" in
  let y := writes String.string_dec (enter (mk_handle (file_of x) [] true false (meta_of x) false None)) [(InDict reg_b0, true)] in
  snd y = Ok tt /\
  get (w_file (fst y)) ["both"] = Some (Dataset (Table string U8 1 [[1]; [2]; [3]])) /\
  snd (construct plain_text true (Some (w_file (fst y))) None [] [] "/") = Err KeyError.
Proof. vm_compute. repeat split. discriminate. Qed.
Print Assumptions C72_kinds_refuted.

(** C72, refuted: "a group that exists is not changed when it is created again": it is refused, but
    marked as empty; its data cannot be completed nor written again, and it is said to be empty when
    it is opened. *)
Theorem C72_again_refuted :
  let x := construct plain_text false (Some reg_written) (Some (DList reg_list)) reg_indexes [] reg_group in
  snd x = Err RuntimeError /\ file_of x <> reg_written /\
  let y := construct plain_text false (Some (file_of x)) None [] [] reg_group in
  snd y = Ok (true, false, reg_read) /\
  get (file_of x) ["regressors"; "t1"; "indexed_data"] = get reg_written ["regressors"; "t1"; "indexed_data"] /\
  snd (write String.string_dec (enter (mk_handle (file_of x) ["regressors"; "t1"] true false (meta_of y) false None)) (Once (InDict reg_b0)) true true) = Err IOError.
Proof. vm_compute. repeat split. discriminate. Qed.
Print Assumptions C72_again_refuted.

(** C72: more generally, creating a managed group again always raises RuntimeError and always marks it
    as empty. *)
Theorem C72_again : forall (V : Type) (plain : V -> bool) texts f d indexes group a c o, let q := components group in
  get f q = Some (Group a) -> get f (q ++ ["managed_datasets"]) = Some o -> check d indexes [] = Ok c ->
  get_array plain_text (fst c) = Ok (fst c) ->
  let f' := set_attr (set_attr f q "empty" true) q "sorted" false in
  construct plain texts (Some f) (Some d) indexes [] group = (Some f', Err RuntimeError).
Proof. exact again. Qed.
Example C72_again_ex : exists a o,
  get reg_written ["regressors"; "t1"] = Some (Group a) /\ get reg_written ["regressors"; "t1"; "managed_datasets"] = Some o /\
  check (DList reg_list) reg_indexes [] = Ok (reg_list, [("talker", "talker"); ("phone", "phone")]) /\
  get_array plain_text reg_list = Ok reg_list.
Proof. eexists _, _. repeat split. Qed.
Print Assumptions C72_again.

(** C72, refuted: "a generator can be given with [iterate=True]": for a new group, whatever it
    gives, AttributeError is raised and nothing is written. *)
Theorem C72_iterate_refuted : forall (V : Type) (veq : forall x y : V, {x = y} + {x <> y}) f q sorted (H : h5io V) l append ix,
  let h := enter (mk_handle f q true sorted H false None) in write veq h (Each l) append ix = (h, Err AttributeError).
Proof. exact iterate_fails. Qed.
Example C72_iterate_refuted_ex :
  let h := enter (mk_handle reg_file ["regressors"; "t1"] true false reg_read false None) in
  snd (write String.string_dec h (Each [InDict reg_b0; InDict reg_b1]) true true) = Err AttributeError.
Proof. reflexivity. Qed.
Print Assumptions C72_iterate_refuted.
