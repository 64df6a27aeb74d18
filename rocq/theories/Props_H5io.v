(** Properties of the indexed storage H5IO (C48). *)
From Coq Require Import Ascii String.
From Coq Require Import List ZArith.
From Verif Require Import Prelude H5io H5io_spec H5io_use H5io_reject H5io_ex.
Import ListNotations.
Local Open Scope string_scope.
Local Open Scope list_scope.
Local Open Scope Z_scope.

(** C48: labels written in any number of batches are found again by looking up the stored
    numbers in the index of their column; two rows of a fused dataset have the same key if
    and only if they have the same labels. Missing: fused datasets with more than 2^64
    combinations (false then, see below). *)
Theorem C48_labels_partial : forall (V : Type) (veq : forall x y : V, {x = y} + {x <> y}) (H : h5io V) batches,
  declared_ok H -> batches <> [] -> Forall (fun dn => labels_batch H (fst dn) (snd dn)) batches ->
  exists o, write_all veq H None (map (fun dn => (InDict (fst dn), false)) batches) = Ok (Some o) /\
  (forall j s index, nth_error (h_non_fused H) j = Some s -> index_for H s index ->
     exists t rows, o_indexed o = Some (t, rows) /\
       Forall2 (fun row label => exists i, nth_error row j = Some i /\ 0 <= i /\ nth_error index (Z.to_nat i) = Some label)
         rows (labels_given s (map fst batches))) /\
  (forall f members levels, In (f, members) (h_fused H) -> In (f, levels) (h_nb_levels H) -> prodZ levels <= 2 ^ 64 ->
     exists fo, In (f, fo) (o_fused o) /\ length (f_keys fo) = sumn (map snd batches) /\
       forall k k', (k < length (f_keys fo))%nat -> (k' < length (f_keys fo))%nat ->
         (nth_error (f_keys fo) k = nth_error (f_keys fo) k' <->
          forall s, In s members -> nth_error (labels_given s (map fst batches)) k = nth_error (labels_given s (map fst batches)) k')).
Proof. exact (fun V veq H batches D N B => write_labels V veq H D batches N B). Qed.
Example C48_labels_partial_ex :
  declared_ok ex_group /\ Forall (fun dn => labels_batch ex_group (fst dn) (snd dn)) [(ex_b0, 3%nat); (ex_b1, 1%nat)] /\
  h_non_fused ex_group = ["phone"; "talker"] /\ h_nb_levels ex_group = [("context", [2; 3])] /\
  exists o fo, write_all String.string_dec ex_group None [(InDict ex_b0, false); (InDict ex_b1, false)] = Ok (Some o) /\
    option_map snd (o_indexed o) = Some [[1; 1]; [2; 1]; [0; 0]; [2; 1]] /\
    o_fused o = [("context", fo)] /\ f_keys fo = [5; 4; 5; 4].
Proof.
  split; [exact ex_declared|]. split; [exact ex_batches|]. split; [reflexivity|]. split; [reflexivity|].
  eexists _, _. split; [vm_compute; reflexivity|]. split; [reflexivity|]. split; reflexivity.
Qed.
Print Assumptions C48_labels_partial.

(** C48: positions written in any number of batches, with several columns for each dataset, are
    stored unchanged, side by side in the order of the declared datasets; so are the datasets
    that have no index; keys of fused datasets are injective up to 2^64 combinations. *)
Theorem C48_positions_partial : forall (V : Type) (veq : forall x y : V, {x = y} + {x <> y}) (H : h5io V) w batches,
  declared_ok H -> batches <> [] -> NoDup (h_managed H) -> Forall (fun ln => positions_batch H w (fst ln) (snd ln)) batches ->
  exists o, write_all veq H None (map (fun ln => (InList (fst ln), true)) batches) = Ok (Some o) /\
  (forall s, In s (h_raw H) -> In (s, rows_given H s (map fst batches)) (o_raw o)) /\
  (h_non_fused H <> [] -> exists t, o_indexed o =
     Some (t, map (fun k => concat (map (fun s => nth k (rows_given H s (map fst batches)) []) (h_non_fused H)))
                  (seq 0 (sumn (map snd batches))))) /\
  (forall f members levels, In (f, members) (h_fused H) -> In (f, levels) (h_nb_levels H) ->
     combinations w members levels <= 2 ^ 64 ->
     exists fo, In (f, fo) (o_fused o) /\ length (f_keys fo) = sumn (map snd batches) /\
       forall k k', (k < length (f_keys fo))%nat -> (k' < length (f_keys fo))%nat ->
         (nth k (f_keys fo) 0 = nth k' (f_keys fo) 0 <->
          forall s, In s members -> nth k (rows_given H s (map fst batches)) [] = nth k' (rows_given H s (map fst batches)) [])).
Proof. exact (fun V veq H w batches D N M B => write_positions V veq H D w batches N M B). Qed.
Example C48_positions_partial_ex :
  declared_ok pos_group /\ NoDup (h_managed pos_group) /\
  Forall (fun ln => positions_batch pos_group pos_w (fst ln) (snd ln)) [(pos_b0, 2%nat); (pos_b1, 1%nat)] /\
  exists o, write_all String.string_dec pos_group None [(InList pos_b0, true); (InList pos_b1, true)] = Ok (Some o) /\
    o_raw o = [("length", [[70]; [-9]; [5]])] /\ option_map snd (o_indexed o) = Some [[0; 1; 1]; [2; 1; 0]; [2; 2; 1]].
Proof.
  split; [apply pos_declared|]. split; [apply pos_declared|]. split; [exact pos_batches|].
  eexists. split; [vm_compute; reflexivity|]. split; reflexivity.
Qed.
Print Assumptions C48_positions_partial.

(** C48: a list of datasets, with indexes for some of them, makes such a group. *)
Theorem C48_declared_list : forall (V : Type) (plain : V -> bool) l (indexes : list (string * list V)) fused,
  indexes_ok indexes fused -> l <> [] ->
  (forall s, In s l -> ascii_only s) -> labels_plain plain indexes ->
  incl (map fst indexes) l -> incl (flat_map snd fused) (map fst indexes) ->
  exists H, init plain (DList l) indexes fused = Ok H /\ declared_ok H /\ h_managed H = l /\ h_indexes H = indexes /\ h_fused H = fused /\
    (forall s, In s (h_non_fused H) <-> In s (map fst indexes) /\ ~ In s (flat_map snd fused)) /\
    (forall s, In s (h_raw H) <-> In s l /\ ~ In s (map fst indexes)) /\
    (forall s index, In (s, index) indexes -> index_for H s index) /\
    (fused = [] -> h_non_fused H = map fst indexes).
Proof. exact init_list. Qed.
Example C48_declared_list_ex :
  indexes_ok ex_indexes ex_fused /\ incl (map fst ex_indexes) ex_list /\ incl (flat_map snd ex_fused) (map fst ex_indexes) /\
  (forall s, In s ex_list -> ascii_only s) /\ labels_plain plain_text ex_indexes /\
  init plain_text (DList ex_list) ex_indexes ex_fused = Ok ex_group.
Proof.
  split; [exact ex_indexes_ok|]. split; [intros s Hs; cbn in *; intuition|].
  split; [intros s Hs; cbn in *; intuition|]. split; [apply plain_texts; reflexivity|].
  split; [apply plain_labels; reflexivity|reflexivity].
Qed.
Print Assumptions C48_declared_list.

(** C48: so does a dict of datasets with their indexes, each of the datasets that are not
    fused having an index of its own name. Missing: datasets that share an index (see below). *)
Theorem C48_declared_dict_partial : forall (V : Type) (plain : V -> bool) d (indexes : list (string * list V)) fused,
  indexes_ok indexes fused -> d <> [] -> NoDup (map fst d) ->
  (forall s, In s (map fst d) -> ascii_only s) -> labels_plain plain indexes ->
  (forall ix, In ix (map fst indexes) <-> exists s, In (s, Some ix) d) ->
  (forall s, In s (flat_map snd fused) -> exists ix, In (s, Some ix) d) ->
  own_indexes d fused ->
  exists H, init plain (DDict d) indexes fused = Ok H /\ declared_ok H /\ h_managed H = map fst d /\ h_indexes H = indexes /\ h_fused H = fused /\
    (forall s index, index_for H s index <-> exists ix, In (s, Some ix) d /\ In (ix, index) indexes).
Proof. exact init_dict. Qed.
Example C48_declared_dict_partial_ex :
  indexes_ok pos_indexes [] /\ own_indexes [("talker", Some "talker"); ("length", None); ("on", Some "on")] [] /\
  exists H, init plain_text (DDict [("talker", Some "talker"); ("length", None); ("on", Some "on")]) pos_indexes [] = Ok H /\
    h_raw H = ["length"] /\ h_non_fused H = ["talker"; "on"].
Proof.
  split; [exact pos_indexes_ok|]. split; [|eexists; split; [vm_compute; reflexivity|split; reflexivity]].
  intros s ix [E|[E|[E|[]]]] _; congruence.
Qed.
Print Assumptions C48_declared_dict_partial.

(** C48: an index without a dataset, a dataset without its index, or a fused dataset that is
    not indexed, is rejected with ValueError. *)
Theorem C48_rejected : forall (V : Type) (plain : V -> bool) d (indexes : list (string * list V)) fused,
  match d with
  | DList l => exists ix, In ix (map fst indexes) /\ ~ In ix l
  | DDict d => exists ix, (In ix (map fst indexes) /\ forall s, ~ In (s, Some ix) d) \/
                          (~ In ix (map fst indexes) /\ exists s, In (s, Some ix) d)
  end \/
  (exists s, In s (flat_map snd fused) /\
     match d with DList _ => ~ In s (map fst indexes) | DDict d => forall ix, ~ In (s, Some ix) d end) ->
  init plain d indexes fused = Err ValueError.
Proof. exact init_rejects. Qed.
Example C48_rejected_ex :
  init plain_text (DList ["time"; "phone"; "talker"; "left"]) ex_indexes ex_fused = Err ValueError /\
  (exists ix, In ix (map fst ex_indexes) /\ ~ In ix ["time"; "phone"; "talker"; "left"]).
Proof.
  split; [reflexivity|]. exists "right". split; [cbn; intuition|]. cbn. intuition discriminate.
Qed.
Print Assumptions C48_rejected.

(** C48: a dataset whose name is not in ASCII, or a label that is not, is rejected with ValueError. *)
Theorem C48_not_ascii : forall (V : Type) (plain : V -> bool) d (indexes : list (string * list V)) fused,
  let datasets := match d with DList l => l | DDict d => map fst d end in
  datasets <> [] -> (forall ix l, In (ix, l) indexes -> l <> []) ->
  (exists s, In s datasets /\ ~ ascii_only s) \/ (exists ix l x, In (ix, l) indexes /\ In x l /\ plain x = false) ->
  init plain d indexes fused = Err ValueError.
Proof. exact init_not_ascii. Qed.
Example C48_not_ascii_ex :
  (forall s : string, plain_text s = true <-> ascii_only s) /\
  plain_text (String "195" (String "169" "")) = false /\
  init plain_text (DList ["phone"]) [("phone", ["e"; String "195" (String "169" "")])] [] = Err ValueError.
Proof. split; [exact plain_text_iff|]. split; reflexivity. Qed.
Print Assumptions C48_not_ascii.

(** C48 is false of two datasets declared with the same index: writing labels of the index
    raises KeyError. *)
Theorem C48_shared_index_refuted : exists H, init plain_text (DDict shared_decl) shared_indexes [] = Ok H /\ indexes_ok shared_indexes [] /\
  labels_batch H shared_data 2 /\ write_all String.string_dec H None [(InDict shared_data, false)] = Err KeyError.
Proof. exact shared_refuted. Qed.
Example C48_shared_index_refuted_ex : map snd shared_decl = [Some "phone"; Some "phone"].
Proof. reflexivity. Qed.
Print Assumptions C48_shared_index_refuted.

(** C48 is false of 65 fused datasets with two labels each: two rows that differ have the same
    key, and nothing is raised. *)
Theorem C48_fused_refuted :
  declared_ok many_group /\ labels_batch many_group many_data 2 /\ h_fused many_group = [("all", many)] /\
  exists o fo s, write_all Z.eq_dec many_group None [(InDict many_data, false)] = Ok (Some o) /\
    In ("all", fo) (o_fused o) /\ f_keys fo = [0; 0] /\ In s many /\ labels_given s [many_data] = [0; 1].
Proof. exact many_refuted. Qed.
Example C48_fused_refuted_ex : length many = 65%nat /\ map snd many_indexes = repeat [0; 1] 65.
Proof. split; reflexivity. Qed.
Print Assumptions C48_fused_refuted.

(** C48: data whose names are not exactly the datasets of the group are refused with
    ValueError, whatever was written before. *)
Theorem C48_other_names_rejected : forall (V : Type) (veq : forall x y : V, {x = y} + {x <> y}) (H : h5io V) before o d ix after,
  write_all veq H None before = Ok o -> (exists s, ~ (In s (map fst d) <-> In s (h_managed H))) ->
  write_all veq H None (before ++ (InDict d, ix) :: after) = Err ValueError.
Proof. exact write_names. Qed.
Example C48_other_names_rejected_ex :
  (exists o, write_all String.string_dec ex_group None [(InDict ex_b0, false)] = Ok (Some o)) /\
  write_all String.string_dec ex_group None [(InDict ex_b0, false); (InDict (tl ex_b1), false)] = Err ValueError /\
  write_all String.string_dec ex_group None [(InDict (("sex", Ints string [1]) :: ex_b1), false)] = Err ValueError.
Proof. split; [eexists; vm_compute; reflexivity|split; reflexivity]. Qed.
Print Assumptions C48_other_names_rejected.

(** C48: so is a list with fewer values than there are datasets. *)
Theorem C48_short_list_rejected : forall (V : Type) (veq : forall x y : V, {x = y} + {x <> y}) (H : h5io V) before o l ix after,
  write_all veq H None before = Ok o -> NoDup (h_managed H) -> (length l < length (h_managed H))%nat ->
  write_all veq H None (before ++ (InList l, ix) :: after) = Err ValueError.
Proof. exact write_short. Qed.
Example C48_short_list_rejected_ex :
  NoDup (h_managed pos_group) /\ (length (tl pos_b1) < length (h_managed pos_group))%nat /\
  write_all String.string_dec pos_group None [(InList pos_b0, true); (InList (tl pos_b1), true)] = Err ValueError.
Proof. split; [apply pos_declared|]. split; [cbn; repeat constructor|reflexivity]. Qed.
Print Assumptions C48_short_list_rejected.

(** C48: a label that is not in the index of its dataset, or numbers given for a dataset that
    is indexed, are refused with ValueError, whatever was written before. *)
Theorem C48_unknown_label_rejected : forall (V : Type) (veq : forall x y : V, {x = y} + {x <> y}) (H : h5io V) before o d after,
  declared_ok H -> write_all veq H None before = Ok o ->
  NoDup (map fst d) -> (forall s, In s (h_managed H) <-> In s (map fst d)) ->
  (forall s v, In (s, v) d -> exists labels zs, v = Ints V zs \/ In s (map fst (h_indexed H)) /\ v = Labels labels) ->
  (exists s v index, In (s, v) d /\ index_for H s index /\
     ((exists z zs, v = Ints V (z :: zs)) \/ exists labels e, v = Labels labels /\ In e labels /\ ~ In e index)) ->
  write_all veq H None (before ++ (InDict d, false) :: after) = Err ValueError.
Proof. exact (fun V veq H before o d after D => write_unknown V veq H D before o d after). Qed.
Example C48_unknown_label_rejected_ex :
  (exists o, write_all String.string_dec ex_group None [(InDict ex_b0, false)] = Ok (Some o)) /\
  write_all String.string_dec ex_group None [(InDict ex_b0, false); (InDict (("phone", Labels ["uu"]) :: tl ex_b1), false)] = Err ValueError /\
  write_all String.string_dec ex_group None [(InDict (("phone", Ints string [2]) :: tl ex_b1), false)] = Err ValueError /\
  In ("phone", ["aa"; "ee"; "oo"]) ex_indexes.
Proof. split; [eexists; vm_compute; reflexivity|]. split; [reflexivity|]. split; [reflexivity|left; reflexivity]. Qed.
Print Assumptions C48_unknown_label_rejected.
