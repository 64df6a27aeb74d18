(** Property theorems: the other statistics of a task (C02), regressors of whole triplets (C09). *)
From Coq Require Import String.
From Verif Require Import Prelude TypeFitting Sampler Sampler_proofs Task Task_spec Task_sort Task_ex
  Task_stats_spec Task_stats Task_stats_ex Task_abx.
Open Scope string_scope.
Open Scope list_scope.
Open Scope Z_scope.

(** C02: the by groups announced are those that have an item that the by filters keep, and the
    totals are the sums over them... *)
Theorem C02_by_groups :
  forall korder enum, lists_keys korder ->
  forall T cols db T' bs st,
    reads cols (t_filters T) -> determined T db -> kept_first T db ->
    task_init korder enum T cols db = Ok (T', bs, st) ->
    s_nb_by_levels st = Zlen bs /\ length (s_by st) = length bs /\ NoDup (map b_key bs) /\
    (forall k, In k (map b_key bs) <-> exists i r, item (by_rows T db k) i r /\ f_by (t_filters T) r = true) /\
    s_nb_blocks st = sumZ (map st_nb_on_across_levels (s_by st)) /\
    s_nb_triplets st = sumZ (map st_nb_triplets (s_by st)).
Proof. exact by_counts. Qed.
Print Assumptions C02_by_groups.

Example C02_by_groups_ex :
  reads ex_cols (t_filters ex_task) /\ determined ex_task ex_db /\ kept_first ex_task ex_db /\
  match task_init idk idz ex_task ex_cols ex_db with
  | Ok (_, bs, st) => s_nb_by_levels st = 3 /\ map b_key bs = [[7]; [6]; [8]] /\
      s_nb_blocks st = 9 /\ map st_nb_on_across_levels (s_by st) = [4; 1; 4]
  | Err _ => False
  end.
Proof.
  split; [exact ex_reads|]. split; [exact ex_determined|]. split; [exact ex_kept_first|].
  vm_compute. auto.
Qed.

(** ... in each of them, the numbers of items and of on values are those of the items that the
    generic filters keep... *)
Theorem C02_item_counts :
  forall korder enum, lists_keys korder -> lists_set enum ->
  forall T cols db T' bs st,
    reads cols (t_filters T) -> determined T db -> kept_first T db ->
    task_init korder enum T cols db = Ok (T', bs, st) ->
  forall n b s l L,
    nth_error bs n = Some b -> nth_error (s_by st) n = Some s ->
    lists_items T db (b_key b) l -> lists_values T db (b_key b) [t_on T] L ->
    st_nb_items s = Zlen l /\ st_nb_on_levels s = Zlen L.
Proof. exact item_counts. Qed.
Print Assumptions C02_item_counts.

Example C02_item_counts_ex :
  lists_items ex_task ex_db [8] (map fst (kept_list ex_task ex_db [8])) /\
  map fst (kept_list ex_task ex_db [8]) = [0; 1; 2; 3] /\
  (exists L, lists_values ex_task ex_db [8] ["phone"] L /\ L = [[2]; [1]]) /\
  match stats_of ex_task ex_db with
  | Ok l => map (fun p => (fst p, st_nb_items (snd p), st_nb_on_levels (snd p))) l =
      [([7], 6, 2); ([6], 1, 1); ([8], 4, 2)]
  | Err _ => False
  end.
Proof.
  split; [apply items_listed|]. split; [vm_compute; reflexivity|].
  split; [eexists; split; [apply values_listed|vm_compute; reflexivity]|].
  vm_compute. reflexivity.
Qed.

(** ... the numbers of across values and of blocks are those of these items, and there is one
    block size for each block... *)
Theorem C02_across_counts :
  forall korder enum, lists_keys korder -> lists_set enum ->
  forall T cols db T' bs st,
    reads cols (t_filters T) -> determined T db -> kept_first T db ->
    task_init korder enum T cols db = Ok (T', bs, st) ->
  forall n b s L M,
    nth_error bs n = Some b -> nth_error (s_by st) n = Some s -> t_across T <> [] ->
    lists_values T db (b_key b) (t_across T) L -> lists_values T db (b_key b) (t_on T :: t_across T) M ->
    st_nb_across_levels s = Zlen L /\ st_nb_on_across_levels s = Zlen M /\
    Permutation (map fst (st_block_sizes s)) M.
Proof. exact across_counts. Qed.
Print Assumptions C02_across_counts.

Example C02_across_counts_ex :
  t_across ex_task <> [] /\
  (exists L, lists_values ex_task ex_db [8] ["talker"] L /\ L = [[2]; [1]; [3]]) /\
  (exists M, lists_values ex_task ex_db [8] ["phone"; "talker"] M /\ M = [[1; 1]; [1; 2]; [2; 1]; [1; 3]]) /\
  match stats_of ex_task ex_db with
  | Ok l => map (fun p => (fst p, st_nb_across_levels (snd p), st_nb_on_across_levels (snd p))) l =
      [([7], 2, 4); ([6], 1, 1); ([8], 3, 4)]
  | Err _ => False
  end.
Proof.
  split; [discriminate|].
  split; [eexists; split; [apply values_listed|vm_compute; reflexivity]|].
  split; [eexists; split; [apply values_listed|vm_compute; reflexivity]|].
  vm_compute. reflexivity.
Qed.

(** ... without across columns every item is a block... *)
Theorem C02_no_across_counts :
  forall korder enum, lists_keys korder -> lists_set enum ->
  forall T cols db T' bs st,
    reads cols (t_filters T) -> determined T db -> kept_first T db ->
    task_init korder enum T cols db = Ok (T', bs, st) ->
  forall n b s,
    nth_error bs n = Some b -> nth_error (s_by st) n = Some s -> t_across T = [] ->
    st_nb_across_levels s = st_nb_items s /\ st_nb_on_across_levels s = st_nb_items s.
Proof. exact no_across_counts. Qed.
Print Assumptions C02_no_across_counts.

Example C02_no_across_counts_ex :
  match stats_of (unfiltered (mk_task "phone" [] ["lang"] ex_filters no_regressors)) ex_db with
  | Ok l => map (fun p => (fst p, st_nb_items (snd p), st_nb_across_levels (snd p), st_nb_on_across_levels (snd p))) l =
      [([5], 3, 3, 3); ([7], 6, 6, 6); ([6], 1, 1, 1); ([8], 5, 5, 5)]
  | Err _ => False
  end.
Proof. vm_compute. reflexivity. Qed.

(** ... and the numbers of across pairs and of on pairs count the pairs A, B and A, X. *)
Theorem C02_pair_counts :
  forall korder enum, lists_keys korder -> lists_set enum ->
  forall T cols db T' bs st,
    reads cols (t_filters T) -> determined T db -> kept_first T db ->
    task_init korder enum T cols db = Ok (T', bs, st) ->
  forall n b s l m,
    nth_error bs n = Some b -> nth_error (s_by st) n = Some s ->
    lists_pairs (across_pair T db (b_key b)) l -> lists_pairs (on_pair T db (b_key b)) m ->
    st_nb_across_pairs s = Zlen l /\ st_nb_on_pairs s = Zlen m.
Proof. exact pair_counts. Qed.
Print Assumptions C02_pair_counts.

Example C02_pair_counts_ex :
  (exists l, lists_pairs (across_pair ex_task ex_db [8]) l /\ l = [(0, 2); (2, 0)]) /\
  (exists m, lists_pairs (on_pair ex_task ex_db [8]) m /\ m = [(0, 1); (0, 3); (1, 0); (1, 3)]) /\
  match stats_of ex_task ex_db with
  | Ok l => map (fun p => (fst p, st_nb_across_pairs (snd p), st_nb_on_pairs (snd p))) l =
      [([7], 8, 10); ([6], 0, 0); ([8], 2, 4)]
  | Err _ => False
  end.
Proof.
  split; [eexists; split; [apply across_listed|vm_compute; reflexivity]|].
  split; [eexists; split; [apply on_listed|vm_compute; reflexivity]|].
  vm_compute. reflexivity.
Qed.

(** C09: a regressor that needs the whole triplet is accepted when the task is made, but no
    triplet can then be generated. *)
Theorem C09_triplet_regressors_raise :
  forall korder enum argsort (R : rng) (fuel : nat),
    lists_keys korder -> lists_set enum -> argsort_spec argsort ->
  forall T cols db, reads cols (t_filters T) -> determined T db -> kept_first T db ->
  forall T' bs st, task_init korder enum T cols db = Ok (T', bs, st) ->
  forall thr c, Zlen db * Zlen db * Zlen db < 2 ^ 63 -> no_threshold thr ->
    r_ABX (t_regressors T) = true -> (exists k a b x, wanted T db k a b x) ->
    generate_triplets korder enum argsort R fuel T' thr bs st c = Err ValueError.
Proof. exact abx_regressors_fail. Qed.
Print Assumptions C09_triplet_regressors_raise.

Example C09_triplet_regressors_raise_ex :
  let T := mk_task "phone" ["talker"] ["lang"] ex_filters (mk_regressors [] [] [] [] [] true) in
  (exists k a b x, wanted T ex_db k a b x) /\
  (exists r, task_init idk idz T ex_cols ex_db = Ok r) /\ run ex_rng 9 T None ex_db = Err ValueError.
Proof.
  split; [|split; [eexists; vm_compute; reflexivity|vm_compute; reflexivity]].
  exists [7], 2, 0, 3, (ln 2 1 7 2), (ln 1 1 7 0), (ln 2 2 7 4).
  do 3 (split; [split; [lia|reflexivity]|]). split.
  - split; [reflexivity|]. split; [discriminate|]. split; intros c [<-|[]]; [reflexivity|discriminate].
  - vm_compute. repeat split.
Qed.
