(** Property theorems: triplet generation (C01, C02, C03, C06, C07, C08, C50). *)
From Coq Require Import String.
From Verif Require Import Prelude TypeFitting Sampler Sampler_proofs Task Task_spec Task_sort Task_main Task_total Task_ex Task_refuted.
Open Scope string_scope.
Open Scope list_scope.
Open Scope Z_scope.

(** C01: the rows written for a by value are the ABX triplets of this by value accepted by
    the filters, each one once... *)
Theorem C01_triplets_exact :
  forall korder enum argsort (R : rng) (fuel : nat),
    lists_keys korder -> lists_set enum -> argsort_spec argsort ->
  forall T cols db T' bs st,
    reads cols (t_filters T) -> determined T db -> kept_first T db ->
    task_init korder enum T cols db = Ok (T', bs, st) ->
  forall thr c bs' f,
    generate_triplets korder enum argsort R fuel T' thr bs st c = Ok (bs', Some f) ->
    no_threshold thr -> storable T db (capacity (s_nb_triplets st)) ->
    Forall2 (fun k ij => lists_exactly T db k (rows_of ij (fl_triplets f))) (fl_bys f) (fl_by_index f) /\
    (forall k, In k (fl_bys f) <-> exists a b x, wanted T db k a b x) /\
    Zlen (fl_triplets f) = s_nb_triplets st.
Proof. exact file_exact. Qed.
Print Assumptions C01_triplets_exact.

Example C01_triplets_exact_ex :
  lists_keys idk /\ lists_set idz /\ argsort_spec argsort_ins /\
  reads ex_cols (t_filters ex_task) /\ determined ex_task ex_db /\ kept_first ex_task ex_db /\
  no_threshold None /\ storable ex_task ex_db (capacity 10) /\
  exists T' bs st bs' f,
    task_init idk idz ex_task ex_cols ex_db = Ok (T', bs, st) /\ s_nb_triplets st = 10 /\
    generate_triplets idk idz argsort_ins ex_rng 9 T' None bs st 0 = Ok (bs', Some f) /\
    fl_triplets f = [(2, 0, 3); (2, 4, 3); (3, 1, 2); (3, 5, 2); (0, 2, 5); (1, 3, 0); (1, 3, 4);
                     (5, 3, 0); (5, 3, 4); (0, 2, 3)] /\
    fl_by_index f = [(0, 9); (9, 10)] /\ fl_bys f = [[7]; [8]].
Proof.
  split; [exact idk_ok|]. split; [exact idz_ok|]. split; [exact argsort_ins_spec|].
  split; [exact ex_reads|]. split; [exact ex_determined|]. split; [exact ex_kept_first|].
  split; [left; reflexivity|]. split; [apply storable_small; vm_compute; discriminate|].
  do 5 eexists. split; [vm_compute; reflexivity|]. split; [vm_compute; reflexivity|].
  split; [vm_compute; reflexivity|]. vm_compute. auto.
Qed.

(** ... without filters there is nothing to ask of them, and up to the conversion of the
    item numbers to the type of the dataset nothing to ask of the table... *)
Theorem C01_triplets_exact_no_filter :
  forall korder enum argsort (R : rng) (fuel : nat),
    lists_keys korder -> lists_set enum -> argsort_spec argsort ->
  forall T cols db T' bs st,
    task_init korder enum (unfiltered T) cols db = Ok (T', bs, st) ->
  forall c bs' f,
    generate_triplets korder enum argsort R fuel T' None bs st c = Ok (bs', Some f) ->
    exists t, fit_integer_type (s_nb_triplets st) true = Ok t /\
      Forall2 (fun k ij => exists l, lists_exactly (unfiltered T) db k l /\
                             rows_of ij (fl_triplets f) = map (cast3 t) l) (fl_bys f) (fl_by_index f).
Proof.
  exact (fun korder enum argsort R fuel K E A T cols db T' bs st I c bs' f G =>
    rows_generated R fuel K E A (unfiltered_reads T cols) (unfiltered_determined T db)
                   (@unfiltered_kept_first T db) I c G (or_introl eq_refl)).
Qed.
Print Assumptions C01_triplets_exact_no_filter.

Example C01_triplets_exact_no_filter_ex :
  exists f g,
    run ex_rng 9 (unfiltered (mk_task "phone" ["talker"; "n"] ["lang"] ex_filters no_regressors)) None ex_db
      = Ok (0, None) /\
    run ex_rng 9 (unfiltered (mk_task "phone" [] [] ex_filters no_regressors)) None (firstn 3 ex_db) = Ok (2, Some f) /\
    fl_triplets f = [(0, 2, 1); (1, 2, 0)] /\ fl_by_index f = [(0, 2)] /\ fl_bys f = [[0]] /\
    run ex_rng 9 (unfiltered (mk_task "phone" ["talker"; "lang"] [] ex_filters no_regressors)) None (firstn 8 ex_db)
      = Ok (6, Some g) /\
    fl_triplets g = [(1, 3, 4); (3, 1, 6); (4, 6, 1); (6, 4, 3); (0, 2, 5); (7, 2, 5)].
Proof. do 2 eexists. vm_compute. repeat split. Qed.

(** ... the task can be made from any table that passes the checks... *)
Theorem C01_task_made :
  forall korder enum, lists_keys korder -> lists_set enum ->
  forall T cols db,
    reads cols (t_filters T) -> determined T db -> kept_first T db ->
    check_database cols (t_on T) (t_across T) (t_by T) = Ok tt ->
    Zlen db * Zlen db * Zlen db < 2 ^ 63 -> none_emptied T db ->
    exists T' bs st, task_init korder enum T cols db = Ok (T', bs, st).
Proof. exact init_succeeds. Qed.
Print Assumptions C01_task_made.

Example C01_task_made_ex :
  reads ex_cols (t_filters ex_task) /\ determined ex_task ex_db /\ kept_first ex_task ex_db /\
  check_database ex_cols "phone" ["talker"] ["lang"] = Ok tt /\
  Zlen ex_db * Zlen ex_db * Zlen ex_db < 2 ^ 63 /\ none_emptied ex_task ex_db.
Proof.
  split; [exact ex_reads|]. split; [exact ex_determined|]. split; [exact ex_kept_first|].
  split; [reflexivity|]. split; [reflexivity|exact ex_none_emptied].
Qed.

(** ... and the triplets are then generated; there is no file exactly when there is no triplet. *)
Theorem C01_generation_succeeds :
  forall korder enum argsort (R : rng) (fuel : nat),
    lists_keys korder -> lists_set enum -> argsort_spec argsort ->
  forall T cols db, reads cols (t_filters T) -> determined T db -> kept_first T db ->
  forall T' bs st, task_init korder enum T cols db = Ok (T', bs, st) ->
  forall thr c, Zlen db * Zlen db * Zlen db < 2 ^ 63 -> no_threshold thr ->
    r_ABX (t_regressors T) = false ->
    exists bs' of, generate_triplets korder enum argsort R fuel T' thr bs st c = Ok (bs', of) /\
      (of = None <-> forall k a b x, ~ wanted T db k a b x).
Proof. exact generate_succeeds. Qed.
Print Assumptions C01_generation_succeeds.

Example C01_generation_succeeds_ex :
  r_ABX (t_regressors ex_task) = false /\ Zlen ex_db * Zlen ex_db * Zlen ex_db < 2 ^ 63 /\
  exists f g, run ex_rng 9 ex_task None ex_db = Ok (10, Some f) /\
    run ex_rng 9 ex_task (Some 0) ex_db = Ok (10, Some g) /\ run ex_rng 9 ex_task None (firstn 5 (skipn 9 ex_db)) = Ok (0, None).
Proof.
  split; [reflexivity|]. split; [reflexivity|]. do 2 eexists. split; [vm_compute; reflexivity|].
  split; vm_compute; reflexivity.
Qed.

(** C02: the announced numbers of triplets, in total and for each by value, are the numbers of
    rows of the file, for any filters... *)
Theorem C02_rows_announced :
  forall korder enum argsort (R : rng) (fuel : nat),
    lists_keys korder -> lists_set enum -> argsort_spec argsort ->
  forall T cols db T' bs st,
    task_init korder enum T cols db = Ok (T', bs, st) ->
  forall thr c bs' f,
    generate_triplets korder enum argsort R fuel T' thr bs st c = Ok (bs', Some f) ->
    no_threshold thr ->
    Zlen (fl_triplets f) = s_nb_triplets st /\
    (forall k i j, In (k, (i, j)) (combine (fl_bys f) (fl_by_index f)) ->
       exists n b s, nth_error bs n = Some b /\ nth_error (s_by st) n = Some s /\ b_key b = k /\
         st_nb_triplets s = j - i) /\
    (forall n b s, nth_error bs n = Some b -> nth_error (s_by st) n = Some s ->
       ~ In (b_key b) (fl_bys f) -> st_nb_triplets s = 0).
Proof. exact rows_announced. Qed.
Print Assumptions C02_rows_announced.

Example C02_rows_announced_ex :
  match task_init idk idz ex_task ex_cols ex_db with
  | Ok (_, bs, st) => map b_key bs = [[7]; [6]; [8]] /\ map st_nb_triplets (s_by st) = [9; 0; 1] /\ s_nb_triplets st = 10
  | Err _ => False
  end.
Proof. vm_compute. auto. Qed.

(** ... they are the number of triplets of the definition... *)
Theorem C02_announced_count :
  forall korder enum, lists_keys korder -> lists_set enum ->
  forall T cols db T' bs st,
    reads cols (t_filters T) -> determined T db -> kept_first T db ->
    task_init korder enum T cols db = Ok (T', bs, st) ->
  forall L, NoDup L -> (forall k a b x, In (k, (a, b, x)) L <-> wanted T db k a b x) ->
    s_nb_triplets st = Zlen L.
Proof. exact announced_count. Qed.
Print Assumptions C02_announced_count.

Example C02_announced_count_ex :
  match task_init idk idz (unfiltered ex_task) ex_cols ex_db with
  | Ok (_, _, st) => s_nb_triplets st = 19
  | Err _ => False
  end /\
  match task_init idk idz ex_task ex_cols ex_db with
  | Ok (_, _, st) => s_nb_triplets st = 10
  | Err _ => False
  end.
Proof. vm_compute. auto. Qed.

Theorem C02_announced_count_by :
  forall korder enum, lists_keys korder -> lists_set enum ->
  forall T cols db T' bs st,
    reads cols (t_filters T) -> determined T db -> kept_first T db ->
    task_init korder enum T cols db = Ok (T', bs, st) ->
  forall l i b s,
    nth_error bs i = Some b -> nth_error (s_by st) i = Some s ->
    lists_exactly T db (b_key b) l -> st_nb_triplets s = Zlen l.
Proof. exact announced_count_by. Qed.
Print Assumptions C02_announced_count_by.

Example C02_announced_count_by_ex :
  match task_init idk idz (unfiltered ex_task) ex_cols ex_db with
  | Ok (_, bs, st) => nth_error (map b_key bs) 1 = Some [7] /\ nth_error (map st_nb_triplets (s_by st)) 1 = Some 12
  | Err _ => False
  end.
Proof. vm_compute. auto. Qed.

(** ... and those of a block count the triplets whose A has its on and across values. *)
Theorem C02_block_sizes :
  forall korder enum, lists_keys korder -> lists_set enum ->
  forall T cols db T' bs st,
    reads cols (t_filters T) -> determined T db -> kept_first T db ->
    task_init korder enum T cols db = Ok (T', bs, st) ->
  forall l i b s bk n, t_across T <> [] ->
    nth_error bs i = Some b -> nth_error (s_by st) i = Some s ->
    In (bk, n) (st_block_sizes s) -> lists_block T db (b_key b) bk l -> n = Zlen l.
Proof. exact block_size. Qed.
Print Assumptions C02_block_sizes.

Example C02_block_sizes_ex :
  match task_init idk idz ex_task ex_cols ex_db with
  | Ok (_, bs, st) => map st_block_sizes (s_by st) =
      [[([2; 1], 2); ([2; 2], 2); ([1; 1], 1); ([1; 2], 4)]; [([3; 3], 0)];
       [([1; 1], 1); ([1; 2], 0); ([2; 1], 0); ([1; 3], 0)]]
  | Err _ => False
  end.
Proof. vm_compute. auto. Qed.

(** C03: filtering removes the triplets that the filters do not accept, and nothing else. *)
Theorem C03_filtered_triplets :
  forall korder enum argsort (R : rng) (fuel : nat),
    lists_keys korder -> lists_set enum -> argsort_spec argsort ->
  forall T cols db, reads cols (t_filters T) -> determined T db -> kept_first T db ->
  forall T1 bs1 st1 T0 bs0 st0 c1 c0 r1 r0 f1 f0,
    task_init korder enum T cols db = Ok (T1, bs1, st1) ->
    task_init korder enum (unfiltered T) cols db = Ok (T0, bs0, st0) ->
    storable T db (capacity (s_nb_triplets st1)) ->
    storable (unfiltered T) db (capacity (s_nb_triplets st0)) ->
    generate_triplets korder enum argsort R fuel T1 None bs1 st1 c1 = Ok (r1, Some f1) ->
    generate_triplets korder enum argsort R fuel T0 None bs0 st0 c0 = Ok (r0, Some f0) ->
  forall k ij, In (k, ij) (combine (fl_bys f1) (fl_by_index f1)) ->
    exists ij0, In (k, ij0) (combine (fl_bys f0) (fl_by_index f0)) /\
      NoDup (rows_of ij (fl_triplets f1)) /\ NoDup (rows_of ij0 (fl_triplets f0)) /\
      forall a b x, In (a, b, x) (rows_of ij (fl_triplets f1)) <->
                    In (a, b, x) (rows_of ij0 (fl_triplets f0)) /\ accepted T db k a b x.
Proof. exact filter_commutes. Qed.
Print Assumptions C03_filtered_triplets.

Example C03_filtered_triplets_ex :
  reads ex_cols (t_filters ex_task) /\ determined ex_task ex_db /\ kept_first ex_task ex_db /\
  storable ex_task ex_db (capacity 10) /\ storable (unfiltered ex_task) ex_db (capacity 19) /\
  exists f1 f0,
    run ex_rng 9 ex_task None ex_db = Ok (10, Some f1) /\
    run ex_rng 9 (unfiltered ex_task) None ex_db = Ok (19, Some f0) /\
    fl_by_index f1 = [(0, 9); (9, 10)] /\ fl_bys f1 = [[7]; [8]] /\
    fl_by_index f0 = [(0, 1); (1, 13); (13, 19)] /\ fl_bys f0 = [[5]; [7]; [8]].
Proof.
  split; [exact ex_reads|]. split; [exact ex_determined|]. split; [exact ex_kept_first|].
  split; [apply storable_small; vm_compute; discriminate|]. split; [apply storable_small; vm_compute; discriminate|].
  do 2 eexists. split; [vm_compute; reflexivity|]. split; [vm_compute; reflexivity|]. vm_compute. auto.
Qed.

(** C06: the values of an on/across block are looked up at a position that is a label; when a
    generic filter dropped an item before, they are those of another block (wanted triplets
    are lost, unwanted ones are listed), ... *)
Theorem C06_block_values_refuted :
  exists T db f,
    reads ex_cols (t_filters T) /\ determined T db /\ none_emptied T db /\
    made T None db 2 f /\
    wanted T db [7] 1 2 3 /\ ~ In (1, 2, 3) (fl_triplets f) /\
    In (2, 1, 4) (fl_triplets f) /\ ~ wanted T db [7] 2 1 4.
Proof. exact block_values_wrong. Qed.
Print Assumptions C06_block_values_refuted.

(** ... or the construction of the task raises IndexError. *)
Theorem C06_block_values_raise_refuted :
  exists T db,
    reads ex_cols (t_filters T) /\ determined T db /\ none_emptied T db /\
    check_database ex_cols (t_on T) (t_across T) (t_by T) = Ok tt /\
    task_init idk idz T ex_cols db = Err IndexError.
Proof. exact block_values_raise. Qed.
Print Assumptions C06_block_values_raise_refuted.

(** When the generic filters leave nothing of a by group it raises ValueError. *)
Theorem C06_emptied_group_refuted :
  exists T db,
    reads ex_cols (t_filters T) /\ determined T db /\ kept_first T db /\
    check_database ex_cols (t_on T) (t_across T) (t_by T) = Ok tt /\
    (exists k a b x, wanted T db k a b x) /\ task_init idk idz T ex_cols db = Err ValueError.
Proof. exact emptied_raises. Qed.
Print Assumptions C06_emptied_group_refuted.

(** When the items kept come first in their group (in particular without generic filter) the
    line found at the position of a label is the item of this label. Missing: the other tables. *)
Theorem C06_block_values_partial :
  forall korder enum, lists_keys korder ->
  forall T cols db T' bs st,
    reads cols (t_filters T) -> determined T db -> kept_first T db ->
    task_init korder enum T cols db = Ok (T', bs, st) ->
  forall b l r, In b bs -> In (l, r) (b_frame b) ->
    iloc (b_frame b) l = Ok r /\ exists r0, item (by_rows T db (b_key b)) l r0 /\ agree cols r r0.
Proof. exact frames_aligned. Qed.
Print Assumptions C06_block_values_partial.

Example C06_block_values_partial_ex :
  match task_init idk idz ex_task ex_cols ex_db with
  | Ok (_, bs, _) => map (fun b => labels (b_frame b)) bs = [[0; 1; 2; 3; 4; 5]; [0]; [0; 1; 2; 3]] /\
      by_rows ex_task ex_db [8] = map snd (reset_index [ln 1 1 8 5; ln 1 2 8 6; ln 2 1 8 7; ln 1 3 8 9; ln 2 2 8 77])
  | Err _ => False
  end.
Proof. vm_compute. auto. Qed.

(** C07: the type of the stored item numbers is chosen from the number of triplets: few triplets
    among many items come back as negative numbers. *)
Theorem C07_storage_refuted :
  exists T db f,
    reads ex_cols (t_filters T) /\ determined T db /\ kept_first T db /\
    made T None db 1 f /\ wanted T db [7] 150 152 151 /\ fl_triplets f = [(-106, -104, -105)].
Proof. exact storage_wraps. Qed.
Print Assumptions C07_storage_refuted.

(** What is read back is the conversion of the triplets to this type (they are unchanged when no
    item number exceeds the capacity: C01). Missing: the tables whose item numbers exceed it. *)
Theorem C07_storage_partial :
  forall korder enum argsort (R : rng) (fuel : nat),
    lists_keys korder -> lists_set enum -> argsort_spec argsort ->
  forall T cols db T' bs st,
    reads cols (t_filters T) -> determined T db -> kept_first T db ->
    task_init korder enum T cols db = Ok (T', bs, st) ->
  forall thr c bs' f,
    generate_triplets korder enum argsort R fuel T' thr bs st c = Ok (bs', Some f) ->
    no_threshold thr ->
    exists t, fit_integer_type (s_nb_triplets st) true = Ok t /\
      Forall2 (fun k ij => exists l, lists_exactly T db k l /\ rows_of ij (fl_triplets f) = map (cast3 t) l)
              (fl_bys f) (fl_by_index f).
Proof. exact rows_generated. Qed.
Print Assumptions C07_storage_partial.

Example C07_storage_partial_ex :
  fit_integer_type 10 true = Ok I8 /\ map (cast3 I8) [(127, 2, 5); (128, 3, 0)] = [(127, 2, 5); (-128, 3, 0)] /\
  exists f, run ex_rng 9 ex_task None ex_db = Ok (10, Some f).
Proof. split; [reflexivity|]. split; [reflexivity|]. eexists. vm_compute. reflexivity. Qed.

(** C08: whatever the threshold, by_index splits the rows into non-empty consecutive ranges, one
    for each by value listed, and the rows in the range of a by value are triplets of it.
    (Without threshold they are all of them, and the by values listed are those that have
    triplets: C01.) *)
Theorem C08_by_index_partition :
  forall korder enum argsort (R : rng) (fuel : nat),
    lists_keys korder -> lists_set enum ->
  forall T cols db T' bs st,
    reads cols (t_filters T) -> determined T db -> kept_first T db ->
    task_init korder enum T cols db = Ok (T', bs, st) ->
  forall thr c bs' f,
    generate_triplets korder enum argsort R fuel T' thr bs st c = Ok (bs', Some f) ->
    storable T db (capacity (s_nb_triplets st)) ->
    tiles 0 (Zlen (fl_triplets f)) (fl_by_index f) /\ NoDup (fl_bys f) /\
    Forall2 (fun k ij => forall a b x, In (a, b, x) (rows_of ij (fl_triplets f)) -> wanted T db k a b x)
            (fl_bys f) (fl_by_index f).
Proof. exact file_partition. Qed.
Print Assumptions C08_by_index_partition.

Example C08_by_index_partition_ex :
  determined ex_task_reg ex_db /\ kept_first ex_task_reg ex_db /\
  exists f, run ex_rng 9 ex_task_reg (Some 2) ex_db = Ok (10, Some f) /\
    fl_triplets f = [(2, 0, 3); (2, 4, 3); (3, 1, 2); (3, 5, 2); (0, 2, 5); (1, 3, 0); (5, 3, 0); (0, 2, 3)] /\
    fl_by_index f = [(0, 7); (7, 8)] /\ fl_bys f = [[7]; [8]] /\ storable ex_task_reg ex_db (capacity 10).
Proof.
  split; [exact ex_reg_determined|]. split; [exact ex_reg_kept_first|].
  eexists. split; [vm_compute; reflexivity|]. split; [reflexivity|]. split; [reflexivity|]. split; [reflexivity|].
  apply storable_small. vm_compute. discriminate.
Qed.

(** C50: generating again from what the first call left in the Task object writes the same
    triplets, by_index and bys. *)
Theorem C50_generation_repeatable :
  forall korder enum argsort (R : rng) (fuel : nat), lists_keys korder ->
  forall T cols db T' bs st,
    task_init korder enum T cols db = Ok (T', bs, st) ->
  forall thr c bs1 f1 c2,
    no_threshold thr ->
    generate_triplets korder enum argsort R fuel T' thr bs st c = Ok (bs1, Some f1) ->
    exists bs2 f2, generate_triplets korder enum argsort R fuel T' thr bs1 st c2 = Ok (bs2, Some f2) /\
      bs2 = bs1 /\ fl_triplets f2 = fl_triplets f1 /\ fl_by_index f2 = fl_by_index f1 /\ fl_bys f2 = fl_bys f1.
Proof. exact generate_twice. Qed.
Print Assumptions C50_generation_repeatable.

Example C50_generation_repeatable_ex :
  match task_init idk idz ex_task ex_cols ex_db with
  | Ok (T', bs, st) =>
      exists bs1 f1, generate_triplets idk idz argsort_ins ex_rng 9 T' None bs st 0 = Ok (bs1, Some f1) /\
        map b_key bs = [[7]; [6]; [8]] /\ map b_key bs1 = [[7]; [8]]
  | Err _ => False
  end.
Proof.
  destruct (task_init idk idz ex_task ex_cols ex_db) as [[[T' bs] st]|] eqn:E; [|vm_compute in E; discriminate].
  vm_compute in E. injection E as <- <- <-. do 2 eexists. split; [vm_compute; reflexivity|]. split; reflexivity.
Qed.
