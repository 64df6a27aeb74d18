(** Property theorems: the index of groups of a task file (C67). *)
From Coq Require Import String.
From Verif Require Import Prelude TypeFitting Sampler Sampler_spec Sampler_proofs Task Task_spec Task_sort Task_main Task_ex Task_refuted
  Task_reg_spec Task_align Task_reg_ex TaskIndex_spec TaskIndex_proofs TaskIndex_thr TaskIndex_ex.
Open Scope string_scope.
Open Scope list_scope.
Open Scope Z_scope.

(** C67: without threshold, the index lists, for each block of each by, the bounds of the groups of
    equal B and X regressors within the rows of the block; the blocks are those of the columns of
    regressors and make the rows of the by. Partial: the bounds are stored in the type chosen for
    the number of blocks, and so are only the bounds when the type is large enough. *)
Theorem C67_index_partial :
  forall korder enum argsort (R : rng) (fuel : nat),
    lists_keys korder -> lists_set enum -> argsort_spec argsort ->
  forall T cols db T' bs st,
    reads cols (t_filters T) -> determined T db -> kept_first T db ->
    reg_reads cols (t_regressors T) -> reg_determined T db ->
    task_init korder enum T cols db = Ok (T', bs, st) ->
  forall thr, no_threshold thr -> coded T db ->
  forall c bs' f,
    generate_triplets korder enum argsort R fuel T' thr bs st c = Ok (bs', Some f) ->
    storable T db (capacity (s_nb_triplets st)) ->
  exists bys bounds,
    Forall2 (fun kr kc => fst kr = fst kc /\ Forall2 (carries T (by_rows T db (fst kc))) (snd kr) (snd kc))
      (fl_regressors f) bys /\
    (forall k blocks ij, In (k, blocks) bys -> In (k, ij) (combine (fl_bys f) (fl_by_index f)) ->
       rows_of ij (fl_triplets f) = concat blocks) /\
    (forall k blocks, In (k, blocks) bys -> ~ In k (fl_bys f) -> concat blocks = []) /\
    (forall k block s t, In (k, block) (all_blocks bys) -> In s block -> In t block ->
       same_block_of T (by_rows T db k) s t) /\
    Forall2 (fun bd kb => block_bounds T (by_rows T db (fst kb)) bd (snd kb)) bounds (all_blocks bys) /\
    fl_block_index f = map (wrapped (capacity (s_nb_blocks st))) (concat bounds).
Proof. exact index_of_groups. Qed.
Print Assumptions C67_index_partial.

Example C67_index_partial_ex :
  reads ex_cols (t_filters small_task) /\ determined small_task swap_db /\ kept_first small_task swap_db /\
  reg_reads ex_cols (t_regressors small_task) /\ reg_determined small_task swap_db /\ coded small_task swap_db /\
  storable small_task swap_db (capacity 4) /\
  exists f, run ex_rng 9 small_task None swap_db = Ok (4, Some f) /\
    fl_triplets f = [(0, 3, 4); (1, 3, 4); (0, 2, 4); (1, 2, 4)] /\ fl_block_index f = [0; 2; 4; 0; 0; 0].
Proof.
  split; [apply (unfiltered_reads small_task)|]. split; [apply (unfiltered_determined small_task)|].
  split; [apply (@unfiltered_kept_first small_task)|]. split; [exact ex_reg_reads|].
  split; [apply ex_reg_regs_determined; reflexivity|]. split; [exact swap_coded|].
  split; [apply storable_small; vm_compute; discriminate|].
  eexists. split; [vm_compute; reflexivity|]. split; reflexivity.
Qed.

(** C67 is false when a block has more triplets than the type for the number of blocks can hold:
    the end of the only group, 300, is stored as 44. *)
Theorem C67_stored_refuted :
  exists T' bs st bs' f,
    task_init idk idz wrap_task ex_cols wrap_db = Ok (T', bs, st) /\ s_nb_blocks st = 3 /\
    generate_triplets idk idz argsort_ins ex_rng 9 T' None bs st 0 = Ok (bs', Some f) /\
    Zlen (fl_triplets f) = 300 /\ fl_by_index f = [(0, 300)] /\
    (forall s t, In s (fl_triplets f) -> In t (fl_triplets f) -> same_group wrap_task (by_rows wrap_task wrap_db [7]) s t) /\
    fl_block_index f = [0; 44; 0; 0].
Proof. exact index_wraps. Qed.
Print Assumptions C67_stored_refuted.

Example C67_stored_refuted_ex : wrapped (capacity 3) 300 = 44 /\ wrapped (capacity 300) 300 = 300.
Proof. split; reflexivity. Qed.

(** C67: whatever the threshold and the random numbers, the index is the one of the task file made
    without threshold (C67_index_partial says what it is). *)
Theorem C67_any_threshold :
  forall korder enum argsort (R R' : rng) (fuel fuel' : nat) T thr thr' bs st c c' bs1 f1 bs2 f2,
    generate_triplets korder enum argsort R fuel T thr bs st c = Ok (bs1, Some f1) ->
    generate_triplets korder enum argsort R' fuel' T thr' bs st c' = Ok (bs2, Some f2) ->
    fl_block_index f1 = fl_block_index f2.
Proof. exact same_index. Qed.
Print Assumptions C67_any_threshold.

Example C67_any_threshold_ex :
  exists f1 f2, run ex_rng 9 small_task (Some 1) small_db = Ok (12, Some f1) /\ run ex_rng 9 small_task None small_db = Ok (12, Some f2) /\
    length (fl_triplets f1) = 4%nat /\ length (fl_triplets f2) = 12%nat /\
    fl_block_index f1 = [0; 2; 0; 4; 0; 4; 0; 2] /\ fl_block_index f2 = [0; 2; 0; 4; 0; 4; 0; 2].
Proof. do 2 eexists. split; [vm_compute; reflexivity|]. split; [vm_compute; reflexivity|]. repeat split. Qed.

(** C67 is false with a threshold: the index counts the triplets before the choice. *)
Theorem C67_threshold_refuted :
  made small_task (Some 1) small_db 12
    (mk_file [(2, 0, 5); (0, 2, 4); (4, 5, 0); (5, 4, 2)] [(0, 4)] [[7]] [0; 2; 0; 4; 0; 4; 0; 2]
       [([7], [[("lang", [7]); ("phone_1", [2]); ("n_A", [2; 2]); ("phone_B", [1]); ("talker_X", [2])];
               [("lang", [7]); ("phone_1", [1]); ("n_A", [0; 0; 3; 3]); ("phone_B", [2]); ("talker_X", [2])];
               [("lang", [7]); ("phone_1", [1]); ("n_A", [1; 1; 4; 4]); ("phone_B", [2]); ("talker_X", [1])];
               [("lang", [7]); ("phone_1", [2]); ("n_A", [5; 5]); ("phone_B", [1]); ("talker_X", [1])]])]) /\
  forall l, Forall2 (fun bd ts => block_bounds small_task (by_rows small_task small_db [7]) bd ts) l
      [[(2, 0, 5)]; [(0, 2, 4)]; [(4, 5, 0)]; [(5, 4, 2)]] ->
    concat l <> [0; 2; 0; 4; 0; 4; 0; 2].
Proof. exact index_threshold. Qed.
Print Assumptions C67_threshold_refuted.

Example C67_threshold_refuted_ex : coded small_task small_db /\ room small_task small_db.
Proof. split; [apply room_coded|]; exact small_room. Qed.
