(** Property theorems: regressors and threshold of a task (C09, C10). *)
From Coq Require Import String.
From Verif Require Import Prelude TypeFitting Sampler Sampler_spec Sampler_proofs Task Task_spec Task_main Task_ex Task_refuted
  Task_reg_spec Task_align Task_reg_ex.
Open Scope string_scope.
Open Scope list_scope.
Open Scope Z_scope.

(** C09: each by listed has its regressors; they come block by block, the blocks cut the rows of
    the by in order, and in each block row [i] of each column is the regressor of triplet [i].
    Partial: for the regressors of A this only holds in the cases of [A_in_order]; the names of
    the A columns are right in any case. *)
Theorem C09_regressors_aligned_partial :
  forall korder enum argsort (R : rng) (fuel : nat), lists_keys korder -> lists_set enum ->
  forall T cols db T' bs st,
    reads cols (t_filters T) -> determined T db -> kept_first T db ->
    reg_reads cols (t_regressors T) -> reg_determined T db ->
    task_init korder enum T cols db = Ok (T', bs, st) ->
  forall thr c bs' f,
    generate_triplets korder enum argsort R fuel T' thr bs st c = Ok (bs', Some f) ->
    storable T db (capacity (s_nb_triplets st)) ->
    incl (fl_bys f) (map fst (fl_regressors f)) /\ NoDup (map fst (fl_regressors f)) /\
    forall k blocks, In (k, blocks) (fl_regressors f) ->
    exists chunks, Forall2 (carries T (by_rows T db k)) blocks chunks /\
      (forall ij, In (k, ij) (combine (fl_bys f) (fl_by_index f)) -> rows_of ij (fl_triplets f) = concat chunks) /\
      (~ In k (fl_bys f) -> concat chunks = []).
Proof. exact regressors_aligned. Qed.
Print Assumptions C09_regressors_aligned_partial.

Example C09_regressors_aligned_partial_ex :
  reads ex_cols (t_filters ex_task_reg) /\ determined ex_task_reg ex_db /\ kept_first ex_task_reg ex_db /\
  reg_reads ex_cols (t_regressors ex_task_reg) /\ reg_determined ex_task_reg ex_db /\ A_in_order ex_task_reg /\
  storable ex_task_reg ex_db (capacity 10) /\
  exists f, run ex_rng 9 ex_task_reg (Some 2) ex_db = Ok (10, Some f) /\ length (fl_triplets f) = 8%nat /\
    exists rest, fl_regressors f =
      ([7], [[("lang", [7; 7]); ("phone_1", [2; 2]); ("n_A", [2; 2]); ("phone_B", [1; 1]); ("talker_X", [2; 2])];
             [("lang", [7; 7]); ("phone_1", [2; 2]); ("n_A", [4; 4]); ("phone_B", [1; 1]); ("talker_X", [1; 1])];
             [("lang", [7]); ("phone_1", [1]); ("n_A", [0]); ("phone_B", [2]); ("talker_X", [2])];
             [("lang", [7; 7]); ("phone_1", [1; 1]); ("n_A", [1; 13]); ("phone_B", [2; 2]); ("talker_X", [1; 1])]])
      :: ([6], []) :: rest.
Proof.
  split; [exact ex_reads|]. split; [exact ex_reg_determined|]. split; [exact ex_reg_kept_first|].
  split; [exact ex_reg_reads|]. split; [apply ex_reg_regs_determined; reflexivity|]. split; [exact ex_task_reg_ordered|].
  split; [apply storable_small; vm_compute; discriminate|].
  eexists. split; [vm_compute; reflexivity|]. split; [reflexivity|]. eexists. reflexivity.
Qed.

(** Without a filter on the whole triplet, and with a regressor of B, the A column keeps the order
    the triplets had before they were sorted by regressors... *)
Theorem C09_A_regressors_not_sorted_refuted :
  exists T db f,
    reads ex_cols (t_filters T) /\ determined T db /\ kept_first T db /\
    reg_reads ex_cols (t_regressors T) /\ reg_determined T db /\ made T None db 4 f /\
    fl_triplets f = [(0, 3, 4); (1, 3, 4); (0, 2, 4); (1, 2, 4)] /\ fl_bys f = [[7]] /\
    columns_of (by_rows T db [7]) (fl_triplets f) (of_A (t_regressors T)) = [("n_A", [0; 1; 0; 1])] /\
    exists rest, fl_regressors f = [([7], [("n_A", [0; 0; 1; 1]); ("phone_B", [2; 2; 3; 3])] :: rest)].
Proof. exact A_not_sorted. Qed.
Print Assumptions C09_A_regressors_not_sorted_refuted.

(** ... and with a filter on the whole triplet and no regressor of B nor X it is empty. *)
Theorem C09_A_regressors_lost_refuted :
  exists T db f,
    reads ex_cols (t_filters T) /\ determined T db /\ kept_first T db /\
    reg_reads ex_cols (t_regressors T) /\ reg_determined T db /\ made T None db 4 f /\
    fl_triplets f = [(0, 2, 4); (0, 3, 4); (1, 2, 4); (1, 3, 4)] /\ fl_bys f = [[7]] /\
    columns_of (by_rows T db [7]) (fl_triplets f) (of_A (t_regressors T)) = [("n_A", [0; 0; 1; 1])] /\
    fl_regressors f = [([7], [[("n_A", [])]; [("n_A", [])]; [("n_A", [])]; [("n_A", [])]])].
Proof. exact A_lost. Qed.
Print Assumptions C09_A_regressors_lost_refuted.

(** C10: with a threshold [t] and at least one regressor of B or X, the by values listed are those
    that have triplets, no triplet is written twice, and of the triplets of a block with given
    values of these regressors exactly min(t, number of them) are written. Partial: when the
    positions of the triplets of a block fit the type chosen for the number of combinations of
    regressors ([room]). *)
Theorem C10_threshold_partial :
  forall korder enum argsort (R : rng) (fuel : nat),
    lists_keys korder -> lists_set enum -> argsort_spec argsort ->
  forall T cols db T' bs st,
    reads cols (t_filters T) -> determined T db -> kept_first T db ->
    reg_reads cols (t_regressors T) -> reg_determined T db ->
    task_init korder enum T cols db = Ok (T', bs, st) ->
  forall thr c bs' f,
    generate_triplets korder enum argsort R fuel T' thr bs st c = Ok (bs', Some f) ->
  forall t, rng_ok R -> room T db -> storable T db (capacity (s_nb_triplets st)) ->
    0 < t -> of_BX (t_regressors T) <> [] -> thr = Some t ->
    (forall k, In k (fl_bys f) <-> exists s, is_wanted T db k s) /\
    forall k ij, In (k, ij) (combine (fl_bys f) (fl_by_index f)) ->
      let l := rows_of ij (fl_triplets f) in
      NoDup l /\
      forall t0 all kept, is_wanted T db k t0 ->
        lists_that (fun s => is_wanted T db k s /\ same_group T (by_rows T db k) s t0) all ->
        lists_that (fun s => In s l /\ same_group T (by_rows T db k) s t0) kept ->
        Zlen kept = Z.min t (Zlen all).
Proof. exact threshold_kept. Qed.
Print Assumptions C10_threshold_partial.

Example C10_threshold_partial_ex :
  reads ex_cols (t_filters small_task) /\ determined small_task small_db /\ kept_first small_task small_db /\
  reg_reads ex_cols (t_regressors small_task) /\ reg_determined small_task small_db /\
  rng_ok ex_rng /\ room small_task small_db /\ storable small_task small_db (capacity 12) /\
  of_BX (t_regressors small_task) <> [] /\
  exists f, run ex_rng 9 small_task (Some 1) small_db = Ok (12, Some f) /\
    fl_triplets f = [(2, 0, 5); (0, 2, 4); (4, 5, 0); (5, 4, 2)].
Proof.
  split; [apply unfiltered_reads|]. split; [apply (unfiltered_determined small_task)|].
  split; [apply (@unfiltered_kept_first small_task)|]. split; [exact ex_reg_reads|].
  split; [apply ex_reg_regs_determined; reflexivity|]. split; [exact ex_rng_ok|]. split; [exact small_room|].
  split; [apply storable_small; vm_compute; discriminate|]. split; [discriminate|].
  eexists. split; [vm_compute; reflexivity|reflexivity].
Qed.

(** Three hundred triplets that share their regressors, threshold 200: two hundred rows are
    written, but only 173 triplets. *)
Theorem C10_threshold_repeats_refuted :
  exists T db T' bs st bs' f,
    reads ex_cols (t_filters T) /\ determined T db /\ kept_first T db /\
    reg_reads ex_cols (t_regressors T) /\ reg_determined T db /\ storable T db (capacity (s_nb_triplets st)) /\
    of_BX (t_regressors T) <> [] /\
    task_init idk idz T ex_cols db = Ok (T', bs, st) /\ s_nb_triplets st = 300 /\
    generate_triplets idk idz argsort_ins ex_rng 400 T' (Some 200) bs st 0 = Ok (bs', Some f) /\
    fl_by_index f = [(0, 200)] /\ Zlen (fl_triplets f) = 200 /\
    length (nodup (fun x y : triplet => ltac:(repeat decide equality) : {x = y} + {x <> y}) (fl_triplets f)) = 173%nat /\
    ~ NoDup (fl_triplets f).
Proof. exact threshold_repeats. Qed.
Print Assumptions C10_threshold_repeats_refuted.
