(** C91: what a negative threshold does. *)
From Coq Require Import Ascii String.
From Verif Require Import Prelude Sampler Sampler_spec Sampler_proofs Task Task_spec Task_main Task_reg_spec TaskIndex_spec Task_ex Task_reg_ex
  Task_thr_ex Expect_ex Task_neg Task_neg_ex.
Open Scope list_scope.
Open Scope Z_scope.

(** C91: with a negative threshold, generating the triplets raises a [ValueError] as soon as one group of
    triplets has 100 triplets or fewer, whatever the random numbers. *)
Theorem C91_negative_raises :
  forall korder enum argsort, lists_keys korder -> lists_set enum -> argsort_spec argsort ->
  forall T cols db T' bs st,
    reads cols (t_filters T) -> determined T db -> kept_first T db ->
    reg_reads cols (t_regressors T) -> reg_determined T db ->
    task_init korder enum T cols db = Ok (T', bs, st) -> coded T db ->
    Zlen db * Zlen db * Zlen db < 2 ^ 63 -> r_ABX (t_regressors T) = false -> of_BX (t_regressors T) <> [] ->
  forall t, t < 0 ->
  forall k s grp, is_wanted T db k s ->
    lists_that (fun u => is_wanted T db k u /\ same_group T (by_rows T db k) u s) grp -> Zlen grp <= 100 ->
  forall R fuel c, generate_triplets korder enum argsort R (S fuel) T' (Some t) bs st c = Err ValueError.
Proof. exact negative_raises. Qed.
Print Assumptions C91_negative_raises.

(** A task of twelve triplets, one group of which has two. *)
Example C91_negative_raises_ex :
  reads ex_cols (t_filters small_task) /\ determined small_task small_db /\ kept_first small_task small_db /\
  reg_reads ex_cols (t_regressors small_task) /\ reg_determined small_task small_db /\ coded small_task small_db /\
  Zlen small_db * Zlen small_db * Zlen small_db < 2 ^ 63 /\ of_BX (t_regressors small_task) <> [] /\
  is_wanted small_task small_db [7] (2, 0, 5) /\
  lists_that (fun s => is_wanted small_task small_db [7] s /\ same_group small_task (by_rows small_task small_db [7]) s (2, 0, 5)) [(2, 0, 5); (2, 3, 5)] /\
  (exists f, run ex_rng 9 small_task (Some 1) small_db = Ok (12, Some f)) /\
  run ex_rng 1 small_task (Some (-1)) small_db = Err ValueError.
Proof.
  split; [apply unfiltered_reads|]. split; [apply (unfiltered_determined small_task)|].
  split; [apply (@unfiltered_kept_first small_task)|]. split; [exact ex_reg_reads|].
  split; [apply ex_reg_regs_determined; reflexivity|]. split; [exact small_coded|]. split; [vm_compute; reflexivity|]. split; [discriminate|].
  split; [exact (proj1 ex_group)|]. split; [exact (proj2 ex_group)|]. split; [eexists; vm_compute; reflexivity|exact small_negative].
Qed.

(** C91: when all groups have more than 100 triplets, a negative threshold writes a task file without any
    triplet, whatever the random numbers, and drops every by value from the task. *)
Theorem C91_negative_empty :
  forall korder enum argsort, lists_keys korder -> lists_set enum -> argsort_spec argsort ->
  forall T cols db T' bs st,
    reads cols (t_filters T) -> determined T db -> kept_first T db ->
    reg_reads cols (t_regressors T) -> reg_determined T db ->
    task_init korder enum T cols db = Ok (T', bs, st) -> coded T db ->
    Zlen db * Zlen db * Zlen db < 2 ^ 63 -> r_ABX (t_regressors T) = false -> of_BX (t_regressors T) <> [] ->
  forall t, t < 0 ->
  (forall k s grp, is_wanted T db k s ->
    lists_that (fun u => is_wanted T db k u /\ same_group T (by_rows T db k) u s) grp -> 100 < Zlen grp) ->
  (exists k s, is_wanted T db k s) ->
  forall R fuel c, exists f,
    generate_triplets korder enum argsort R (S fuel) T' (Some t) bs st c = Ok ([], Some f) /\
    fl_triplets f = [] /\ fl_by_index f = [] /\ fl_bys f = [].
Proof. exact negative_empty. Qed.
Print Assumptions C91_negative_empty.

(** A task of 448 triplets, all in one group. *)
Example C91_negative_empty_ex :
  reads ex_cols (t_filters wrap_task) /\ determined wrap_task stuck_db /\ kept_first wrap_task stuck_db /\
  reg_reads ex_cols (t_regressors wrap_task) /\ reg_determined wrap_task stuck_db /\ coded wrap_task stuck_db /\
  Zlen stuck_db * Zlen stuck_db * Zlen stuck_db < 2 ^ 63 /\ of_BX (t_regressors wrap_task) <> [] /\
  (forall k s grp, is_wanted wrap_task stuck_db k s ->
    lists_that (fun u => is_wanted wrap_task stuck_db k u /\ same_group wrap_task (by_rows wrap_task stuck_db k) u s) grp -> 100 < Zlen grp) /\
  is_wanted wrap_task stuck_db [7] (0, 8, 16) /\
  exists f, run ex_rng 1 wrap_task (Some (-1)) stuck_db = Ok (448, Some f) /\ fl_triplets f = [] /\ fl_by_index f = [] /\ fl_bys f = [].
Proof.
  split; [apply (unfiltered_reads wrap_task)|]. split; [apply (unfiltered_determined wrap_task)|].
  split; [apply (@unfiltered_kept_first wrap_task)|]. split; [exact wrap_reg_reads|].
  split; [apply wrap_reg_determined|]. split; [exact stuck_coded|]. split; [exact stuck_size|]. split; [discriminate|].
  split; [exact stuck_groups|]. split; [exact stuck_wanted|exact stuck_negative].
Qed.

(** C91: a negative threshold is not always refused.  The statement "a negative threshold raises an error" is
    false: here 448 triplets are announced and the file that is written, without an error, has none. *)
Theorem C91_negative_threshold_refused_refuted :
  exists T db T' bs st,
    reads ex_cols (t_filters T) /\ determined T db /\ kept_first T db /\
    reg_reads ex_cols (t_regressors T) /\ reg_determined T db /\ coded T db /\
    task_init idk idz T ex_cols db = Ok (T', bs, st) /\ s_nb_triplets st = 448 /\
    forall R fuel c, exists f, generate_triplets idk idz argsort_ins R (S fuel) T' (Some (-1)) bs st c = Ok ([], Some f) /\ fl_triplets f = [].
Proof. exact negative_accepted. Qed.
Print Assumptions C91_negative_threshold_refused_refuted.
