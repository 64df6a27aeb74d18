(** C75: approximate statistics. *)
From Coq Require Import Ascii String.
From Verif Require Import Prelude Sampler Sampler_proofs Task Task_spec Task_ex Task_approx_spec Task_approx Task_approx_ex.
Open Scope Z_scope.
Open Scope string_scope.

(** C75: [compute_statistics(approximate=True)] gives an answer for every task... *)
Theorem C75_answers :
  forall korder enum, lists_keys korder -> lists_set enum ->
  forall T cols db T' bs st,
    reads cols (t_filters T) -> determined T db -> kept_first T db ->
    task_init korder enum T cols db = Ok (T', bs, st) -> Zlen db * Zlen db * Zlen db < 2 ^ 63 ->
    exists st', compute_statistics korder enum T' true bs = Ok st'.
Proof. exact approximate_total. Qed.
Print Assumptions C75_answers.

Example C75_answers_ex :
  reads ex_cols (t_filters ex_task) /\ determined ex_task ex_db /\ kept_first ex_task ex_db /\
  Zlen ex_db * Zlen ex_db * Zlen ex_db < 2 ^ 63 /\ exists r, approx_of ex_task = Ok r.
Proof.
  split; [exact ex_reads|]. split; [exact ex_determined|]. split; [exact ex_kept_first|].
  split; [vm_compute; reflexivity|eexists; vm_compute; reflexivity].
Qed.

(** ... whose numbers of triplets, in all, by group and by block, are those of the task without its
    filters of A, B, X and triplets, or, with several across columns, the exact ones; they are never
    below the exact ones, and the statistics tell when they may not be exact... *)
Theorem C75_counts :
  forall korder enum, lists_keys korder -> lists_set enum ->
  forall T cols db T' bs st st',
    reads cols (t_filters T) -> determined T db -> kept_first T db ->
    task_init korder enum T cols db = Ok (T', bs, st) -> compute_statistics korder enum T' true bs = Ok st' ->
    (forall L, NoDup L -> (forall k a b x, In (k, (a, b, x)) L <-> wanted (counted T) db k a b x) ->
       s_nb_triplets st' = Zlen L) /\
    (forall i b s l, nth_error bs i = Some b -> nth_error (s_by st') i = Some s ->
       lists_exactly (counted T) db (b_key b) l -> st_nb_triplets s = Zlen l) /\
    (forall i b s bk n l, t_across T <> [] -> nth_error bs i = Some b -> nth_error (s_by st') i = Some s ->
       In (bk, n) (st_block_sizes s) -> lists_block (counted T) db (b_key b) bk l -> n = Zlen l) /\
    s_nb_triplets st <= s_nb_triplets st' /\
    (s_approximate st = true <-> item_filtered T) /\ s_approximate_nb_triplets st = false /\
    (s_approximate st' = true <-> item_filtered T) /\ (s_approximate_nb_triplets st' = true <-> item_filtered T).
Proof. exact approximate_counts. Qed.
Print Assumptions C75_counts.

Example C75_counts_ex :
  match approx_of ex_task with
  | Ok (st, st') => s_nb_triplets st = 10 /\ s_nb_triplets st' = 14 /\
      map st_nb_triplets (s_by st) = [9; 0; 1] /\ map st_nb_triplets (s_by st') = [12; 0; 2] /\
      s_approximate st' = true /\ s_approximate_nb_triplets st' = true
  | Err _ => False
  end /\
  match approx_of (without_item_filters ex_task) with
  | Ok (st, st') => s_nb_triplets st = 14 /\ s_nb_triplets st' = 14 /\ s_approximate_nb_triplets st' = false
  | Err _ => False
  end /\
  counted ex_task = without_item_filters ex_task /\ counted two_across = two_across /\ item_filtered ex_task.
Proof. vm_compute. repeat split. left. discriminate. Qed.

(** ... the others are the same... *)
Theorem C75_others :
  forall korder enum T cols db T' bs st st',
    task_init korder enum T cols db = Ok (T', bs, st) -> compute_statistics korder enum T' true bs = Ok st' ->
    s_nb_by_levels st' = s_nb_by_levels st /\ s_nb_blocks st' = s_nb_blocks st /\
    Forall2 same_but_triplets (s_by st) (s_by st').
Proof. exact approximate_others. Qed.
Print Assumptions C75_others.

Example C75_others_ex :
  match approx_of ex_task with
  | Ok (st, st') => s_nb_blocks st' = 9 /\ map st_nb_across_pairs (s_by st') = [8; 0; 2] /\
      map st_nb_across_pairs (s_by st) = [8; 0; 2]
  | Err _ => False
  end.
Proof. vm_compute. auto. Qed.

(** ... and the triplets generated afterwards are the same, for any threshold. *)
Theorem C75_same_file :
  forall korder enum, lists_keys korder -> lists_set enum ->
  forall T cols db T' bs st st',
    reads cols (t_filters T) -> determined T db -> kept_first T db ->
    task_init korder enum T cols db = Ok (T', bs, st) ->
  forall argsort (R : rng) (fuel : nat) thr c,
    compute_statistics korder enum T' true bs = Ok st' ->
    s_nb_triplets st <> 0 -> s_nb_triplets st' < 2 ^ 63 -> storable T db (capacity (s_nb_triplets st)) ->
    generate_triplets korder enum argsort R fuel T' thr bs st' c =
    generate_triplets korder enum argsort R fuel T' thr bs st c.
Proof. exact same_file. Qed.
Print Assumptions C75_same_file.

Example C75_same_file_ex :
  storable ex_task ex_db (capacity 10) /\
  exists f, files_of None ex_task = Ok (Some f, Some f) /\ Zlen (fl_triplets f) = 10.
Proof. split; [apply storable_small; vm_compute; discriminate|]. eexists. split; vm_compute; reflexivity. Qed.

(** That a task without triplet is announced by a warning and writes no file is false after
    approximate statistics: a file without triplets is written. *)
Theorem C75_empty_file :
  forall korder enum, lists_keys korder -> lists_set enum ->
  forall T cols db T' bs st st',
    reads cols (t_filters T) -> determined T db -> kept_first T db ->
    task_init korder enum T cols db = Ok (T', bs, st) ->
  forall argsort (R : rng) (fuel : nat) thr c,
    compute_statistics korder enum T' true bs = Ok st' ->
    s_nb_triplets st = 0 -> s_nb_triplets st' <> 0 ->
  forall r, generate_triplets korder enum argsort R fuel T' thr bs st' c = Ok r ->
    exists f, snd r = Some f /\ fl_triplets f = [] /\ fl_by_index f = [] /\ fl_bys f = [] /\ fst r = [].
Proof. exact empty_file. Qed.
Print Assumptions C75_empty_file.

Example C75_empty_file_ex :
  reads ex_cols (t_filters refusing) /\ determined refusing ex_db /\ kept_first refusing ex_db /\
  match approx_of refusing with Ok (st, st') => s_nb_triplets st = 0 /\ s_nb_triplets st' = 19 | Err _ => False end /\
  match files_of None refusing with Ok (None, Some f) => fl_triplets f = [] | _ => False end.
Proof.
  split; [exact refusing_reads|]. split; [exact refusing_determined|]. split; [exact refusing_kept_first|].
  vm_compute. auto.
Qed.
