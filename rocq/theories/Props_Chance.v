(** C88: with a threshold, no selection of triplets is favoured. *)
From Coq Require Import Reals Ascii String.
From Verif Require Import Prelude Sampler Sampler_spec Sampler_proofs Task Task_spec Task_main Task_ex Task_reg_spec Task_reg_ex
  Chance_spec Chance_sample Chance_task Chance_ex.
Open Scope list_scope.
Open Scope Z_scope.

(** C88: a sample without replacement of [n] of [N] positions can be any of the sets of [n] positions,
    and is each of them with the same probability. *)
Theorem C88_samples : forall n N dtype, 0 <= n <= N -> N - 1 <= tmax dtype ->
  evenly zlist_dec N (fun fuel R => match sample_without_replacement R fuel 0 n N dtype with Ok (l, _) => Ok l | Err e => Err e end) /\
  forall l, possible (fun fuel R => match sample_without_replacement R fuel 0 n N dtype with Ok (l, _) => Ok l | Err e => Err e end) l <->
    is_sample n N l.
Proof. exact sample_even. Qed.
Print Assumptions C88_samples.

(** Of the four vectors of two draws below 2, each sample of one of two positions gets two; and both
    algorithms are met: 3 of 101 positions are found by rejection. *)
Example C88_samples_ex :
  List.length (filter (fun v => match sample_without_replacement (drawn 2 v) 3 0 1 2 I64 with Ok ([0], _) => true | _ => false end) (vectors 2 2)) = 2%nat /\
  List.length (filter (fun v => match sample_without_replacement (drawn 2 v) 3 0 1 2 I64 with Ok ([1], _) => true | _ => false end) (vectors 2 2)) = 2%nat /\
  sample_without_replacement (drawn 101 [7; 7; 3; 99]) 5 0 3 101 I64 = Ok ([3; 7; 99], 4%nat) /\ is_sample 3 101 [3; 7; 99].
Proof.
  split; [vm_compute; reflexivity|]. split; [vm_compute; reflexivity|]. split; [vm_compute; reflexivity|].
  split; [reflexivity|]. split; [repeat constructor|]. intros x [<-|[<-|[<-|[]]]]; split; (discriminate || reflexivity).
Qed.

(** C88: generating a task with a threshold ends with probability one, and all the files that it can
    write have the same probability. *)
Theorem C88_files_even :
  forall korder enum argsort, lists_keys korder -> lists_set enum -> argsort_spec argsort ->
  forall T cols db T' bs st,
    reads cols (t_filters T) -> determined T db -> kept_first T db ->
    reg_reads cols (t_regressors T) -> reg_determined T db ->
    task_init korder enum T cols db = Ok (T', bs, st) -> room T db ->
    Zlen db * Zlen db * Zlen db < 2 ^ 63 -> r_ABX (t_regressors T) = false -> storable T db (capacity (s_nb_triplets st)) ->
  forall t, 0 < t ->
    evenly file_dec (s_nb_triplets st)
      (fun fuel R => match generate_triplets korder enum argsort R fuel T' (Some t) bs st 0 with Ok (_, of) => Ok of | Err e => Err e end).
Proof. exact files_even. Qed.
Print Assumptions C88_files_even.

(** Three series of draws, three different files. *)
Example C88_files_even_ex :
  reads ex_cols (t_filters small_task) /\ determined small_task small_db /\ kept_first small_task small_db /\
  reg_reads ex_cols (t_regressors small_task) /\ reg_determined small_task small_db /\ room small_task small_db /\
  storable small_task small_db (capacity 12) /\ multiple 12 27720 /\
  run_drawn [0; 0; 0; 0; 0; 0; 0; 0] = [(2, 0, 5); (0, 2, 1); (1, 5, 0); (5, 1, 2)] /\
  run_drawn [27719; 0; 0; 27719; 0; 27719; 27719; 0; 0] = [(2, 3, 5); (0, 2, 1); (1, 5, 3); (5, 4, 2)] /\
  run_drawn [27719; 27719; 27719; 27719; 27719] = [(2, 3, 5); (3, 2, 4); (1, 5, 0); (5, 1, 2)].
Proof.
  split; [apply unfiltered_reads|]. split; [apply (unfiltered_determined small_task)|].
  split; [apply (@unfiltered_kept_first small_task)|]. split; [exact ex_reg_reads|].
  split; [apply ex_reg_regs_determined; reflexivity|]. split; [exact small_room|].
  split; [apply storable_small; vm_compute; discriminate|]. split; [exact multiple_12|]. repeat split; vm_compute; reflexivity.
Qed.

(** C88: and every choice is among them: whatever triplets are chosen, as many in each group as the
    threshold lets (all of the smaller groups), there is a file that lists these triplets and no other. *)
Theorem C88_every_choice :
  forall korder enum argsort, lists_keys korder -> lists_set enum -> argsort_spec argsort ->
  forall T cols db T' bs st,
    reads cols (t_filters T) -> determined T db -> kept_first T db ->
    reg_reads cols (t_regressors T) -> reg_determined T db ->
    task_init korder enum T cols db = Ok (T', bs, st) -> room T db ->
    Zlen db * Zlen db * Zlen db < 2 ^ 63 -> r_ABX (t_regressors T) = false -> storable T db (capacity (s_nb_triplets st)) ->
  forall t, 0 < t -> of_BX (t_regressors T) <> [] ->
  forall keep : key -> triplet -> bool,
    (exists k s, is_wanted T db k s) ->
    (forall k t0 all, is_wanted T db k t0 ->
       lists_that (fun s => is_wanted T db k s /\ same_group T (by_rows T db k) s t0) all ->
       Zlen (filter (keep k) all) = Z.min t (Zlen all)) ->
    exists f,
      possible (fun fuel R => match generate_triplets korder enum argsort R fuel T' (Some t) bs st 0 with Ok (_, of) => Ok of | Err e => Err e end) (Some f) /\
      forall k s, (exists ij, In (k, ij) (combine (fl_bys f) (fl_by_index f)) /\ In s (rows_of ij (fl_triplets f))) <->
        is_wanted T db k s /\ keep k s = true.
Proof. exact every_choice. Qed.
Print Assumptions C88_every_choice.

Example C88_every_choice_ex :
  (exists k s, is_wanted small_task small_db k s) /\ of_BX (t_regressors small_task) <> [] /\
  (forall k t0 all, is_wanted small_task small_db k t0 ->
     lists_that (fun s => is_wanted small_task small_db k s /\ same_group small_task (by_rows small_task small_db k) s t0) all ->
     Zlen (filter (ex_keep k) all) = Z.min 1 (Zlen all)) /\
  ex_keep [] (4, 5, 0) = true /\ ex_keep [] (1, 5, 0) = false.
Proof. split; [exact ex_wanted|]. split; [discriminate|]. split; [exact ex_keep_chooses|]. split; reflexivity. Qed.
