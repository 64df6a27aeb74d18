(** C89: with a threshold, what is measured on the kept triplets of a group is unbiased. *)
From Coq Require Import Reals Ascii String.
From Verif Require Import Prelude Sampler Sampler_spec Sampler_proofs Task Task_spec Task_main Task_ex Task_reg_spec Task_reg_ex
  Chance_spec Chance_ex Expect_spec Expect_task Expect_ex.
Open Scope list_scope.
Open Scope Z_scope.

(** C89: two files that can be written with a threshold and that list the same triplets are the same
    file: the draws decide which triplets are kept, and nothing else. *)
Theorem C89_files_by_triplets :
  forall korder enum argsort, lists_keys korder -> lists_set enum -> argsort_spec argsort ->
  forall T cols db T' bs st,
    reads cols (t_filters T) -> determined T db -> kept_first T db ->
    reg_reads cols (t_regressors T) -> reg_determined T db ->
    task_init korder enum T cols db = Ok (T', bs, st) -> room T db ->
    Zlen db * Zlen db * Zlen db < 2 ^ 63 -> r_ABX (t_regressors T) = false -> storable T db (capacity (s_nb_triplets st)) ->
  forall t, 0 < t ->
  forall f g,
    possible (fun fuel R => match generate_triplets korder enum argsort R fuel T' (Some t) bs st 0 with Ok (_, of) => Ok of | Err e => Err e end) (Some f) ->
    possible (fun fuel R => match generate_triplets korder enum argsort R fuel T' (Some t) bs st 0 with Ok (_, of) => Ok of | Err e => Err e end) (Some g) ->
    (forall k s, listed (Some f) k s = listed (Some g) k s) -> f = g.
Proof. exact files_by_triplets. Qed.
Print Assumptions C89_files_by_triplets.

(** Two different series of draws, the same file; and a third, another file. *)
Example C89_files_by_triplets_ex :
  exists f g, run (drawn 27720 [0; 0; 0; 0; 0; 0; 0; 0]) 9 small_task (Some 1) small_db = Ok (12, Some f) /\
    run (drawn 27720 [5; 4; 3; 2; 1; 0; 0; 0]) 9 small_task (Some 1) small_db = Ok (12, Some f) /\
    run (drawn 27720 [27719; 27719; 27719; 27719; 27719]) 9 small_task (Some 1) small_db = Ok (12, Some g) /\
    listed (Some f) [7] (2, 0, 5) = true /\ listed (Some g) [7] (2, 0, 5) = false /\
    listed (Some f) [7] (2, 3, 5) = false /\ listed (Some g) [7] (2, 3, 5) = true.
Proof. eexists. eexists. split; [vm_compute; reflexivity|]. split; [vm_compute; reflexivity|]. split; [vm_compute; reflexivity|]. repeat split; vm_compute; reflexivity. Qed.

(** C89: each triplet of a group of [n] is kept with probability min(t, n) / n. *)
Theorem C89_kept_probability :
  forall korder enum argsort, lists_keys korder -> lists_set enum -> argsort_spec argsort ->
  forall T cols db T' bs st,
    reads cols (t_filters T) -> determined T db -> kept_first T db ->
    reg_reads cols (t_regressors T) -> reg_determined T db ->
    task_init korder enum T cols db = Ok (T', bs, st) -> room T db ->
    Zlen db * Zlen db * Zlen db < 2 ^ 63 -> r_ABX (t_regressors T) = false -> storable T db (capacity (s_nb_triplets st)) ->
  forall t, 0 < t -> of_BX (t_regressors T) <> [] ->
  forall k t0 all, is_wanted T db k t0 ->
    lists_that (fun s => is_wanted T db k s /\ same_group T (by_rows T db k) s t0) all ->
  forall s, In s all ->
    expects (s_nb_triplets st)
      (fun fuel R => match generate_triplets korder enum argsort R fuel T' (Some t) bs st 0 with Ok (_, of) => Ok of | Err e => Err e end)
      (fun of => if listed of k s then 1 else 0)%R
      (IZR (Z.min t (Zlen all)) / IZR (Zlen all))%R.
Proof. exact kept_probability. Qed.
Print Assumptions C89_kept_probability.

(** A group of two triplets, of which one is kept. *)
Example C89_kept_probability_ex :
  reads ex_cols (t_filters small_task) /\ determined small_task small_db /\ kept_first small_task small_db /\
  reg_reads ex_cols (t_regressors small_task) /\ reg_determined small_task small_db /\ room small_task small_db /\
  storable small_task small_db (capacity 12) /\ of_BX (t_regressors small_task) <> [] /\
  is_wanted small_task small_db [7] (2, 0, 5) /\
  lists_that (fun s => is_wanted small_task small_db [7] s /\ same_group small_task (by_rows small_task small_db [7]) s (2, 0, 5)) [(2, 0, 5); (2, 3, 5)] /\
  Z.min 1 (Zlen [(2, 0, 5); (2, 3, 5)]) = 1.
Proof.
  split; [apply unfiltered_reads|]. split; [apply (unfiltered_determined small_task)|].
  split; [apply (@unfiltered_kept_first small_task)|]. split; [exact ex_reg_reads|].
  split; [apply ex_reg_regs_determined; reflexivity|]. split; [exact small_room|].
  split; [apply storable_small; vm_compute; discriminate|]. split; [discriminate|]. split; [exact (proj1 ex_group)|]. split; [exact (proj2 ex_group)|reflexivity].
Qed.

(** C89: whatever number is attached to the triplets (the score of each, for instance), the expected
    value of its mean over the kept triplets of a group is its mean over all the triplets of the group. *)
Theorem C89_kept_mean :
  forall korder enum argsort, lists_keys korder -> lists_set enum -> argsort_spec argsort ->
  forall T cols db T' bs st,
    reads cols (t_filters T) -> determined T db -> kept_first T db ->
    reg_reads cols (t_regressors T) -> reg_determined T db ->
    task_init korder enum T cols db = Ok (T', bs, st) -> room T db ->
    Zlen db * Zlen db * Zlen db < 2 ^ 63 -> r_ABX (t_regressors T) = false -> storable T db (capacity (s_nb_triplets st)) ->
  forall t, 0 < t -> of_BX (t_regressors T) <> [] ->
  forall k t0 all, is_wanted T db k t0 ->
    lists_that (fun s => is_wanted T db k s /\ same_group T (by_rows T db k) s t0) all ->
  forall v : triplet -> R,
    expects (s_nb_triplets st)
      (fun fuel R => match generate_triplets korder enum argsort R fuel T' (Some t) bs st 0 with Ok (_, of) => Ok of | Err e => Err e end)
      (fun of => Rsum (map v (filter (listed of k) all)) / IZR (Z.min t (Zlen all)))%R
      (Rsum (map v all) / IZR (Zlen all))%R.
Proof. exact kept_mean. Qed.
Print Assumptions C89_kept_mean.

Example C89_kept_mean_ex :
  is_wanted small_task small_db [7] (2, 0, 5) /\
  lists_that (fun s => is_wanted small_task small_db [7] s /\ same_group small_task (by_rows small_task small_db [7]) s (2, 0, 5)) [(2, 0, 5); (2, 3, 5)] /\
  exists f, run (drawn 27720 [0; 0; 0; 0; 0; 0; 0; 0]) 9 small_task (Some 1) small_db = Ok (12, Some f) /\
    filter (listed (Some f) [7]) [(2, 0, 5); (2, 3, 5)] = [(2, 0, 5)].
Proof. split; [exact (proj1 ex_group)|]. split; [exact (proj2 ex_group)|]. eexists. split; [vm_compute; reflexivity|]. vm_compute. reflexivity. Qed.
