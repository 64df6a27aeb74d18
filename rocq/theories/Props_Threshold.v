(** Property theorems: a threshold in a task without regressors of B and X (C10). *)
From Coq Require Import String.
From Coq Require Import List ZArith.
From Verif Require Import Prelude Sampler Sampler_proofs Task Task_spec Task_ex Task_refuted Task_reg_spec Task_reg_ex Threshold_ex.
Import ListNotations.
Local Open Scope Z_scope.
Local Open Scope list_scope.

(** C10: without regressors of B and X the threshold has no effect: the file is the one made
    without threshold. *)
Theorem C10_threshold_ignored :
  forall korder enum argsort (R : rng) (fuel : nat) T cols db T' bs st,
    task_init korder enum T cols db = Ok (T', bs, st) -> of_BX (t_regressors T) = [] ->
  forall thr c,
    generate_triplets korder enum argsort R fuel T' thr bs st c =
    generate_triplets korder enum argsort R fuel T' None bs st c.
Proof. exact threshold_ignored. Qed.
Print Assumptions C10_threshold_ignored.

Example C10_threshold_ignored_ex :
  of_BX (t_regressors bare_task) = [] /\ run ex_rng 9 bare_task (Some 1) small_db = Ok (12, Some bare_file) /\
  run ex_rng 9 bare_task None small_db = Ok (12, Some bare_file) /\ Zlen (fl_triplets bare_file) = 12.
Proof. repeat split; vm_compute; reflexivity. Qed.

(** ... so two triplets of a block that have the same regressors are written with a threshold of
    one triplet. *)
Theorem C10_threshold_without_regressors_refuted :
  exists T db f k t t',
    reads ex_cols (t_filters T) /\ determined T db /\ kept_first T db /\
    reg_reads ex_cols (t_regressors T) /\ reg_determined T db /\ room T db /\ storable T db (capacity 12) /\
    made T (Some 1) db 12 f /\ fl_bys f = [k] /\ fl_by_index f = [(0, 12)] /\
    same_group T (by_rows T db k) t t' /\ In t (fl_triplets f) /\ In t' (fl_triplets f) /\ t <> t'.
Proof. exact threshold_without_regressors. Qed.
Print Assumptions C10_threshold_without_regressors_refuted.
