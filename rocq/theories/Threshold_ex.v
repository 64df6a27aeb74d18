(** A threshold in a task without regressors of B and X. *)
From Coq Require Import String.
From Coq Require Import List ZArith Lia.
From Verif Require Import Prelude TypeFitting Sampler Sampler_proofs Task Task_spec Task_proofs Task_main Task_ex Task_refuted Task_reg_spec Task_reg_ex
  Pipeline_thr.
Import ListNotations.
Local Open Scope Z_scope.
Local Open Scope string_scope.
Local Open Scope list_scope.

Lemma threshold_ignored korder enum argsort R fuel T cols db T' bs st :
  task_init korder enum T cols db = Ok (T', bs, st) -> of_BX (t_regressors T) = [] ->
  forall thr c, generate_triplets korder enum argsort R fuel T' thr bs st c =
                generate_triplets korder enum argsort R fuel T' None bs st c.
Proof.
  intros E H thr c. apply of_BX_nil in H as [H1 H2].
  assert (ET : t_regressors T' = t_regressors T) by (destruct (init_inv _ _ _ _ _ E) as (_ & -> & _); reflexivity).
  apply generate_no_regressors; rewrite ET; assumption.
Qed.

Definition bare_task : task := mk_task "phone" ["talker"] ["lang"] (t_filters (unfiltered ex_task)) no_regressors.
Definition bare_file : task_file :=
  Eval vm_compute in match run ex_rng 9 bare_task (Some 1) small_db with
                     | Ok (_, Some f) => f
                     | _ => mk_file [] [] [] [] []
                     end.
Lemma bare_run : run ex_rng 9 bare_task (Some 1) small_db = Ok (12, Some bare_file).
Proof. vm_compute. reflexivity. Qed.

Lemma none_reads : reg_reads ex_cols no_regressors.
Proof. constructor; intros nf; intros; contradiction. Qed.
Lemma none_determined T db : t_regressors T = no_regressors -> reg_determined T db.
Proof. intros E. constructor; rewrite E; intros nf; intros; contradiction. Qed.

Lemma threshold_without_regressors :
  exists T db f k t t',
    reads ex_cols (t_filters T) /\ determined T db /\ kept_first T db /\
    reg_reads ex_cols (t_regressors T) /\ reg_determined T db /\ room T db /\ storable T db (capacity 12) /\
    made T (Some 1) db 12 f /\ fl_bys f = [k] /\ fl_by_index f = [(0, 12)] /\
    same_group T (by_rows T db k) t t' /\ In t (fl_triplets f) /\ In t' (fl_triplets f) /\ t <> t'.
Proof.
  exists bare_task, small_db, bare_file, [7], (0, 2, 1), (0, 2, 4).
  split; [apply unfiltered_reads|]. split; [apply (unfiltered_determined bare_task)|].
  split; [apply (@unfiltered_kept_first bare_task)|]. split; [exact none_reads|].
  split; [apply none_determined; reflexivity|].
  split; [apply (@room_small _ _ 3); [vm_compute; discriminate|lia|vm_compute; reflexivity|intros ng ra rb rx []]|].
  split; [apply storable_small; vm_compute; discriminate|].
  split; [apply run_made, bare_run|]. split; [reflexivity|]. split; [reflexivity|].
  split; [split; [|intros ng []]|]. 
  - cbn. intros s H. reflexivity.
  - vm_compute. intuition discriminate.
Qed.
