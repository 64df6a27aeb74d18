(** Tasks used by the examples of Props_TaskLines.v. *)
From Coq Require Import String.
From Coq Require Import List ZArith Lia.
From Verif Require Import Prelude TypeFitting Sampler Sampler_proofs Task Task_spec Task_main Task_ex TaskLines_spec.
Import ListNotations.
Local Open Scope string_scope.
Local Open Scope list_scope.
Local Open Scope Z_scope.

Definition li_task : task := unfiltered (mk_task "phone" ["talker"] [] ex_filters no_regressors).
Definition li_free : task := unfiltered (mk_task "phone" [] ["lang"] ex_filters no_regressors).

(** With a regressor of B, so that a threshold counts. *)
Definition thr_task : task :=
  unfiltered (mk_task "phone" ["talker"] ["lang"] ex_filters
    (mk_regressors [] [] [] [("phone_B", fun _ r => r "phone")] [] false)).

(** The file of a task on the table of Task_ex.v. *)
Definition li_file (T : task) : option task_file :=
  match run ex_rng 9 T None ex_db with Ok (_, o) => o | Err _ => None end.

Lemma run_generated T n o : run ex_rng 9 T None ex_db = Ok (n, o) -> 0 <= n -> generated idk idz argsort_ins T ex_cols ex_db n o.
Proof.
  unfold run. destruct (task_init idk idz T ex_cols ex_db) as [[[T' bs] st]|] eqn:E; [cbn [bind]|discriminate].
  destruct (generate_triplets idk idz argsort_ins ex_rng 9 T' None bs st 0) as [[bs' o']|] eqn:G; [cbn [bind snd]|discriminate].
  intros H Hn. injection H as <- <-. exists ex_rng, 9%nat, 0%nat, T', bs, st, bs'. split; [exact E|]. split; [reflexivity|]. split; [exact G|].
  apply storable_small. change (Zlen ex_db) with 15. unfold capacity.
  destruct (Z.leb_spec (s_nb_triplets st) 127); [lia|]. destruct (Z.leb_spec (s_nb_triplets st) 32767); [lia|].
  destruct (Z.leb_spec (s_nb_triplets st) 2147483647); lia.
Qed.

Lemma unfiltered_fine T cols db : fine cols (unfiltered T) db.
Proof. split; [apply unfiltered_reads|]. split; [apply unfiltered_determined|apply unfiltered_kept_first]. Qed.
