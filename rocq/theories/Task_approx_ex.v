(** Examples for approximate statistics. *)
From Coq Require Import Ascii String.
From Verif Require Import Prelude Sampler Sampler_proofs Task Task_spec Task_ex Task_main Task_approx_spec.
Open Scope Z_scope.
Open Scope string_scope.

(** The statistics of a task on the example table, exact and approximate. *)
Definition approx_of (T : task) : res (stats * stats) :=
  match task_init idk idz T ex_cols ex_db with
  | Ok (T', bs, st) => match compute_statistics idk idz T' true bs with Ok st' => Ok (st, st') | Err e => Err e end
  | Err e => Err e
  end.

(** The file of a task on the example table, after each of the statistics. *)
Definition files_of (thr : option Z) (T : task) : res (option task_file * option task_file) :=
  match task_init idk idz T ex_cols ex_db with
  | Ok (T', bs, st) =>
    st' <- compute_statistics idk idz T' true bs ;;
    r <- generate_triplets idk idz argsort_ins ex_rng 9 T' thr bs st 0 ;;
    r' <- generate_triplets idk idz argsort_ins ex_rng 9 T' thr bs st' 0 ;;
    Ok (snd r, snd r')
  | Err e => Err e
  end.

(** Two across columns; a filter that refuses every A. *)
Definition two_across : task := mk_task "phone" ["talker"; "n"] ["lang"] ex_filters no_regressors.
Definition refusing : task :=
  mk_task "phone" ["talker"] ["lang"]
    (mk_filters (fun _ => true) (fun _ _ => true) (fun _ => true) (Some (fun _ _ => false)) None None None) no_regressors.

Lemma refusing_reads : reads ex_cols (t_filters refusing).
Proof. constructor; cbn; intros; try discriminate; try reflexivity. match goal with H : Some _ = Some _ |- _ => injection H as <-; reflexivity end. Qed.
Lemma refusing_determined : determined refusing ex_db.
Proof. constructor; cbn; intros; try discriminate; try reflexivity. match goal with H : Some _ = Some _ |- _ => injection H as <-; reflexivity end. Qed.
Lemma refusing_kept_first : kept_first refusing ex_db.
Proof. intros k i j ri rj _ _ _ _. reflexivity. Qed.
