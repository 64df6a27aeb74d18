(** Counterexamples of Props_Task.v. *)
From Coq Require Import String.
From Verif Require Import Prelude TypeFitting Sampler Sampler_proofs Task Task_spec Task_main Task_ex.
Set Implicit Arguments.
Open Scope string_scope.
Open Scope list_scope.
Open Scope Z_scope.

(** A pair of runs that succeed. *)
Definition made (T : task) (thr : option Z) (db : list row) (n : Z) (f : task_file) : Prop :=
  exists T' bs st bs', task_init idk idz T ex_cols db = Ok (T', bs, st) /\
    generate_triplets idk idz argsort_ins ex_rng 9 T' thr bs st 0 = Ok (bs', Some f) /\ s_nb_triplets st = n.

Lemma run_made T thr db n f : run ex_rng 9 T thr db = Ok (n, Some f) -> made T thr db n f.
Proof.
  unfold run, made. intros H. apply bind_ok in H as ([[T' bs] st] & H1 & H).
  apply bind_ok in H as ([bs' g] & H2 & H). cbn [snd] in H. inversion H; subst. exists T', bs, st, bs'. auto.
Qed.

Lemma block_values_wrong :
  exists (T : task) (db : list row) (f : task_file),
    reads ex_cols (t_filters T) /\ determined T db /\ none_emptied T db /\
    made T None db 2 f /\
    wanted T db [7] 1 2 3 /\ ~ In (1, 2, 3) (fl_triplets f) /\
    In (2, 1, 4) (fl_triplets f) /\ ~ wanted T db [7] 2 1 4.
Proof.
  exists first_dropped, dropped_db. eexists.
  split; [exact first_dropped_reads|]. split; [apply first_dropped_determined|].
  split.
  { intros k i r [H0 E] _. apply nth_error_In in E. apply filter_In in E as [H1 H2].
    destruct (key_dec (map r ["lang"]) k) as [<-|]; [|discriminate]. clear H2. exists 1.
    repeat (destruct H1 as [<-|H1]; [eexists; split; [split; [lia|vm_compute; reflexivity]|vm_compute; reflexivity]|]).
    destruct H1. }
  split; [apply run_made; vm_compute; reflexivity|].
  split.
  { exists (ln 1 1 7 1), (ln 2 1 7 2), (ln 1 2 7 3). repeat split; try lia; try (vm_compute; reflexivity); try discriminate.
    all: intros c [<-|[]]; vm_compute; congruence. }
  split; [cbn; intuition discriminate|]. split; [cbn; tauto|].
  intros (ra & rb & rx & [_ Ha] & _ & _ & _ & _ & _ & Ho & _). vm_compute in Ha. injection Ha as <-. discriminate Ho.
Qed.

Lemma block_values_raise :
  exists (T : task) (db : list row),
    reads ex_cols (t_filters T) /\ determined T db /\ none_emptied T db /\
    check_database ex_cols (t_on T) (t_across T) (t_by T) = Ok tt /\
    task_init idk idz T ex_cols db = Err IndexError.
Proof.
  exists first_dropped, (firstn 5 dropped_db).
  split; [exact first_dropped_reads|]. split; [apply first_dropped_determined|].
  split.
  { intros k i r [H0 E] _. apply nth_error_In in E. apply filter_In in E as [H1 H2].
    destruct (key_dec (map r ["lang"]) k) as [<-|]; [|discriminate]. clear H2. exists 1.
    repeat (destruct H1 as [<-|H1]; [eexists; split; [split; [lia|vm_compute; reflexivity]|vm_compute; reflexivity]|]).
    destruct H1. }
  split; vm_compute; reflexivity.
Qed.

Lemma storage_wraps :
  exists (T : task) (db : list row) (f : task_file),
    reads ex_cols (t_filters T) /\ determined T db /\ kept_first T db /\
    made T None db 1 f /\ wanted T db [7] 150 152 151 /\ fl_triplets f = [(-106, -104, -105)].
Proof.
  exists (unfiltered ex_task), wide_db. eexists.
  split; [apply unfiltered_reads|]. split; [apply unfiltered_determined|].
  split; [apply unfiltered_kept_first|].
  split; [apply run_made; vm_compute; reflexivity|].
  split; [|reflexivity].
  exists (ln 1 1 7 150), (ln 2 1 7 152), (ln 1 2 7 151). repeat split; try lia; try (vm_compute; reflexivity); try discriminate.
  all: intros c [<-|[]]; vm_compute; congruence.
Qed.

(** A generic filter that leaves nothing of a by group. *)
Lemma emptied_raises :
  exists (T : task) (db : list row),
    reads ex_cols (t_filters T) /\ determined T db /\ kept_first T db /\
    check_database ex_cols (t_on T) (t_across T) (t_by T) = Ok tt /\
    (exists k a b x, wanted T db k a b x) /\ task_init idk idz T ex_cols db = Err ValueError.
Proof.
  set (T := mk_task "phone" ["talker"] ["lang"]
    (mk_filters (fun _ => true) (fun v r => r "n" <? 50) (fun v => true) None None None None) no_regressors).
  exists T, ([ln 1 1 7 1; ln 2 1 7 2; ln 1 2 7 3] ++ [ln 1 1 8 77]).
  split. { constructor; cbn; intros; try discriminate; try reflexivity. rewrite (H0 "n"); [reflexivity|]. cbn. tauto. }
  split. { constructor; cbn; intros; try discriminate; reflexivity. }
  split; [apply kept_first_split; reflexivity|].
  split; [reflexivity|]. split; [|vm_compute; reflexivity].
  exists [7], 0, 1, 2, (ln 1 1 7 1), (ln 2 1 7 2), (ln 1 2 7 3).
  repeat split; try lia; try (vm_compute; reflexivity); try discriminate.
  all: intros c [<-|[]]; vm_compute; congruence.
Qed.
