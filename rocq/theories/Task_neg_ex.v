(** Examples: negative thresholds. *)
From Coq Require Import Ascii String.
From Verif Require Import Prelude Sampler Sampler_spec Sampler_proofs Task Task_spec Task_reg_spec Task_main
  TaskIndex_spec Task_reg_ex Task_ex Task_thr_ex Chance_spec Chance_block Chance_ex Expect_ex Task_neg.
Set Implicit Arguments.
Open Scope Z_scope.

(** The numbers of triplets announced for [small_db] and for [stuck_db], and what a threshold of -1 then gives. *)
Lemma small_negative : Task_ex.run ex_rng 1 small_task (Some (-1)) small_db = Err ValueError.
Proof. vm_compute. reflexivity. Qed.

Lemma stuck_negative : exists f, Task_ex.run ex_rng 1 wrap_task (Some (-1)) stuck_db = Ok (448, Some f) /\
  fl_triplets f = [] /\ fl_by_index f = [] /\ fl_bys f = [].
Proof. eexists. split; [vm_compute; reflexivity|]. repeat split. Qed.

(** All the groups of [stuck_db] have more than 100 triplets. *)
Lemma stuck_groups k s grp : is_wanted wrap_task stuck_db k s ->
  lists_that (fun u => is_wanted wrap_task stuck_db k u /\ same_group wrap_task (by_rows wrap_task stuck_db k) u s) grp -> 100 < Zlen grp.
Proof.
  intros H1 H2. destruct (Z.lt_ge_cases 100 (Zlen grp)) as [H|H]; [exact H|exfalso].
  destruct stuck_init as (T' & b & st & init & _).
  assert (rd : reads ex_cols (t_filters wrap_task)) by apply (unfiltered_reads wrap_task).
  assert (dt : determined wrap_task stuck_db) by apply (unfiltered_determined wrap_task).
  assert (kf : kept_first wrap_task stuck_db) by apply (@unfiltered_kept_first wrap_task).
  pose proof (negative_raises idk_ok idz_ok argsort_ins_spec rd dt kf
     wrap_reg_reads (wrap_reg_determined _) init stuck_coded stuck_size eq_refl ltac:(discriminate) (t := -1) eq_refl _ H1 H2 H ex_rng 0 0)%nat as N.
  destruct stuck_negative as (f & E & _). unfold Task_ex.run in E. rewrite init in E. cbn beta iota delta [bind] in E. rewrite N in E. discriminate.
Qed.

Lemma stuck_wanted : is_wanted wrap_task stuck_db [7] (0, 8, 16).
Proof.
  cbn [is_wanted]. unfold wanted. change (by_rows wrap_task stuck_db [7]) with stuck_db.
  exists (nth 0 stuck_db (fun _ => 0)), (nth 8 stuck_db (fun _ => 0)), (nth 16 stuck_db (fun _ => 0)).
  split; [split; [lia|reflexivity]|]. split; [split; [lia|reflexivity]|]. split; [split; [lia|reflexivity]|].
  split; [|repeat split]. split; [reflexivity|]. split; [discriminate|]. split; intros c [<-|[]]; [reflexivity|discriminate].
Qed.

Lemma small_coded : coded small_task small_db.
Proof. intros k t0 l H1 H2. destruct (small_room k H1 H2) as (A & B & _). split; [exact A|exact B]. Qed.

(** A negative threshold is not refused: 448 triplets are announced, none is listed. *)
Lemma negative_accepted :
  exists T db T' bs st,
    reads ex_cols (t_filters T) /\ determined T db /\ kept_first T db /\
    reg_reads ex_cols (t_regressors T) /\ reg_determined T db /\ coded T db /\
    task_init idk idz T ex_cols db = Ok (T', bs, st) /\ s_nb_triplets st = 448 /\
    forall R fuel c, exists f, generate_triplets idk idz argsort_ins R (S fuel) T' (Some (-1)) bs st c = Ok ([], Some f) /\ fl_triplets f = [].
Proof.
  destruct stuck_init as (T' & b & st & Hi & Hn & _).
  assert (rd : reads ex_cols (t_filters wrap_task)) by apply (unfiltered_reads wrap_task).
  assert (dt : determined wrap_task stuck_db) by apply (unfiltered_determined wrap_task).
  assert (kf : kept_first wrap_task stuck_db) by apply (@unfiltered_kept_first wrap_task).
  exists wrap_task, stuck_db, T', [b], st.
  split; [exact rd|]. split; [exact dt|]. split; [exact kf|]. split; [exact wrap_reg_reads|].
  split; [apply wrap_reg_determined|]. split; [exact stuck_coded|]. split; [exact Hi|]. split; [exact Hn|].
  intros R fuel c.
  destruct (@negative_empty idk idz argsort_ins idk_ok idz_ok argsort_ins_spec wrap_task ex_cols stuck_db T' [b] st rd dt kf
     wrap_reg_reads (wrap_reg_determined _) Hi stuck_coded stuck_size eq_refl ltac:(discriminate) (-1) eq_refl stuck_groups
     (ex_intro _ [7] (ex_intro _ (0, 8, 16) stuck_wanted)) R fuel c) as (f & E & F & _). eauto.
Qed.
