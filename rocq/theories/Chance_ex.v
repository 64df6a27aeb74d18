(** Examples about the choices of the threshold. *)
From Coq Require Import Ascii String.
From Verif Require Import Prelude TypeFitting Sampler Sampler_spec Sampler_proofs Chance_spec Task Task_spec Task_main Task_ex
  Task_reg_spec Task_align Task_reg_ex.
Open Scope Z_scope.
Open Scope list_scope.

Definition run_drawn (v : list Z) : list triplet :=
  match run (drawn 27720 v) 9 small_task (Some 1) small_db with Ok (_, Some f) => fl_triplets f | _ => [] end.

Lemma multiple_12 : multiple 12 27720.
Proof.
  split; [reflexivity|]. intros r Hr.
  assert (H : r = 1 \/ r = 2 \/ r = 3 \/ r = 4 \/ r = 5 \/ r = 6 \/ r = 7 \/ r = 8 \/ r = 9 \/ r = 10 \/ r = 11 \/ r = 12) by lia.
  repeat (destruct H as [->|H]; [apply Z.mod_divide; [discriminate|reflexivity]|]). subst r. apply Z.mod_divide; [discriminate|reflexivity].
Qed.

Definition same3 (s u : triplet) : bool :=
  let '(a, b, c) := s in let '(a', b', c') := u in (a =? a') && (b =? b') && (c =? c').

Lemma same3_iff s u : same3 s u = true <-> s = u.
Proof.
  destruct s as [[a b] c], u as [[a' b'] c']. cbn. rewrite !andb_true_iff, !Z.eqb_eq. split; [intros [[-> ->] ->]; reflexivity|intros E; injection E; auto].
Qed.

(** A choice of one triplet of each group of the small task. *)
Definition ex_keep (k : key) (s : triplet) : bool := existsb (same3 s) [(2, 0, 5); (0, 2, 4); (4, 5, 0); (5, 4, 2)].

Lemma ex_keep_chooses k t0 all : is_wanted small_task small_db k t0 ->
  lists_that (fun s => is_wanted small_task small_db k s /\ same_group small_task (by_rows small_task small_db k) s t0) all ->
  Zlen (filter (ex_keep k) all) = Z.min 1 (Zlen all).
Proof.
  intros Hw Hall.
  assert (Hrun : exists f, run ex_rng 9 small_task (Some 1) small_db = Ok (12, Some f) /\
     (exists k0, fl_bys f = [k0] /\ fl_by_index f = [(0, 4)]) /\ fl_triplets f = [(2, 0, 5); (0, 2, 4); (4, 5, 0); (5, 4, 2)]).
  { eexists. split; [vm_compute; reflexivity|]. split; [eexists; split; reflexivity|reflexivity]. }
  destruct Hrun as (f & Hf & (k0 & Hk0 & Hix) & Hfl). apply run_pair in Hf. destruct Hf as (T' & bs & st & bs' & Hi & Hst & Hg).
  assert (Hs : storable small_task small_db (capacity (s_nb_triplets st))) by (apply storable_small; rewrite Hst; vm_compute; discriminate).
  assert (rd : reads ex_cols (t_filters small_task)) by apply unfiltered_reads.
  assert (dt : determined small_task small_db) by apply (unfiltered_determined small_task).
  assert (kf : kept_first small_task small_db) by apply (@unfiltered_kept_first small_task).
  assert (rt : reg_determined small_task small_db) by (apply ex_reg_regs_determined; reflexivity).
  destruct (threshold_kept 9 idk_ok idz_ok argsort_ins_spec rd dt kf ex_reg_reads rt Hi 0 Hg ex_rng_ok small_room Hs (t := 1) eq_refl ltac:(discriminate) eq_refl) as [H1 H2].
  destruct (@file_partition idk idz argsort_ins ex_rng 9 idk_ok idz_ok small_task ex_cols small_db T' bs st rd dt kf Hi (Some 1) 0%nat bs' f Hg Hs) as (_ & _ & HP).
  assert (Ek : k = k0).
  { assert (Hin : In k (fl_bys f)) by (apply H1; exists t0; exact Hw). rewrite Hk0 in Hin. destruct Hin as [E|[]]. auto. }
  subst k0. rewrite Hk0, Hix in HP, H2. inversion HP as [|? ? ? ? HP1 _]; subst.
  destruct (H2 k (0, 4) (or_introl eq_refl)) as [_ H3].
  assert (Er : rows_of (0, 4) (fl_triplets f) = [(2, 0, 5); (0, 2, 4); (4, 5, 0); (5, 4, 2)]) by (rewrite Hfl; reflexivity).
  rewrite Er in H3, HP1.
  apply (H3 t0 all (filter (ex_keep k) all) Hw Hall). destruct Hall as [N1 N2]. split; [apply NoDup_filter; exact N1|].
  intros s. rewrite filter_In, N2. unfold ex_keep. rewrite existsb_exists. split.
  - intros [[_ Hg'] (u & Hu & E)]. apply same3_iff in E. subst u. auto.
  - intros [Hin Hg']. split; [split; [|exact Hg']|exists s; split; [exact Hin|apply same3_iff; reflexivity]].
    destruct s as [[a b] x]. apply HP1. exact Hin.
Qed.

Lemma ex_wanted : exists k s, is_wanted small_task small_db k s.
Proof.
  assert (Hrun : exists f, run ex_rng 9 small_task (Some 1) small_db = Ok (12, Some f) /\ exists k0, fl_bys f = [k0]).
  { eexists. split; [vm_compute; reflexivity|]. eexists; reflexivity. }
  destruct Hrun as (f & Hf & (k0 & Hk0)). apply run_pair in Hf. destruct Hf as (T' & bs & st & bs' & Hi & Hst & Hg).
  assert (Hs : storable small_task small_db (capacity (s_nb_triplets st))) by (apply storable_small; rewrite Hst; vm_compute; discriminate).
  assert (rd : reads ex_cols (t_filters small_task)) by apply unfiltered_reads.
  assert (dt : determined small_task small_db) by apply (unfiltered_determined small_task).
  assert (kf : kept_first small_task small_db) by apply (@unfiltered_kept_first small_task).
  assert (rt : reg_determined small_task small_db) by (apply ex_reg_regs_determined; reflexivity).
  destruct (threshold_kept 9 idk_ok idz_ok argsort_ins_spec rd dt kf ex_reg_reads rt Hi 0 Hg ex_rng_ok small_room Hs (t := 1) eq_refl ltac:(discriminate) eq_refl) as [H1 _].
  exists k0. apply H1. rewrite Hk0. left. reflexivity.
Qed.
