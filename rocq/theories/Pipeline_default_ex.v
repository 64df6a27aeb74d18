(** Whole evaluations with the default distance, for the examples of Props_Invariance.v. *)
From Coq Require Import Ascii String.
From Coq Require Import List ZArith QArith Qreals Reals Lra Lia Permutation.
From Verif Require Import Prelude ListFacts TypeFitting Sampler Sampler_proofs Task Task_spec Task_sort Task_proofs Task_main Task_ex Task_reg_ex
  Task_reg_spec Task_align Pairs Pairs_spec Distances Distances_spec
  Score Score_spec Score_ex Analyze Analyze_spec Rounding H5io H5io_spec H5io_use H5io_ex Pipeline Pipeline_spec Pipeline_file Pipeline_proofs
  Pipeline_ex Pipeline_same_spec Pipeline_same Pipeline_same_main Pipeline_same_ex Pipeline_map_spec Pipeline_map
  Metrics Dtw DefaultDistance Invariance_spec Invariance_proofs Invariance_ex Pipeline_default.
Import ListNotations.
Local Open Scope Z_scope.
Local Open Scope string_scope.
Local Open Scope list_scope.

(** The evaluation of Pipeline_ex.v with the default distance between unit vectors, computed with
    rational numbers. *)
Definition z_distance (n : option bool) (m m' : list Z) : res (option Q) := qdist n (map Z.even m) (map Z.even m').
Definition qlt (a b : option Q) : bool :=
  match a, b with Some a, Some b => negb (Qle_bool b a) | Some _, None => true | None, _ => false end.

Definition z_lines := Eval vm_compute in got (pe_run (option Q) None qlt z_distance pl_file pl_files (Some 1) 2 turns).

Lemma z_evaluated : evaluated string_dec plain_text pl_name Z.leb qlt z_distance ex_task_reg ex_cols ex_db pl_places
  pl_indexes pl_files (Some 1) z_lines.
Proof.
  apply (pe_evaluated (option Q) None qlt z_distance (@rev _) 1000 ex_db pl_places pl_file pl_files (Some 1) 2 turns).
  - exact rev_order.
  - exact pl_made.
  - vm_compute. discriminate.
  - vm_compute. discriminate.
  - lia.
  - vm_compute. reflexivity.
Qed.

Lemma below_qvalue d d' : below (qvalue d) (qvalue d') = qlt d d'.
Proof.
  destruct d as [a|], d' as [b|]; try reflexivity. cbn. destruct (Rlt_dec (Q2R a) (Q2R b)) as [H|H]; destruct (Qle_bool b a) eqn:E; try reflexivity; exfalso.
  - apply Qle_bool_iff, Qle_Rle in E. lra.
  - apply H. apply Qlt_Rlt, Qnot_le_lt. intros L. apply Qle_bool_iff in L. congruence.
Qed.

(** The frames, the same multiplied by a factor of their own, the same with the columns
    exchanged. *)
Definition z_frame (z : Z) : list Metrics.num := unit (Z.even z).
Definition z_loud (z : Z) : list Metrics.num := times (IZR (1 + z * z)) (unit (Z.even z)).
Definition z_swapped (z : Z) : list Metrics.num := pick [1; 0]%nat (unit (Z.even z)).

Lemma z_loud_rescaled m : rescaled (fun c => 0 < c)%R (mk_mat Float64 2 (map z_frame m)) (mk_mat Float64 2 (map z_loud m)).
Proof.
  constructor; try reflexivity. cbn [m_rows]. induction m as [|z m IH]; [constructor|]. cbn [map]. constructor; [|exact IH].
  exists (IZR (1 + z * z)). split; [apply IZR_lt; nia|reflexivity].
Qed.

Lemma z_swapped_reordered m : reordered [1; 0]%nat (mk_mat Float64 2 (map z_frame m)) (mk_mat Float64 2 (map z_swapped m)).
Proof.
  constructor; try reflexivity.
  - apply perm_swap.
  - cbn [m_rows m_cols]. intros r Hr. apply in_map_iff in Hr. destruct Hr as (z & <- & _). unfold z_frame, unit. destruct (Z.even z); reflexivity.
  - cbn [m_rows]. rewrite map_map. reflexivity.
Qed.

Lemma z_frame_distance empty n m m' : default_on Float64 2 empty n (map z_frame m) (map z_frame m') = on_result qvalue (z_distance n m m').
Proof. unfold default_on, z_distance. rewrite <- (rational_distance empty). rewrite !map_map. reflexivity. Qed.

Lemma z_loud_distance empty n m m' : default_on Float64 2 empty n (map z_loud m) (map z_loud m') = on_result qvalue (z_distance n m m').
Proof.
  rewrite <- (z_frame_distance empty). unfold default_on. apply scale_default; apply z_loud_rescaled.
Qed.

Lemma z_swapped_distance empty n m m' : default_on Float64 2 empty n (map z_swapped m) (map z_swapped m') = on_result qvalue (z_distance n m m').
Proof.
  rewrite <- (z_frame_distance empty). unfold default_on. apply (order_default empty n [1; 0]%nat); apply z_swapped_reordered.
Qed.

Lemma z_frame_evaluated empty : evaluated string_dec plain_text pl_name Z.leb below (default_on Float64 2 empty) ex_task_reg ex_cols ex_db pl_places
  pl_indexes (with_frames z_frame pl_files) (Some 1) z_lines.
Proof. eapply evaluated_map; [exact below_qvalue|intros; apply z_frame_distance|exact z_evaluated]. Qed.
Lemma z_loud_evaluated empty : evaluated string_dec plain_text pl_name Z.leb below (default_on Float64 2 empty) ex_task_reg ex_cols ex_db pl_places
  pl_indexes (with_frames z_loud pl_files) (Some 1) z_lines.
Proof. eapply evaluated_map; [exact below_qvalue|intros; apply z_loud_distance|exact z_evaluated]. Qed.
Lemma z_swapped_evaluated empty : evaluated string_dec plain_text pl_name Z.leb below (default_on Float64 2 empty) ex_task_reg ex_cols ex_db pl_places
  pl_indexes (with_frames z_swapped pl_files) (Some 1) z_lines.
Proof. eapply evaluated_map; [exact below_qvalue|intros; apply z_swapped_distance|exact z_evaluated]. Qed.

(** The matrices of the items. *)
Section Frames.
Variables (F : Type) (f : Z -> F).

Lemma with_frames_ok : features_ok (with_frames f pl_files).
Proof.
  split.
  - intros fd [<-|[<-|[]]]; (split; [repeat constructor; cbn; intuition discriminate|reflexivity]).
  - repeat constructor; cbn; intuition discriminate.
Qed.

Lemma with_frames_evaluable : evaluable plain_text ex_task_reg ex_cols ex_db pl_places pl_indexes (with_frames f pl_files).
Proof. destruct p0_evaluable. constructor; try assumption. exact with_frames_ok. Qed.

Lemma between_map (times : list Z) (frames : list Z) a b : frames_between Z.leb times (map f frames) a b = map f (frames_between Z.leb times frames a b).
Proof.
  unfold frames_between. revert frames. induction times as [|t times IH]; intros [|x frames]; try reflexivity. cbn [map combine filter fst].
  destruct (_ && _)%bool; cbn [map snd]; rewrite IH; reflexivity.
Qed.

Lemma with_frames_matrix p n : matrix_of Z.leb (with_frames f pl_files) p n -> exists m, matrix_of Z.leb pl_files p m /\ n = map f m.
Proof.
  intros (times & frames & (fd & Hfd & Ht & Hf) & ->). apply in_map_iff in Hfd. destruct Hfd as (fd0 & <- & Hfd). cbn in Ht, Hf.
  apply in_map_iff in Hf. destruct Hf as ([k fr] & [= -> <-] & Hf). rewrite between_map. eexists. split; [|reflexivity].
  exists times, fr. split; [exists fd0; auto|reflexivity].
Qed.
End Frames.

Lemma with_frames_alike (F F' : Type) (f : Z -> F) (f' : Z -> F') p m n :
  matrix_of Z.leb (with_frames f pl_files) p m -> matrix_of Z.leb (with_frames f' pl_files) p n -> exists l, m = map f l /\ n = map f' l.
Proof.
  intros Hm Hn. apply with_frames_matrix in Hm. destruct Hm as (l & Hl & ->). apply with_frames_matrix in Hn. destruct Hn as (l' & Hl' & ->).
  pose proof (matrix_fun pl_features_ok Hl Hl') as <-. eauto.
Qed.
