(** Whole evaluations used in the examples of Props_PipelineScores.v. *)
From Coq Require Import Ascii String.
From Coq Require Import List ZArith QArith Lia Permutation.
From Verif Require Import Prelude ListFacts TypeFitting Sampler Sampler_proofs Task Task_spec Task_sort Task_proofs Task_main Task_ex Task_reg_ex
  Task_reg_spec Task_align Pairs Pairs_spec Distances Distances_spec
  Score Score_spec Score_ex Analyze Analyze_spec Rounding H5io H5io_spec H5io_use H5io_ex Pipeline Pipeline_spec Pipeline_file Pipeline_proofs
  Pipeline_ex Pipeline_same_spec Pipeline_same_main Pipeline_same_ex Pipeline_scores_spec.
Import ListNotations.
Local Open Scope Z_scope.
Local Open Scope string_scope.
Local Open Scope list_scope.

(** ** The items of a phone have the same frames *)

Definition q_place (r : row) : Distances.item Z := mk_item "f1" (3 * r "phone") (3 * r "phone" + 1).
Definition q_places : list (Distances.item Z) := map q_place ex_db.
Definition q_files : list (feature_data Z Z) :=
  [([("f1", [3; 4; 6; 7; 9; 10])], [("f1", [10; 11; 20; 21; 30; 31])])].
Definition q_file : abx_file Z string := Eval vm_compute in pe_file (pe_make (@rev _) 1000 ex_db q_places).
Definition q_lines := Eval vm_compute in got (pe_run Z 0 Z.ltb pl_distance q_file q_files None 2 turns).
Definition q_lines_inv := Eval vm_compute in got (pe_run Z 0 Z.gtb pl_distance q_file q_files None 2 turns).

Lemma q_features_ok : features_ok q_files.
Proof.
  split.
  - intros fd [<-|[]]. split; [repeat constructor; cbn; intuition discriminate|reflexivity].
  - repeat constructor; cbn; intuition discriminate.
Qed.

Lemma q_evaluable : evaluable plain_text ex_task_reg ex_cols ex_db q_places pl_indexes q_files.
Proof.
  apply (pe_evaluable (firstn 14 ex_db) (skipn 14 ex_db)); try reflexivity; [vm_compute; discriminate|exact q_features_ok].
Qed.

Lemma q_evaluated : evaluated string_dec plain_text pl_name Z.leb Z.ltb pl_distance ex_task_reg ex_cols ex_db q_places pl_indexes q_files None q_lines.
Proof.
  apply (pe_evaluated Z 0 Z.ltb pl_distance (@rev _) 1000 ex_db q_places q_file q_files None 2 turns q_lines);
    try (vm_compute; congruence); [exact rev_order|lia].
Qed.

Lemma q_evaluated_inv : evaluated string_dec plain_text pl_name Z.leb Z.gtb pl_distance ex_task_reg ex_cols ex_db q_places pl_indexes q_files None q_lines_inv.
Proof.
  apply (pe_evaluated Z 0 Z.gtb pl_distance (@rev _) 1000 ex_db q_places q_file q_files None 2 turns q_lines_inv);
    try (vm_compute; congruence); [exact rev_order|lia].
Qed.

Lemma gt_asym : asymmetric Z.gtb.
Proof. intros d d'. rewrite !Z.gtb_ltb, Z.ltb_lt, Z.ltb_ge. lia. Qed.

(** The frames of an item are known from its phone. *)
Lemma q_frames r p m : In (r, p) (combine ex_db q_places) -> matrix_of Z.leb q_files p m ->
  r "phone" = 1 /\ m = [10; 11] \/ r "phone" = 2 /\ m = [20; 21] \/ r "phone" = 3 /\ m = [30; 31].
Proof.
  assert (E : forall ph m0, matrix_of Z.leb q_files (mk_item "f1" (3 * ph) (3 * ph + 1)) m0 ->
    forall m, matrix_of Z.leb q_files (mk_item "f1" (3 * ph) (3 * ph + 1)) m -> m = m0).
  { intros ph m0 H m' H'. exact (matrix_fun q_features_ok H' H). }
  assert (G : forall ph m0, m0 = frames_between Z.leb [3; 4; 6; 7; 9; 10] [10; 11; 20; 21; 30; 31] (3 * ph) (3 * ph + 1) ->
    matrix_of Z.leb q_files (mk_item "f1" (3 * ph) (3 * ph + 1)) m0).
  { intros ph m0 ->. exists [3; 4; 6; 7; 9; 10], [10; 11; 20; 21; 30; 31]. split; [|reflexivity].
    exists ([("f1", [3; 4; 6; 7; 9; 10])], [("f1", [10; 11; 20; 21; 30; 31])]). repeat split; left; reflexivity. }
  unfold q_places. intros I H. assert (p = q_place r /\ In r ex_db) as [-> Ir].
  { clear - I. induction ex_db as [|r0 l IH]; [destruct I|]. destruct I as [[= <- <-]|I]; [split; [reflexivity|left; reflexivity]|].
    destruct (IH I). split; [assumption|right; assumption]. }
  assert (P : r "phone" = 1 \/ r "phone" = 2 \/ r "phone" = 3).
  { clear - Ir. cbn [ex_db In] in Ir. repeat (destruct Ir as [<-|Ir]; [vm_compute; tauto|]). destruct Ir. }
  unfold q_place in H. destruct P as [P|[P|P]]; rewrite P in H |- *.
  - left. split; [reflexivity|]. exact (E 1 _ (G 1 [10; 11] eq_refl) m H).
  - right; left. split; [reflexivity|]. exact (E 2 _ (G 2 [20; 21] eq_refl) m H).
  - right; right. split; [reflexivity|]. exact (E 3 _ (G 3 [30; 31] eq_refl) m H).
Qed.

Lemma q_categories : categories Z.leb pl_distance (fun d d' => (d <? d')%Z = true) ex_task_reg ex_db q_places q_files None.
Proof.
  intros k ra pa rb pb rx px Ia Ib Ix Ea Eb ma mb mx dax dbx Ma Mb Mx Da Db.
  unfold items_of in Ia, Ib, Ix. apply filter_In in Ia as [Ia _], Ib as [Ib _], Ix as [Ix _].
  change (t_on ex_task_reg) with "phone" in *.
  injection Da as <-. injection Db as <-.
  destruct (q_frames ra pa ma Ia Ma) as [[Pa ->]|[[Pa ->]|[Pa ->]]]; destruct (q_frames rb pb mb Ib Mb) as [[Pb ->]|[[Pb ->]|[Pb ->]]];
    destruct (q_frames rx px mx Ix Mx) as [[Px ->]|[[Px ->]|[Px ->]]]; rewrite Pa, Pb, Px in *; try congruence; reflexivity.
Qed.

(** ** All the items have the same frames *)

Definition b_places : list (Distances.item Z) := map (fun _ => mk_item "f2" 1 3) ex_db.
Definition b_file : abx_file Z string := Eval vm_compute in pe_file (pe_make (@rev _) 1000 ex_db b_places).
Definition b_lines := Eval vm_compute in got (pe_run Z 0 Z.ltb pl_distance b_file pl_files None 2 turns).

Lemma b_evaluable : evaluable plain_text ex_task_reg ex_cols ex_db b_places pl_indexes pl_files.
Proof.
  apply (pe_evaluable (firstn 14 ex_db) (skipn 14 ex_db)); try reflexivity; [vm_compute; discriminate|exact pl_features_ok].
Qed.

Lemma b_evaluated : evaluated string_dec plain_text pl_name Z.leb Z.ltb pl_distance ex_task_reg ex_cols ex_db b_places pl_indexes pl_files None b_lines.
Proof.
  apply (pe_evaluated Z 0 Z.ltb pl_distance (@rev _) 1000 ex_db b_places b_file pl_files None 2 turns b_lines);
    try (vm_compute; congruence); [exact rev_order|lia].
Qed.

Lemma b_same : same_frames Z.leb b_places pl_files.
Proof.
  intros p p' m m' Hp Hp'. apply in_map_iff in Hp as (_ & <- & _), Hp' as (_ & <- & _). intros H H'.
  exact (matrix_fun pl_features_ok H H').
Qed.

(** ** Other regressors are analysed *)

Definition pr_make (indexes : list (string * list string)) (memory : Z) (db : list row) (places : list (Distances.item Z)) :=
  make_file string_dec plain_text pl_name (@rev _) idk idz argsort_ins ex_rng 9 pl_len pl_len pl_len memory 100
            ex_task_reg ex_cols db places indexes None 0.

Section Run.
Variables (V : Type) (zero : V) (vlt : V -> V -> bool) (distance : option bool -> list Z -> list Z -> res V).

Lemma pr_evaluated indexes memory db places x files normalize n_cpu schedule lines :
  pr_make indexes memory db places = Ok (Some x) -> Zlen db <= capacity (Zlen (x_triplets x)) + 1 ->
  64 * Zlen (x_triplets x) <= 3 * memory -> (1 <= n_cpu)%nat ->
  pe_run V zero vlt distance x files normalize n_cpu schedule = Some lines ->
  evaluated string_dec plain_text pl_name Z.leb vlt distance ex_task_reg ex_cols db places indexes files normalize lines.
Proof.
  intros Hm Hs H64 Hn Hr. unfold pe_run in Hr.
  destruct (compute_distances _ _ _ _ _ _) as [df' [s0|e]] eqn:Ec; [|discriminate].
  destruct (s_main _) eqn:Em; try discriminate. destruct (d_data _) as [dis|] eqn:Ed; [|discriminate].
  destruct (score _ _ _ _ _ _ _ _) as [k' [[]|e]] eqn:Es; [|discriminate].
  destruct (lookup (k_scores k') _) as [scores|e] eqn:El; [|discriminate].
  destruct (analyze _ _ _ _) as [[names lines']|e] eqn:Ea; [|discriminate]. injection Hr as ->.
  refine (@Evaluated Z string string_dec plain_text pl_name Z V Z.leb vlt distance ex_task_reg ex_cols db places indexes files normalize lines
    (@rev _) rev_order idk idz argsort_ins ex_rng 9 idk_ok idz_ok argsort_ins_spec pl_len pl_len pl_len _ _ _ memory 100 _ None 0 x Hm _ _ _
    zero 100 n_cpu _ df' s0 _ Hn Ec _ Em dis rnd64 pl_len (fun s => s)
    (mk_disk [("t.abx", for_score x)] [("d.distance", dis)] [] []) "t.abx" "d.distance" None k' scores names Ed rnd64_exact _ _ _ _ Es El Ea).
  - intros z. unfold pl_len. lia.
  - intros z. unfold pl_len. lia.
  - intros z. unfold pl_len. lia.
  - lia.
  - apply storable_small. exact Hs.
  - left. exact H64.
  - left. left. reflexivity.
  - eexists. reflexivity.
  - intros z. unfold pl_len. lia.
  - reflexivity.
  - reflexivity.
  - intros [H|[H|[[]|[]]]]; cbn in H; intuition discriminate.
Qed.
End Run.

Definition r_indexes : list (string * list string) := [("talker_X", ["?"; "ann"; "bob"; "cid"])].
Definition r_file : abx_file Z string := Eval vm_compute in pe_file (pr_make r_indexes 1000 ex_db pl_places).
Definition r_lines := Eval vm_compute in got (pe_run Z 0 Z.ltb pl_distance r_file pl_files (Some 1) 2 turns).

Lemma r_levels : levels_ok plain_text ex_task_reg ex_db r_indexes.
Proof.
  pose proof pl_levels as [H1 H2 H3 H4 H5 H6 H7 H8 H9]. constructor.
  - discriminate.
  - exact H2.
  - repeat constructor; cbn; intuition discriminate.
  - intros s [<-|[]]. apply H4. right; left; reflexivity.
  - intros s levels [[= <- <-]|[]]. discriminate.
  - intros s levels k t [[= <- <-]|[]]. apply H6. right; left; reflexivity.
  - vm_compute. discriminate.
  - exact H8.
  - apply plain_labels. reflexivity.
Qed.

Lemma r_evaluable : evaluable plain_text ex_task_reg ex_cols ex_db pl_places r_indexes pl_files.
Proof. destruct p0_evaluable. constructor; try assumption. exact r_levels. Qed.

Lemma r_evaluated : evaluated string_dec plain_text pl_name Z.leb Z.ltb pl_distance ex_task_reg ex_cols ex_db pl_places r_indexes pl_files (Some 1) r_lines.
Proof.
  apply (pr_evaluated Z 0 Z.ltb pl_distance r_indexes 1000 ex_db pl_places r_file pl_files (Some 1) 2 turns r_lines);
    try (vm_compute; congruence); lia.
Qed.

(** The distances of C76 taken in the other order. *)
Definition v_lines := Eval vm_compute in got (pe_run Z 0 (fun d d' => Z.ltb d' d) pl_distance pl_file pl_files (Some 1) 2 turns).

Lemma v_evaluated : evaluated string_dec plain_text pl_name Z.leb (fun d d' => Z.ltb d' d) pl_distance ex_task_reg ex_cols ex_db pl_places pl_indexes pl_files (Some 1) v_lines.
Proof.
  apply (pe_evaluated Z 0 (fun d d' => Z.ltb d' d) pl_distance (@rev _) 1000 ex_db pl_places pl_file pl_files (Some 1) 2 turns v_lines);
    try (vm_compute; congruence); [exact rev_order|lia].
Qed.

Lemma q_categories_inv : categories Z.leb pl_distance (fun d d' => (d' >? d)%Z = true) ex_task_reg ex_db q_places q_files None.
Proof.
  intros k ra pa rb pb rx px Ia Ib Ix Ea Eb ma mb mx dax dbx Ma Mb Mx Da Db. rewrite Z.gtb_ltb.
  exact (q_categories k ra pa rb pb rx px Ia Ib Ix Ea Eb ma mb mx dax dbx Ma Mb Mx Da Db).
Qed.
