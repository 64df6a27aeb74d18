(** Evaluations with a threshold, used in the examples of Props_Unbiased.v. *)
From Coq Require Import Reals Lra Ascii String.
From Coq Require Import List ZArith QArith Qreals Lia Permutation.
From Verif Require Import Prelude ListFacts TypeFitting Sampler Sampler_spec Sampler_proofs Chance_spec Expect_spec Expect Task Task_spec Task_sort Task_proofs Task_main Task_ex Task_reg_ex
  Task_reg_spec Task_align Pairs Pairs_spec Distances Distances_spec
  Score Score_spec Score_ex Analyze Analyze_spec Rounding H5io H5io_spec H5io_use H5io_ex Pipeline Pipeline_spec Pipeline_file Pipeline_thr Pipeline_proofs
  Pipeline_ex Pipeline_same_spec Pipeline_same_ex Unbiased_spec Unbiased Unbiased_main.
Import ListNotations.
Local Open Scope Z_scope.
Local Open Scope string_scope.
Local Open Scope list_scope.

(** The triplets of the by 7. *)
Definition u_triplets : list triplet :=
  [(2, 0, 3); (2, 4, 3); (3, 1, 2); (3, 5, 2); (0, 2, 5); (1, 3, 0); (1, 3, 4); (5, 3, 0); (5, 3, 4)].

Lemma u_init : exists T' bs st bs' f, task_init idk idz ex_task_reg ex_cols ex_db = Ok (T', bs, st) /\ s_nb_triplets st = 10 /\
  generate_triplets idk idz argsort_ins ex_rng 9 T' None bs st 0 = Ok (bs', Some f) /\
  fl_bys f = [[7]; [8]] /\ fl_by_index f = [(0, 9); (9, 10)] /\ rows_of (0, 9) (fl_triplets f) = u_triplets.
Proof. do 5 eexists. split; [vm_compute; reflexivity|]. split; [reflexivity|]. split; [vm_compute; reflexivity|]. repeat split. Qed.

Lemma u_storable : storable ex_task_reg ex_db (capacity 10).
Proof. apply storable_small. vm_compute. discriminate. Qed.

Lemma u_wanted : lists_that (is_wanted ex_task_reg ex_db [7]) u_triplets.
Proof.
  destruct u_init as (T' & bs & st & bs' & f & Hi & Hn & Hg & H1 & H2 & H3).
  assert (Hs : storable ex_task_reg ex_db (capacity (s_nb_triplets st))) by (rewrite Hn; exact u_storable).
  destruct (all_written idk idz argsort_ins ex_rng 9 idk_ok idz_ok argsort_ins_spec ex_task_reg ex_cols ex_db None 0 (ev_reads p0_evaluable) (ev_determined p0_evaluable) (ev_kept p0_evaluable)
    T' bs st Hi bs' f Hg Hs (or_introl (or_introl eq_refl))) as (W & _).
  rewrite H1, H2 in W. inversion W as [|? ? ? ? W1 _]; subst. rewrite H3 in W1. exact W1.
Qed.

(** The triplets of a group, or of a combination, of this by. *)
Definition u_group (s : triplet) : list triplet :=
  filter (fun u => if same_group_dec ex_task_reg (by_rows ex_task_reg ex_db [7]) u s then true else false) u_triplets.

Lemma u_group_lists s : lists_that (fun u => is_wanted ex_task_reg ex_db [7] u /\ same_group ex_task_reg (by_rows ex_task_reg ex_db [7]) u s) (u_group s).
Proof.
  destruct u_wanted as [N H]. split; [apply NoDup_filter; exact N|]. intros u. unfold u_group. rewrite filter_In, H.
  destruct (same_group_dec ex_task_reg (by_rows ex_task_reg ex_db [7]) u s); split; intros [H1 H2]; split; auto; discriminate || contradiction.
Qed.

Lemma u_group_any s g : lists_that (fun u => is_wanted ex_task_reg ex_db [7] u /\ same_group ex_task_reg (by_rows ex_task_reg ex_db [7]) u s) g ->
  Zlen g = Zlen (u_group s).
Proof.
  intros [N H]. unfold Zlen. f_equal. apply Permutation_length. destruct (u_group_lists s) as [N' H']. apply NoDup_Permutation; auto.
  intros u. rewrite H, H'. reflexivity.
Qed.

(** The groups are those of the three regressors analysed. *)
Lemma u_same s u : In s u_triplets -> In u u_triplets ->
  combination ex_task_reg (by_rows ex_task_reg ex_db [7]) (map fst pl_indexes) s = combination ex_task_reg (by_rows ex_task_reg ex_db [7]) (map fst pl_indexes) u ->
  Zlen (u_group s) = Zlen (u_group u).
Proof.
  intros Hs Hu E.
  assert (G : forallb (fun s => forallb (fun u => if list_eq_dec Z.eq_dec
     (combination ex_task_reg (by_rows ex_task_reg ex_db [7]) (map fst pl_indexes) s) (combination ex_task_reg (by_rows ex_task_reg ex_db [7]) (map fst pl_indexes) u)
     then Z.eqb (Zlen (u_group s)) (Zlen (u_group u)) else true) u_triplets) u_triplets = true) by (vm_compute; reflexivity).
  rewrite forallb_forall in G. specialize (G s Hs). rewrite forallb_forall in G. specialize (G u Hu).
  destruct (list_eq_dec Z.eq_dec _ _) as [_|N]; [apply Z.eqb_eq; exact G|congruence].
Qed.

(** The analysis of one regressor only: its lines put groups of four triplets and of one together. *)
Definition u_indexes : list (string * list string) := [("phone_1", ["?"; "a"; "b"; "c"])].
Definition u_all : list triplet := [(0, 2, 5); (1, 3, 0); (1, 3, 4); (5, 3, 0); (5, 3, 4)].
Definition u_answers : list Z := [0; 1; -1; 1; 1].

Lemma u_levels : levels_ok plain_text ex_task_reg ex_db u_indexes.
Proof.
  destruct pl_levels. constructor; auto.
  - discriminate.
  - repeat constructor; cbn; intuition discriminate.
  - intros s [<-|[]]. apply lv_known. cbn. tauto.
  - intros s levels [[= <- <-]|[]]. discriminate.
  - intros s levels k u [[= <- <-]|[]]. apply (lv_values "phone_1" ["?"; "a"; "b"; "c"] k u). cbn. tauto.
  - apply plain_labels. reflexivity.
Qed.

Lemma u_evaluable : evaluable plain_text ex_task_reg ex_cols ex_db pl_places u_indexes pl_files.
Proof. destruct p0_evaluable. constructor; auto. exact u_levels. Qed.

Lemma u_lists : lists_that (fun s => is_wanted ex_task_reg ex_db [7] s /\ combination ex_task_reg (by_rows ex_task_reg ex_db [7]) (map fst u_indexes) s = [1]) u_all.
Proof.
  destruct u_wanted as [N H].
  assert (E : u_all = filter (fun s => if list_eq_dec Z.eq_dec (combination ex_task_reg (by_rows ex_task_reg ex_db [7]) (map fst u_indexes) s) [1] then true else false) u_triplets)
    by (vm_compute; reflexivity).
  rewrite E. split; [apply NoDup_filter; exact N|]. intros s. rewrite filter_In, H.
  destruct (list_eq_dec Z.eq_dec _ _); split; intros [H1 H2]; split; auto; discriminate || contradiction.
Qed.

Lemma u_answer : Forall2 (answer Z.leb Z.ltb pl_distance ex_task_reg ex_db pl_places pl_files (Some 1) [7]) u_all u_answers.
Proof.
  Local Ltac at_place := split; [lia|vm_compute; reflexivity].
  Local Ltac at_file := exists [0; 1; 2; 3; 4; 5], [5; 3; 8; 1; 9; 2]; split; [eexists; split; [left; reflexivity|split; left; reflexivity]|vm_compute; reflexivity].
  Local Ltac at_file' := exists [0; 1; 2; 3; 4; 5; 6], [4; 4; 7; 2; 6; 6; 1]; split; [eexists; split; [right; left; reflexivity|split; left; reflexivity]|vm_compute; reflexivity].
  Local Ltac at_matrix := first [at_file|at_file'].
  Local Ltac at_verdict := first [left; split; vm_compute; reflexivity|right; left; split; vm_compute; reflexivity|right; right; split; [|split]; vm_compute; reflexivity].
  Local Ltac at_answer := do 8 eexists; split; [at_place|]; split; [at_place|]; split; [at_place|]; split; [at_matrix|]; split; [at_matrix|]; split; [at_matrix|];
    split; [vm_compute; reflexivity|]; split; [vm_compute; reflexivity|]; at_verdict.
  unfold u_all, u_answers. repeat (constructor; [at_answer|]). constructor.
Qed.

(** The chance of each triplet to be kept when the threshold is two. *)
Definition u_chance (s : triplet) : R := (IZR (Z.min 2 (Zlen (u_group s))) / IZR (Zlen (u_group s)))%R.

Lemma u_chances s g : lists_that (fun u => is_wanted ex_task_reg ex_db [7] u /\ same_group ex_task_reg (by_rows ex_task_reg ex_db [7]) u s) g ->
  u_chance s = (IZR (Z.min 2 (Zlen g)) / IZR (Zlen g))%R.
Proof. intros H. rewrite (u_group_any s g H). reflexivity. Qed.

Lemma u_sizes : map (fun s => Zlen (u_group s)) u_all = [1; 4; 4; 4; 4].
Proof. vm_compute. reflexivity. Qed.

Lemma u_expected : expected u_all u_answers u_chance = (2 / 3)%R.
Proof.
  assert (E1 : Zlen (u_group (0, 2, 5)) = 1) by (vm_compute; reflexivity).
  assert (E2 : Zlen (u_group (1, 3, 0)) = 4) by (vm_compute; reflexivity).
  assert (E3 : Zlen (u_group (1, 3, 4)) = 4) by (vm_compute; reflexivity).
  assert (E4 : Zlen (u_group (5, 3, 0)) = 4) by (vm_compute; reflexivity).
  assert (E5 : Zlen (u_group (5, 3, 4)) = 4) by (vm_compute; reflexivity).
  unfold expected, u_all, u_answers. cbn [combine map fst snd]. rewrite !Rsum_cons, !Rsum_nil.
  unfold u_chance. rewrite E1, E2, E3, E4, E5. change (Z.min 2 1) with 1. change (Z.min 2 4) with 2.
  unfold worth. cbn [Z.eqb Pos.eqb]. field.
Qed.

(** The same analysis without a threshold. *)
Definition u_make (thr : option Z) :=
  make_file string_dec plain_text pl_name (@rev (string * by_group string)) idk idz argsort_ins ex_rng 9 pl_len pl_len pl_len 1000 100
            ex_task_reg ex_cols ex_db pl_places u_indexes thr 0.
Definition u_file : abx_file Z string := Eval vm_compute in pe_file (u_make None).
Definition u_lines := Eval vm_compute in got (pe_run Z 0 Z.ltb pl_distance u_file pl_files (Some 1) 2 turns).

Lemma u_made : u_make None = Ok (Some u_file).
Proof. vm_compute. reflexivity. Qed.

Lemma u_evaluated : evaluated string_dec plain_text pl_name Z.leb Z.ltb pl_distance ex_task_reg ex_cols ex_db pl_places u_indexes pl_files (Some 1) u_lines.
Proof.
  assert (Hr : pe_run Z 0 Z.ltb pl_distance u_file pl_files (Some 1) 2 turns = Some u_lines) by (vm_compute; reflexivity).
  unfold pe_run in Hr.
  destruct (compute_distances _ _ _ _ _ _) as [df' [s0|e]] eqn:Ec; [|discriminate].
  destruct (s_main _) eqn:Em; try discriminate. destruct (d_data _) as [dis|] eqn:Ed; [|discriminate].
  destruct (score _ _ _ _ _ _ _ _) as [k' [[]|e]] eqn:Es; [|discriminate].
  destruct (lookup (k_scores k') _) as [scores|e] eqn:El; [|discriminate].
  destruct (analyze _ _ _ _) as [[names lines']|e] eqn:Ea; [|discriminate]. injection Hr as ->.
  refine (@Evaluated Z string string_dec plain_text pl_name Z Z Z.leb Z.ltb pl_distance ex_task_reg ex_cols ex_db pl_places u_indexes pl_files (Some 1) u_lines
    (@rev _) rev_order idk idz argsort_ins ex_rng 9 idk_ok idz_ok argsort_ins_spec pl_len pl_len pl_len _ _ _ 1000 100 _ None 0 u_file u_made _ _ _
    0 100 2 _ df' s0 _ _ Ec _ Em dis rnd64 pl_len (fun s => s)
    (mk_disk [("t.abx", for_score u_file)] [("d.distance", dis)] [] []) "t.abx" "d.distance" None k' scores names Ed rnd64_exact _ _ _ _ Es El Ea).
  - intros z. unfold pl_len. lia.
  - intros z. unfold pl_len. lia.
  - intros z. unfold pl_len. lia.
  - lia.
  - apply storable_small. vm_compute. discriminate.
  - left. vm_compute. discriminate.
  - left. left. reflexivity.
  - lia.
  - eexists. reflexivity.
  - intros z. unfold pl_len. lia.
  - reflexivity.
  - reflexivity.
  - intros [H|[H|[[]|[]]]]; cbn in H; intuition discriminate.
Qed.

Lemma u_asym : asymmetric Z.ltb.
Proof. intros d d'. rewrite Z.ltb_lt, Z.ltb_ge. lia. Qed.

Lemma u_distinct s levels : In (s, levels) u_indexes -> NoDup levels.
Proof. intros [[= <- <-]|[]]. repeat constructor; cbn; intuition discriminate. Qed.

Lemma pl_distinct s levels : In (s, levels) pl_indexes -> NoDup levels.
Proof. intros [[= <- <-]|[[= <- <-]|[[= <- <-]|[]]]]; repeat constructor; cbn; intuition discriminate. Qed.

Lemma u_biased : always_expects 10
  (evaluates (fun fuel R => make_file string_dec plain_text pl_name (@rev (string * by_group string)) idk idz argsort_ins R fuel pl_len pl_len pl_len 1000 100
                              ex_task_reg ex_cols ex_db pl_places u_indexes (Some 2) 0)
    (finished argsort_ins Z.leb Z.ltb pl_distance pl_files (Some 1)))
  (score_at string_dec (pl_name [7]) ["a"]) (2 / 3)%R.
Proof.
  destruct u_init as (T' & bs & st & bs' & f & Hi & Hn & _). rewrite <- u_expected, <- Hn.
  assert (Hl : forall z, (0 < pl_len z)%nat) by (intros z; unfold pl_len; lia).
  eapply (expected_score Z string Z Z string_dec plain_text pl_name pl_name_inj (@rev _) rev_order idk idz argsort_ins idk_ok idz_ok argsort_ins_spec pl_len pl_len pl_len Hl Hl Hl
    1000 100 ltac:(lia) ex_task_reg ex_cols ex_db pl_places u_indexes pl_files u_evaluable T' bs st Hi pl_room) with (r := [1]) (t := 2).
  - vm_compute. reflexivity.
  - reflexivity.
  - rewrite Hn. exact u_storable.
  - rewrite Hn. left. lia.
  - lia.
  - discriminate.
  - exact u_asym.
  - apply pl_answerable.
  - exact u_distinct.
  - repeat constructor. discriminate.
  - exact u_lists.
  - discriminate.
  - exact u_answer.
  - intros s u Hs Hu G E. rewrite <- E. apply (whole_groups string ex_task_reg ex_db u_indexes); auto; [exact (ev_reg_determined u_evaluable)|].
    right. intros nf [<-|[]]. cbn. intuition discriminate.
  - intros s g _ Hg. exact (u_chances s g Hg).
Qed.

Lemma multiple_10 : multiple 10 2520.
Proof.
  split; [reflexivity|]. intros r Hr.
  assert (H : r = 1 \/ r = 2 \/ r = 3 \/ r = 4 \/ r = 5 \/ r = 6 \/ r = 7 \/ r = 8 \/ r = 9 \/ r = 10) by lia.
  repeat (destruct H as [->|H]; [apply Z.mod_divide; [discriminate|reflexivity]|]). subst r. apply Z.mod_divide; [discriminate|reflexivity].
Qed.

Lemma u_line : In (mk_line ["a"] (pl_name [7]) (7 # 10) 5) u_lines.
Proof. vm_compute. tauto. Qed.

Lemma unequal : exists ln, In ln u_lines /\
  always_expects 10
    (evaluates (fun fuel R => make_file string_dec plain_text pl_name (@rev (string * by_group string)) idk idz argsort_ins R fuel pl_len pl_len pl_len 1000 100
                                ex_task_reg ex_cols ex_db pl_places u_indexes (Some 2) 0)
      (finished argsort_ins Z.leb Z.ltb pl_distance pl_files (Some 1)))
    (score_at string_dec (l_by ln) (l_labels ln)) (2 / 3)%R /\
  Q2R (l_score ln) = (7 / 10)%R /\
  ~ always_expects 10
    (evaluates (fun fuel R => make_file string_dec plain_text pl_name (@rev (string * by_group string)) idk idz argsort_ins R fuel pl_len pl_len pl_len 1000 100
                                ex_task_reg ex_cols ex_db pl_places u_indexes (Some 2) 0)
      (finished argsort_ins Z.leb Z.ltb pl_distance pl_files (Some 1)))
    (score_at string_dec (l_by ln) (l_labels ln)) (Q2R (l_score ln)).
Proof.
  exists (mk_line ["a"] (pl_name [7]) (7 # 10) 5). split; [exact u_line|]. cbn [l_by l_labels l_score].
  assert (E : Q2R (7 # 10) = (7 / 10)%R) by (unfold Q2R; cbn [Qnum Qden]; reflexivity).
  split; [exact u_biased|]. split; [exact E|]. intros H. pose proof (always_unique 10 _ _ _ _ 2520 multiple_10 H u_biased) as H'. rewrite E in H'. lra.
Qed.
