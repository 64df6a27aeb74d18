(** Whole evaluations of other tasks used in the examples of Props_TotalLines.v. *)
From Coq Require Import Ascii String.
From Coq Require Import List ZArith QArith Lia Permutation.
From Verif Require Import Prelude ListFacts TypeFitting Sampler Sampler_proofs Task Task_spec Task_sort Task_proofs Task_main Task_ex Task_reg_ex
  Task_reg_spec Task_align Pairs Pairs_spec Distances Distances_spec
  Score Score_spec Score_ex Analyze Analyze_spec Rounding H5io H5io_spec H5io_use H5io_ex Pipeline Pipeline_spec Pipeline_file Pipeline_proofs
  Pipeline_ex Pipeline_same_spec Pipeline_same_main Pipeline_same_ex Pipeline_scores_spec TaskLines_spec TotalLines_spec.
Import ListNotations.
Local Open Scope string_scope.
Local Open Scope list_scope.
Local Open Scope Z_scope.

Definition tl_make (T : task) (memory : Z) :=
  make_file string_dec plain_text pl_name (@rev _) idk idz argsort_ins ex_rng 9 pl_len pl_len pl_len memory 100
            T ex_cols ex_db pl_places pl_indexes None 0.

Lemma tl_evaluated T memory x files normalize n_cpu schedule lines :
  tl_make T memory = Ok (Some x) -> Zlen ex_db <= capacity (Zlen (x_triplets x)) + 1 ->
  64 * Zlen (x_triplets x) <= 3 * memory -> (1 <= n_cpu)%nat ->
  pe_run Z 0 Z.ltb pl_distance x files normalize n_cpu schedule = Some lines ->
  evaluated string_dec plain_text pl_name Z.leb Z.ltb pl_distance T ex_cols ex_db pl_places pl_indexes files normalize lines.
Proof.
  intros Hm Hs H64 Hn Hr. unfold pe_run in Hr.
  destruct (compute_distances _ _ _ _ _ _) as [df' [s0|e]] eqn:Ec; [|discriminate].
  destruct (s_main _) eqn:Em; try discriminate. destruct (d_data _) as [dis|] eqn:Ed; [|discriminate].
  destruct (score _ _ _ _ _ _ _ _) as [k' [[]|e]] eqn:Es; [|discriminate].
  destruct (lookup (k_scores k') _) as [scores|e] eqn:El; [|discriminate].
  destruct (analyze _ _ _ _) as [[names lines']|e] eqn:Ea; [|discriminate]. injection Hr as ->.
  refine (@Evaluated Z string string_dec plain_text pl_name Z Z Z.leb Z.ltb pl_distance T ex_cols ex_db pl_places pl_indexes files normalize lines
    (@rev _) rev_order idk idz argsort_ins ex_rng 9 idk_ok idz_ok argsort_ins_spec pl_len pl_len pl_len _ _ _ memory 100 _ None 0 x Hm _ _ _
    0 100 n_cpu _ df' s0 _ Hn Ec _ Em dis rnd64 pl_len (fun s => s)
    (mk_disk [("t.abx", for_score x)] [("d.distance", dis)] [] []) "t.abx" "d.distance" None k' scores names Ed rnd64_exact _ _ _ _ Es El Ea).
  - intros z. unfold pl_len. lia.
  - intros z. unfold pl_len. lia.
  - intros z. unfold pl_len. lia.
  - lia.
  - apply storable_small. exact Hs.
  - left. exact H64.
  - left. left. reflexivity.
  - eexists. reflexivity.
  - intros z. unfold pl_len. lia.
  - reflexivity.
  - reflexivity.
  - intros [H|[H|[[]|[]]]]; cbn in H; intuition discriminate.
Qed.

Lemma tl_levels on across by_ fs : let T := mk_task on across by_ fs ex_regressors in levels_ok plain_text T ex_db pl_indexes.
Proof.
  intros T. constructor.
  - discriminate.
  - repeat constructor; cbn; intuition discriminate.
  - repeat constructor; cbn; intuition discriminate.
  - intros s. cbn. tauto.
  - intros s levels [[= <- <-]|[[= <- <-]|[[= <- <-]|[]]]]; discriminate.
  - intros s levels k [[a b] x] Hs Hw. destruct (Pipeline_ex.wanted_lines _ _ _ _ _ _ Hw) as (ra & rb & rx & (_ & Ea & Ia) & (_ & Eb & Ib) & (_ & Ex & Ix)).
    assert (P : forall r, In r ex_db -> 0 <= r "phone" < 4 /\ 0 <= r "talker" < 4).
    { intros r Hr. cbn [ex_db In] in Hr. repeat (destruct Hr as [<-|Hr]; [vm_compute; intuition discriminate|]). destruct Hr. }
    destruct (P ra Ia), (P rb Ib), (P rx Ix).
    destruct Hs as [[= <- <-]|[[= <- <-]|[[= <- <-]|[]]]].
    + change (0 <= row_at (by_rows T ex_db k) b "phone" < 4). rewrite Eb. assumption.
    + change (0 <= row_at (by_rows T ex_db k) x "talker" < 4). rewrite Ex. assumption.
    + change (0 <= row_at (by_rows T ex_db k) a "phone" < 4). rewrite Ea. assumption.
  - vm_compute. discriminate.
  - apply plain_texts. reflexivity.
  - apply plain_labels. reflexivity.
Qed.

(** The task with the across column given twice. *)
Definition twice_task : task := mk_task "phone" ["talker"; "talker"] ["lang"] ex_filters ex_regressors.

(** The task with a stricter filter on X: only numbers below 5. *)
Definition strict_filters : filters :=
  mk_filters (fun r => negb (r "lang" =? 5)) (fun v r => r "n" <? 50) (fun v => v "talker" <? 3)
             (Some (fun v r => negb (r "n" =? 8))) None (Some (fun v r => r "n" <? 5))
             (Some (fun v a b x => negb (x "n" =? a "n" + 1))).
Definition strict_task : task := mk_task "phone" ["talker"] ["lang"] strict_filters ex_regressors.

Definition twice_lines := Eval vm_compute in got (pe_run Z 0 Z.ltb pl_distance (pe_file (tl_make twice_task 1000)) pl_files (Some 1) 2 turns).
Definition strict_lines := Eval vm_compute in got (pe_run Z 0 Z.ltb pl_distance (pe_file (tl_make strict_task 1000)) pl_files (Some 1) 2 turns).

Lemma twice_evaluable : evaluable plain_text twice_task ex_cols ex_db pl_places pl_indexes pl_files.
Proof.
  constructor.
  - exact ex_reads.
  - constructor; cbn [twice_task t_on t_across t_by t_filters ex_filters f_by f_generic f_oab f_A f_B f_X f_ABX]; intros;
    repeat match goal with
    | H : Some _ = Some _ |- _ => injection H as <-
    | H : None = Some _ |- _ => discriminate H
    | H : agree ?l ?r ?r' |- context [?r ?c] => rewrite (H c ltac:(cbn; tauto))
    end; reflexivity.
  - exact (kept_first_split twice_task (firstn 14 ex_db) (skipn 14 ex_db) eq_refl eq_refl).
  - exact ex_reg_reads.
  - apply ex_reg_regs_determined; reflexivity.
  - reflexivity.
  - vm_compute. discriminate.
  - right. left. discriminate.
  - apply tl_levels.
  - exact pl_features_ok.
Qed.

Lemma strict_reads : reads ex_cols strict_filters.
Proof.
  assert (I : forall c, In c ex_cols -> forall r r', agree ex_cols r r' -> r c = r' c) by (intros; auto).
  constructor; cbn [strict_filters f_by f_generic f_oab f_A f_B f_X f_ABX]; intros;
    repeat match goal with
    | H : Some _ = Some _ |- _ => injection H as <-
    | H : None = Some _ |- _ => discriminate H
    | H : agree ex_cols ?r ?r' |- context [?r ?c] => rewrite (I c ltac:(cbn; tauto) r r' H)
    end; reflexivity.
Qed.

Lemma strict_evaluable : evaluable plain_text strict_task ex_cols ex_db pl_places pl_indexes pl_files.
Proof.
  constructor.
  - exact strict_reads.
  - constructor; cbn [strict_task t_on t_across t_by t_filters strict_filters f_by f_generic f_oab f_A f_B f_X f_ABX]; intros;
    repeat match goal with
    | H : Some _ = Some _ |- _ => injection H as <-
    | H : None = Some _ |- _ => discriminate H
    | H : agree ?l ?r ?r' |- context [?r ?c] => rewrite (H c ltac:(cbn; tauto))
    end; reflexivity.
  - exact (kept_first_split strict_task (firstn 14 ex_db) (skipn 14 ex_db) eq_refl eq_refl).
  - exact ex_reg_reads.
  - apply ex_reg_regs_determined; reflexivity.
  - reflexivity.
  - vm_compute. discriminate.
  - right. left. discriminate.
  - apply tl_levels.
  - exact pl_features_ok.
Qed.

Lemma twice_evaluated : evaluated string_dec plain_text pl_name Z.leb Z.ltb pl_distance twice_task ex_cols ex_db pl_places pl_indexes pl_files (Some 1) twice_lines.
Proof.
  apply (tl_evaluated twice_task 1000 (pe_file (tl_make twice_task 1000)) pl_files (Some 1) 2 turns twice_lines);
    try (vm_compute; congruence). lia.
Qed.

Lemma strict_evaluated : evaluated string_dec plain_text pl_name Z.leb Z.ltb pl_distance strict_task ex_cols ex_db pl_places pl_indexes pl_files (Some 1) strict_lines.
Proof.
  apply (tl_evaluated strict_task 1000 (pe_file (tl_make strict_task 1000)) pl_files (Some 1) 2 turns strict_lines);
    try (vm_compute; congruence). lia.
Qed.

Lemma twice_same l : abx_lines twice_task ex_db l <-> abx_lines ex_task_reg ex_db l.
Proof.
  destruct l as [[na nb] nx]. unfold abx_lines. cbn [twice_task ex_task_reg t_on t_across t_by t_filters].
  split; intros (ra & rb & rx & H1 & H2 & H3 & H4 & H5 & H6 & H7 & H8); exists ra, rb, rx; repeat (split; [assumption|]); (split; [|assumption]);
    intros c Hc; apply H7; cbn in Hc |- *; tauto.
Qed.

Lemma strict_fewer l : abx_lines strict_task ex_db l -> abx_lines ex_task_reg ex_db l.
Proof.
  destruct l as [[na nb] nx]. unfold abx_lines. cbn [strict_task ex_task_reg t_on t_across t_by t_filters].
  intros (ra & rb & rx & H1 & H2 & H3 & H4 & H5 & H6 & H7 & H8 & H9); exists ra, rb, rx; repeat (split; [assumption|]).
  unfold passes, strict_filters, ex_filters in *. cbn in *. intuition. all: rewrite ?Z.ltb_lt in *; try lia.
Qed.

Definition nums (ls : list (line string)) := map (fun ln => (l_n ln, l_score ln)) ls.
