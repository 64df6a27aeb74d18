(** With a threshold: the task file is made as soon as the draws end, and an evaluation can be finished from it. *)
From Coq Require Import String.
From Coq Require Import List ZArith Lia Permutation.
From Verif Require Import Prelude ListFacts TypeFitting TypeFitting_proofs Sampler Chance_spec Expect_spec Task Task_spec Task_sort Task_proofs
  Task_main Task_total Task_reg_spec Task_align Sampler_spec Pairs Pairs_spec Pairs_proofs Distances Distances_spec
  Score Score_spec Score_ex Analyze Analyze_spec Rounding H5io Pipeline Pipeline_spec Pipeline_file Pipeline_thr Pipeline_proofs Pipeline_same_spec
  Expect_task Unbiased_spec.
Import ListNotations.
Local Open Scope Z_scope.
Local Open Scope list_scope.

Section Whole.
Variables tm L : Type.
Variable leq : forall x y : L, {x = y} + {x <> y}.
Variable plain : L -> bool.
Variable name : key -> string.
Hypothesis name_inj : forall k k', name k = name k' -> k = k'.
Variable gorder : list (string * by_group L) -> list (string * by_group L).
Hypothesis gorder_ok : forall l, Permutation (gorder l) l.
Variable korder : list key -> list key.
Variable enum : list Z -> list Z.
Variable argsort : list Z -> list nat.
Variable R : rng.
Variable fuel : nat.
Hypothesis korder_ok : lists_keys korder.
Hypothesis enum_ok : lists_set enum.
Hypothesis argsort_ok : argsort_spec argsort.
Variables rlen wlen clen : Z -> nat.
Hypothesis rlen_ok : forall z, (0 < rlen z)%nat.
Hypothesis wlen_ok : forall z, (0 < wlen z)%nat.
Hypothesis clen_ok : forall z, (0 < clen z)%nat.
Variables memory o_buffer : Z.
Hypothesis o_buffer_ok : 8 <= o_buffer.
Variable T : task.
Variable cols : list string.
Variable db : list row.
Variable places : list (Distances.item tm).
Variable indexes : list (string * list L).
Variable c : nat.
Hypothesis rd : reads cols (t_filters T).
Hypothesis dt : determined T db.
Hypothesis kf : kept_first T db.
Hypothesis rr : reg_reads cols (t_regressors T).
Hypothesis rt : reg_determined T db.
Hypothesis Hplaces : length places = length db.
Hypothesis Hfew : Zlen db <= 94906265.
Hypothesis HA : A_fine T.
Hypothesis HL : levels_ok plain T db indexes.
Variable T' : task.
Variable bs : list by_block.
Variable st : stats.
Hypothesis init : task_init korder enum T cols db = Ok (T', bs, st).
Hypothesis Hst : storable T db (capacity (s_nb_triplets st)).
Hypothesis Hm : 64 * s_nb_triplets st <= 3 * memory \/ (10 ^ 9 <= memory /\ s_nb_triplets st <= 10 ^ 14).
Variable t : Z.
Hypothesis HR : rng_ok R.
Hypothesis Hroom : room T db.
Hypothesis Ht : 0 < t.
Hypothesis HBX : of_BX (t_regressors T) <> [].

Let make := make_file leq plain name gorder korder enum argsort R fuel rlen wlen clen memory o_buffer T cols db places indexes (Some t) c.
Let gen := generate_triplets korder enum argsort R fuel T' (Some t) bs st c.

Lemma made_err e : gen = Err e -> make = Err e.
Proof. intros E. unfold make, make_file. rewrite init. cbn [bind]. fold gen. rewrite E. reflexivity. Qed.

Lemma made_none bs' : gen = Ok (bs', None) -> make = Ok None.
Proof. intros E. unfold make, make_file. rewrite init. cbn [bind]. fold gen. rewrite E. reflexivity. Qed.

Lemma memory_enough n : n <= s_nb_triplets st -> 64 * n <= 3 * memory \/ (10 ^ 9 <= memory /\ n <= 10 ^ 14).
Proof. intros H. destruct Hm as [H1|[H1 H2]]; [left; lia|right; split; [exact H1|]]. lia. Qed.

Lemma made_some bs' f : gen = Ok (bs', Some f) -> exists x, make = Ok (Some x) /\
  x_bys x = map name (fl_bys f) /\ x_by_index x = fl_by_index f /\ x_triplets x = fl_triplets f.
Proof.
  intros E2.
  pose proof (rows_fewer korder enum argsort R fuel korder_ok enum_ok argsort_ok T cols db (Some t) c rd dt kf rr rt T' bs st init bs' f E2 t HR Hroom Ht HBX eq_refl) as Hle.
  destruct (some_written korder enum argsort R fuel korder_ok enum_ok argsort_ok T cols db (Some t) c rd dt kf rr rt T' bs st init bs' f E2 Hst t HR Hroom Ht HBX eq_refl)
      as ([W0 W0'] & W1 & W2 & W3 & W4).
  destruct (groups_exist tm L leq plain name name_inj korder enum argsort R fuel korder_ok enum_ok rlen wlen clen
       rlen_ok wlen_ok clen_ok memory o_buffer T cols db places indexes (Some t) c rd dt kf rr rt Hplaces HA HL
       T' bs st init bs' f E2 Hst (written f) W0 W1 W2) as (groups & E3).
  assert (E4 : exists dty, fit_integer_type (s_nb_triplets st) true = Ok dty).
  { destruct (file_inv enum argsort R fuel korder_ok T cols db init (Some t) c E2) as (_ & _ & t' & _ & Ht' & _). eauto. }
  destruct E4 as (dty & E4).
  destruct (pairs_exist tm korder enum argsort R fuel korder_ok enum_ok argsort_ok rlen wlen clen
       rlen_ok wlen_ok clen_ok memory o_buffer o_buffer_ok T cols db places (Some t) c rd dt kf Hplaces Hfew
       T' bs st init bs' f E2 Hst (written f) W0 W1 dty (memory_enough _ Hle)) as (pairs & attrs & E5).
  eexists. unfold make, make_file. rewrite init. cbn [bind]. fold gen. rewrite E2. cbn [bind]. rewrite E3. cbn [bind].
  rewrite E4. cbn [bind]. rewrite E5. cbn [bind]. split; [reflexivity|]. auto.
Qed.

Lemma made_inv x : make = Ok (Some x) -> exists bs' f, gen = Ok (bs', Some f) /\
  x_bys x = map name (fl_bys f) /\ x_by_index x = fl_by_index f /\ x_triplets x = fl_triplets f.
Proof.
  intros E. destruct gen as [[bs' [f|]]|e] eqn:Eg.
  - destruct (made_some bs' f Eg) as (x' & Ex & H). assert (x' = x) as -> by congruence. exists bs', f. auto.
  - rewrite (made_none bs' Eg) in E. discriminate.
  - rewrite (made_err e Eg) in E. discriminate.
Qed.

Section Steps.
Variable x : abx_file tm L.
Hypothesis made : make = Ok (Some x).
Variables F V : Type.
Variable tle : tm -> tm -> bool.
Variable vlt : V -> V -> bool.
Variable distance : option bool -> list F -> list F -> res V.
Variable files : list (feature_data tm F).
Variable normalize : option Z.
Hypothesis Hfeat : features_ok files.
Hypothesis asym : asymmetric vlt.

Lemma sampled_result zero dfuel n_cpu df0 df' s0 s rnd slen stem : (1 <= n_cpu)%nat ->
  compute_distances zero argsort dfuel (mk_setting (for_distances x) files normalize) df0 n_cpu = (df', Ok s0) ->
  reaches tle distance (mk_setting (for_distances x) files normalize) s0 s -> s_main s = M_returned ->
  exact53 rnd -> (forall z, (0 < slen z)%nat) ->
  exists dis, d_data (s_file s) = Some dis /\
  forall k tf dfn sf, lookup (k_tasks k) tf = Ok (for_score x) -> lookup (k_distances k) dfn = Ok dis ->
    ~ there k (score_name stem tf dfn sf) ->
    exists k' scores lines, score vlt rnd slen stem k tf dfn sf = (k', Ok tt) /\
      lookup (k_scores k') (score_name stem tf dfn sf) = Ok scores /\
      analyze rnd argsort (for_analysis x) scores = Ok (map fst indexes, lines) /\
      result_among tle vlt distance name (Pipeline_spec.listed name (x_bys x) (x_by_index x) (x_triplets x)) T db places files normalize indexes lines.
Proof.
  destruct (make_inv _ _ _ _ _ _ _ _ _ _ _ _ _ _ _ _ _ _ _ _ _ _ _ x made) as (T1 & bs1 & st1 & bs' & f & groups & dty & pairs & attrs & E1 & E2 & E3 & E4 & Ex).
  rewrite init in E1. injection E1 as <- <- <-.
  subst x. cbn [x_triplets x_bys x_by_index] in *.
  pose proof (rows_fewer korder enum argsort R fuel korder_ok enum_ok argsort_ok T cols db (Some t) c rd dt kf rr rt T' bs st init bs' f E2 t HR Hroom Ht HBX eq_refl) as Hle.
  destruct (some_written korder enum argsort R fuel korder_ok enum_ok argsort_ok T cols db (Some t) c rd dt kf rr rt T' bs st init bs' f E2 Hst t HR Hroom Ht HBX eq_refl)
      as ([W0 W0'] & W1 & W2 & W3 & W4).
  pose proof (memory_enough _ Hle) as Hm'.
  pose proof (listed_written name name_inj (fl_bys f) (fl_by_index f) (fl_triplets f)) as Hlw.
  intros. eapply (steps_result tm L leq plain name name_inj gorder gorder_ok korder enum argsort R fuel korder_ok enum_ok argsort_ok rlen wlen clen rlen_ok wlen_ok clen_ok memory o_buffer o_buffer_ok)
    with (sel := Pipeline_spec.listed name (map name (fl_bys f)) (fl_by_index f) (fl_triplets f)); try eassumption.
  - intros k s1 H'. apply W0. apply Hlw in H'. exact H'.
  - revert W1. apply Forall2_impl. intros k ij [H1' H2']. split; [exact H1'|]. intros s1. rewrite H2', Hlw. reflexivity.
  - intros k. rewrite W2. split; intros (s1 & H'); exists s1; apply Hlw in H' || apply Hlw; exact H'.
Qed.

Lemma finished_result lines : finished argsort tle vlt distance files normalize x lines ->
  result_among tle vlt distance name (Pipeline_spec.listed name (x_bys x) (x_by_index x) (x_triplets x)) T db places files normalize indexes lines.
Proof.
  intros [zero dfuel n_cpu df0 df' s0 s Hn Hc Hr Hret dis rnd slen stem k tf dfn sf k' scores names Hd He Hl Hk1 Hk2 Hk3 Hsc Hlo Ha].
  destruct (sampled_result zero dfuel n_cpu df0 df' s0 s rnd slen stem Hn Hc Hr Hret He Hl) as (dis' & Hd' & HH).
  assert (dis' = dis) as -> by congruence.
  destruct (HH k tf dfn sf Hk1 Hk2 Hk3) as (k2 & scores2 & lines2 & E1 & E2 & E3 & E4).
  assert (k2 = k') as -> by congruence. assert (scores2 = scores) as -> by congruence.
  assert (lines2 = lines) as -> by congruence. exact E4.
Qed.

Lemma can_finish : answerable tle vlt distance T db places files normalize ->
  exists lines, finished argsort tle vlt distance files normalize x lines.
Proof.
  intros Hans.
  assert (Hz : exists zero : V, True).
  { destruct (made_inv x made) as (bs' & f & E2 & _).
    destruct (some_written korder enum argsort R fuel korder_ok enum_ok argsort_ok T cols db (Some t) c rd dt kf rr rt T' bs st init bs' f E2 Hst t HR Hroom Ht HBX eq_refl)
      as (_ & _ & _ & W3 & W4).
    destruct (fl_bys f) as [|k l] eqn:Ek; [congruence|]. destruct (proj1 (W3 k) (or_introl eq_refl)) as ([[a b] y] & Hw).
    destruct (proj1 Hans k (a, b, y) Hw) as (s & pa & pb & px & ma & mb & mx & dax & _). exists dax. exact I. }
  destruct Hz as (zero & _).
  assert (Hret : exists df' s0, compute_distances zero argsort (length (x_pairs x)) (mk_setting (for_distances x) files normalize) (mk_dist_file None None) (S (length (x_pairs x))) = (df', Ok s0) /\
    forall s, reaches tle distance (mk_setting (for_distances x) files normalize) s0 s ->
      (exists s', reaches tle distance (mk_setting (for_distances x) files normalize) s s' /\ ended s') /\
      (ended s -> s_main s = M_returned)).
  { destruct (make_inv _ _ _ _ _ _ _ _ _ _ _ _ _ _ _ _ _ _ _ _ _ _ _ x made) as (T1 & bs1 & st1 & bs' & f & groups & dty & pairs & attrs & E1 & E2 & E3 & E4 & Ex).
    rewrite init in E1. injection E1 as <- <- <-.
    subst x. cbn [x_triplets x_pairs] in *.
    pose proof (rows_fewer korder enum argsort R fuel korder_ok enum_ok argsort_ok T cols db (Some t) c rd dt kf rr rt T' bs st init bs' f E2 t HR Hroom Ht HBX eq_refl) as Hle.
    destruct (some_written korder enum argsort R fuel korder_ok enum_ok argsort_ok T cols db (Some t) c rd dt kf rr rt T' bs st init bs' f E2 Hst t HR Hroom Ht HBX eq_refl)
      as ([W0 W0'] & W1 & W2 & W3 & W4).
    pose proof (memory_enough _ Hle) as Hm'.
    eapply (steps_return tm L name name_inj gorder gorder_ok korder enum argsort R fuel korder_ok enum_ok argsort_ok rlen wlen clen rlen_ok wlen_ok clen_ok memory o_buffer o_buffer_ok) with (sel := written f); try eassumption.
    - lia.
    - reflexivity.
    - lia.
    - left. cbn. lia. }
  destruct Hret as (df' & s0 & Ec & Hret).
  destruct (Hret s0 (ex_intro _ [] eq_refl)) as ((s & Hr & He) & _). destruct (Hret s Hr) as (_ & Hr').
  assert (Hn : (1 <= S (length (x_pairs x)))%nat) by lia.
  destruct (sampled_result zero _ _ _ df' s0 s rnd64 (fun _ => 1%nat) (fun n => n) Hn Ec Hr (Hr' He) rnd64_exact (fun _ => le_n 1)) as (dis & Hd & HH).
  destruct (HH (mk_disk [("t.abx"%string, for_score x)] [("d.distance"%string, dis)] [] []) "t.abx"%string "d.distance"%string (Some "s"%string) eq_refl eq_refl)
    as (k' & scores & lines & E1 & E2 & E3 & _).
  { intros [[H|[]]|[[H|[]]|[[]|[]]]]; discriminate. }
  exists lines. refine (@Finished _ _ _ _ argsort tle vlt distance files normalize x lines zero _ _ _ df' s0 s Hn Ec Hr (Hr' He) dis rnd64 (fun _ => 1%nat) (fun n => n)
    (mk_disk [("t.abx"%string, for_score x)] [("d.distance"%string, dis)] [] []) "t.abx"%string "d.distance"%string (Some "s"%string) k' scores (map fst indexes)
    Hd rnd64_exact (fun _ => le_n 1) eq_refl eq_refl _ E1 E2 E3).
  intros [[H|[]]|[[H|[]]|[[]|[]]]]; discriminate.
Qed.
End Steps.
End Whole.
