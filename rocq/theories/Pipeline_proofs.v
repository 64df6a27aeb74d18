(** From an item table to the table of results. *)
From Coq Require Import String.
From Coq Require Import List ZArith Lia Permutation.
From Verif Require Import Prelude ListFacts TypeFitting TypeFitting_proofs Sampler Task Task_spec Task_sort Task_proofs
  Task_main Task_total Task_reg_spec Task_align Sampler_spec Pairs Pairs_spec Pairs_proofs Distances Distances_spec
  Score Score_spec Analyze Analyze_spec Rounding H5io Pipeline Pipeline_spec Pipeline_file Pipeline_thr.
Import ListNotations.
Local Open Scope Z_scope.
Local Open Scope list_scope.

Section Whole.
Variables tm L : Type.
Variable leq : forall x y : L, {x = y} + {x <> y}.
Variable plain : L -> bool.
Variable name : key -> string.
Hypothesis name_inj : forall k k', name k = name k' -> k = k'.
Variable gorder : list (string * by_group L) -> list (string * by_group L).
Hypothesis gorder_ok : forall l, Permutation (gorder l) l.
Variable korder : list key -> list key.
Variable enum : list Z -> list Z.
Variable argsort : list Z -> list nat.
Variable R : rng.
Variable fuel : nat.
Hypothesis korder_ok : lists_keys korder.
Hypothesis enum_ok : lists_set enum.
Hypothesis argsort_ok : argsort_spec argsort.
Variables rlen wlen clen : Z -> nat.
Hypothesis rlen_ok : forall z, (0 < rlen z)%nat.
Hypothesis wlen_ok : forall z, (0 < wlen z)%nat.
Hypothesis clen_ok : forall z, (0 < clen z)%nat.
Variables memory o_buffer : Z.
Hypothesis o_buffer_ok : 8 <= o_buffer.
Variable T : task.
Variable cols : list string.
Variable db : list row.
Variable places : list (Distances.item tm).
Variable indexes : list (string * list L).
Variable thr : option Z.
Variable c : nat.
Hypothesis rd : reads cols (t_filters T).
Hypothesis dt : determined T db.
Hypothesis kf : kept_first T db.
Hypothesis rr : reg_reads cols (t_regressors T).
Hypothesis rt : reg_determined T db.
Hypothesis Hplaces : length places = length db.
Hypothesis Hfew : Zlen db <= 94906265.
Hypothesis HA : A_fine T.
Hypothesis HL : levels_ok plain T db indexes.

Let make := make_file leq plain name gorder korder enum argsort R fuel rlen wlen clen memory o_buffer T cols db places indexes thr c.

Lemma make_inv x : make = Ok (Some x) ->
  exists T' bs st bs' f groups data_type pairs attrs,
    task_init korder enum T cols db = Ok (T', bs, st) /\
    generate_triplets korder enum argsort R fuel T' thr bs st c = Ok (bs', Some f) /\
    mapM (fun kb : key * list (list (string * list Z)) =>
      g <- regressor_group leq plain (regressor_names (t_regressors T')) indexes (snd kb) ;;
      Ok (name (fst kb), g)) (fl_regressors f) = Ok groups /\
    generate_pairs argsort rlen wlen clen memory o_buffer data_type (fl_triplets f)
      (combine (map (fun b => labels (b_frame b)) bs') (map nat_range (fl_by_index f))) = Ok (pairs, attrs) /\
    x = mk_abx (map name (fl_bys f)) data_type (fl_triplets f) (fl_by_index f)
          (combine (map (fun b => name (b_key b)) bs') (map zattr attrs)) pairs
          (map (fun b => (name (b_key b), feat_db T db places (b_key b))) bs') (gorder groups).
Proof.
  unfold make, make_file. destruct (task_init korder enum T cols db) as [[[T' bs] st]|] eqn:E1; [|discriminate]. cbn [bind].
  destruct (generate_triplets korder enum argsort R fuel T' thr bs st c) as [[bs' [f|]]|] eqn:E2; cbn [bind]; [|discriminate|discriminate].
  destruct (mapM _ (fl_regressors f)) as [groups|] eqn:E3; [|discriminate]. cbn [bind].
  destruct (fit_integer_type (s_nb_triplets st) true) as [dty|]; [|discriminate]. cbn [bind].
  destruct (generate_pairs _ _ _ _ _ _ _ _ _) as [[pairs attrs]|] eqn:E5; [|discriminate]. cbn [bind].
  intros E. injection E as <-. exists T', bs, st, bs', f, groups, dty, pairs, attrs.
  split; [reflexivity|]. split; [exact E2|]. split; [exact E3|]. split; [exact E5|]. reflexivity.
Qed.

(** The task file is made; there is none when there is no triplet. *)
Theorem file_made T' bs st : unlimited T thr -> task_init korder enum T cols db = Ok (T', bs, st) ->
  Zlen db * Zlen db * Zlen db < 2 ^ 63 -> r_ABX (t_regressors T) = false ->
  storable T db (capacity (s_nb_triplets st)) ->
  64 * s_nb_triplets st <= 3 * memory \/ (10 ^ 9 <= memory /\ s_nb_triplets st <= 10 ^ 14) ->
  exists o, make = Ok o /\
    (o = None <-> forall k t, ~ is_wanted T db k t) /\
    (forall x, o = Some x -> Zlen (x_triplets x) = s_nb_triplets st).
Proof.
  intros Hu E1 Hsz HG Hst Hm.
  assert (Hgen : exists bs' of, generate_triplets korder enum argsort R fuel T' thr bs st c = Ok (bs', of) /\
            (of = None <-> forall k a b y, ~ wanted T db k a b y)).
  { destruct Hu as [Hu|Hu]; [exact (generate_succeeds R fuel korder_ok enum_ok argsort_ok rd dt kf E1 c Hsz Hu HG)|].
    apply of_BX_nil in Hu as [Hu1 Hu2].
    assert (ET : t_regressors T' = t_regressors T) by (destruct (init_inv _ _ _ _ _ E1) as (_ & -> & _); reflexivity).
    rewrite (generate_no_regressors _ _ _ _ _ _ thr None) by (rewrite ET; assumption).
    exact (generate_succeeds R fuel korder_ok enum_ok argsort_ok rd dt kf E1 c Hsz (or_introl eq_refl) HG). }
  destruct Hgen as (bs' & of & E2 & Hof).
  assert (Hno : (forall k a b y, ~ wanted T db k a b y) <-> forall k t, ~ is_wanted T db k t).
  { split; [intros H k [[a b] y]; apply H|intros H k a b y; exact (H k (a, b, y))]. }
  rewrite Hno in Hof. clear Hno.
  destruct of as [f|].
  - destruct (all_written korder enum argsort R fuel korder_ok enum_ok argsort_ok T cols db thr c rd dt kf T' bs st E1 bs' f E2 Hst Hu)
      as (W1 & W2 & W3 & En).
    destruct (groups_exist tm L leq plain name name_inj korder enum argsort R fuel korder_ok enum_ok rlen wlen clen
       rlen_ok wlen_ok clen_ok memory o_buffer T cols db places indexes thr c rd dt kf rr rt Hplaces HA HL
       T' bs st E1 bs' f E2 Hst (is_wanted T db) (fun k t H => H) W1 W2) as (groups & E3).
    assert (E4 : exists dty, fit_integer_type (s_nb_triplets st) true = Ok dty).
    { destruct (file_inv enum argsort R fuel korder_ok T cols db E1 thr c E2) as (_ & _ & t & _ & Ht & _). eauto. }
    destruct E4 as (dty & E4).
    destruct (pairs_exist tm korder enum argsort R fuel korder_ok enum_ok argsort_ok rlen wlen clen
       rlen_ok wlen_ok clen_ok memory o_buffer o_buffer_ok T cols db places thr c rd dt kf Hplaces Hfew
       T' bs st E1 bs' f E2 Hst (is_wanted T db) (fun k t H => H) W1 dty) as (pairs & attrs & E5); [rewrite En; exact Hm|].
    eexists. unfold make, make_file. rewrite E1. cbn [bind]. rewrite E2. cbn [bind]. rewrite E3. cbn [bind].
    rewrite E4. cbn [bind]. rewrite E5. cbn [bind]. split; [reflexivity|]. split.
    + rewrite <- Hof. split; discriminate.
    + intros x Ex. injection Ex as <-. exact En.
  - exists None. unfold make, make_file. rewrite E1. cbn [bind]. rewrite E2. cbn [bind]. split; [reflexivity|]. split.
    + rewrite <- Hof. split; reflexivity.
    + discriminate.
Qed.

Section Made.
Variable x : abx_file tm L.
Hypothesis made : make = Ok (Some x).
Hypothesis Hstore : storable T db (capacity (Zlen (x_triplets x))).
Hypothesis Hmemory :
  64 * Zlen (x_triplets x) <= 3 * memory \/ (10 ^ 9 <= memory /\ Zlen (x_triplets x) <= 10 ^ 14).
Variables F V : Type.
Variable tle : tm -> tm -> bool.
Variable vlt : V -> V -> bool.
Variable distance : option bool -> list F -> list F -> res V.
Variable files : list (feature_data tm F).
Variable normalize : option Z.
Hypothesis Hfeat : features_ok files.

Theorem evaluation_result zero dfuel n_cpu df0 df' s0 s rnd slen stem : unlimited T thr -> (1 <= n_cpu)%nat ->
  compute_distances zero argsort dfuel (mk_setting (for_distances x) files normalize) df0 n_cpu = (df', Ok s0) ->
  reaches tle distance (mk_setting (for_distances x) files normalize) s0 s -> s_main s = M_returned ->
  exact53 rnd -> (forall z, (0 < slen z)%nat) -> (forall d d', vlt d d' = true -> vlt d' d = false) ->
  exists dis, d_data (s_file s) = Some dis /\
  forall k tf dfn sf, lookup (k_tasks k) tf = Ok (for_score x) -> lookup (k_distances k) dfn = Ok dis ->
    ~ there k (score_name stem tf dfn sf) ->
    exists k' scores lines, score vlt rnd slen stem k tf dfn sf = (k', Ok tt) /\
      lookup (k_scores k') (score_name stem tf dfn sf) = Ok scores /\
      analyze rnd argsort (for_analysis x) scores = Ok (map fst indexes, lines) /\
      result_of tle vlt distance name T db places files normalize indexes lines.
Proof.
  intros Hu. destruct (make_inv x made) as (T' & bs & st & bs' & f & groups & dty & pairs & attrs & E1 & E2 & E3 & E4 & Ex).
  subst x. cbn [x_triplets] in Hmemory, Hstore.
  destruct (gen_none _ _ _ _ _ _ _ _ _ _ _ _ _ E1 _ _ E2 Hu) as (thr0 & Hn & G).
  rewrite (proj1 (rows_announced R fuel korder_ok enum_ok argsort_ok T cols db E1 c G Hn)) in Hstore.
  destruct (all_written korder enum argsort R fuel korder_ok enum_ok argsort_ok T cols db thr c rd dt kf T' bs st E1 bs' f E2 Hstore Hu)
      as (W1 & W2 & W3 & En).
  eapply (steps_result tm L leq plain name name_inj gorder gorder_ok korder enum argsort R fuel korder_ok enum_ok argsort_ok rlen wlen clen rlen_ok wlen_ok clen_ok memory o_buffer) with (sel := is_wanted T db); try eassumption.
  intros k t H. exact H.
Qed.

Theorem distances_return zero dfuel n_cpu df0 : unlimited T thr -> (1 <= n_cpu)%nat -> d_data df0 = None -> (length (x_pairs x) <= dfuel)%nat ->
  answerable tle vlt distance T db places files normalize -> blocks_fit (for_distances x) n_cpu ->
  exists df' s0,
    compute_distances zero argsort dfuel (mk_setting (for_distances x) files normalize) df0 n_cpu = (df', Ok s0) /\
    forall s, reaches tle distance (mk_setting (for_distances x) files normalize) s0 s ->
      (exists s', reaches tle distance (mk_setting (for_distances x) files normalize) s s' /\ ended s') /\
      (ended s -> s_main s = M_returned).
Proof.
  intros Hu. destruct (make_inv x made) as (T' & bs & st & bs' & f & groups & dty & pairs & attrs & E1 & E2 & E3 & E4 & Ex).
  subst x. cbn [x_triplets x_pairs] in *.
  destruct (gen_none _ _ _ _ _ _ _ _ _ _ _ _ _ E1 _ _ E2 Hu) as (thr0 & Hn & G).
  rewrite (proj1 (rows_announced R fuel korder_ok enum_ok argsort_ok T cols db E1 c G Hn)) in Hstore.
  destruct (all_written korder enum argsort R fuel korder_ok enum_ok argsort_ok T cols db thr c rd dt kf T' bs st E1 bs' f E2 Hstore Hu)
      as (W1 & W2 & W3 & En).
  eapply (steps_return tm L name name_inj gorder gorder_ok korder enum argsort R fuel korder_ok enum_ok argsort_ok rlen wlen clen rlen_ok wlen_ok clen_ok memory o_buffer) with (sel := is_wanted T db); try eassumption.
  intros k t H. exact H.
Qed.

(** With a threshold. *)
Section Threshold.
Variable t : Z.
Hypothesis HR : rng_ok R.
Hypothesis Hroom : room T db.
Hypothesis Ht : 0 < t.
Hypothesis HBX : of_BX (t_regressors T) <> [].
Hypothesis Ethr : thr = Some t.

Lemma listed_written bys index rows k s : listed name (map name bys) index rows k s <->
  exists ij, In (k, ij) (combine bys index) /\ In s (rows_of ij rows).
Proof.
  split.
  - intros (n & ij & H1 & H2 & H3). rewrite nth_error_map in H1. destruct (nth_error bys n) as [k'|] eqn:Ek; [|discriminate].
    injection H1 as H1. apply name_inj in H1. subst k'. exists ij. split; [|exact H3]. eapply nth_error_In, nth_error_combine. eauto.
  - intros (ij & Hin & H3). apply In_nth_error in Hin as (n & Hin). apply nth_error_combine in Hin as [H1 H2].
    exists n, ij. rewrite nth_error_map, H1. auto.
Qed.

Theorem threshold_chosen :
  at_most t T db (listed name (x_bys x) (x_by_index x) (x_triplets x)) /\
  forall k, (exists s, listed name (x_bys x) (x_by_index x) (x_triplets x) k s) <-> exists s, is_wanted T db k s.
Proof.
  clear Hmemory.
  destruct (make_inv x made) as (T' & bs & st & bs' & f & groups & dty & pairs & attrs & E1 & E2 & E3 & E4 & Ex).
  subst x. cbn [x_triplets x_bys x_by_index] in *.
  pose proof (rows_fewer korder enum argsort R fuel korder_ok enum_ok argsort_ok T cols db thr c rd dt kf rr rt T' bs st E1 bs' f E2 t HR Hroom Ht HBX Ethr) as Hle.
  pose proof (storable_le _ _ _ _ (capacity_le _ _ Hle) Hstore) as Hst.
  destruct (some_written korder enum argsort R fuel korder_ok enum_ok argsort_ok T cols db thr c rd dt kf rr rt T' bs st E1 bs' f E2 Hst t HR Hroom Ht HBX Ethr)
      as ([W0 W0'] & W1 & W2 & W3 & W4).
  split; [split|].
  - intros k s H. apply W0. apply listed_written in H. exact H.
  - intros k t0 all kept Hw Ha [Hk1 Hk2]. apply (W0' k t0 all kept Hw Ha). split; [exact Hk1|].
    intros s. rewrite Hk2, listed_written. reflexivity.
  - intros k. rewrite <- W3, W2. split; intros (s & H); exists s; apply listed_written in H || apply listed_written; exact H.
Qed.

Theorem threshold_result zero dfuel n_cpu df0 df' s0 s rnd slen stem : (1 <= n_cpu)%nat ->
  compute_distances zero argsort dfuel (mk_setting (for_distances x) files normalize) df0 n_cpu = (df', Ok s0) ->
  reaches tle distance (mk_setting (for_distances x) files normalize) s0 s -> s_main s = M_returned ->
  exact53 rnd -> (forall z, (0 < slen z)%nat) -> (forall d d', vlt d d' = true -> vlt d' d = false) ->
  exists dis, d_data (s_file s) = Some dis /\
  forall k tf dfn sf, lookup (k_tasks k) tf = Ok (for_score x) -> lookup (k_distances k) dfn = Ok dis ->
    ~ there k (score_name stem tf dfn sf) ->
    exists k' scores lines, score vlt rnd slen stem k tf dfn sf = (k', Ok tt) /\
      lookup (k_scores k') (score_name stem tf dfn sf) = Ok scores /\
      analyze rnd argsort (for_analysis x) scores = Ok (map fst indexes, lines) /\
      result_among tle vlt distance name (listed name (x_bys x) (x_by_index x) (x_triplets x)) T db places files normalize indexes lines.
Proof.
  destruct (make_inv x made) as (T' & bs & st & bs' & f & groups & dty & pairs & attrs & E1 & E2 & E3 & E4 & Ex).
  subst x. cbn [x_triplets x_bys x_by_index] in *.
  pose proof (rows_fewer korder enum argsort R fuel korder_ok enum_ok argsort_ok T cols db thr c rd dt kf rr rt T' bs st E1 bs' f E2 t HR Hroom Ht HBX Ethr) as Hle.
  pose proof (storable_le _ _ _ _ (capacity_le _ _ Hle) Hstore) as Hst.
  destruct (some_written korder enum argsort R fuel korder_ok enum_ok argsort_ok T cols db thr c rd dt kf rr rt T' bs st E1 bs' f E2 Hst t HR Hroom Ht HBX Ethr)
      as ([W0 W0'] & W1 & W2 & W3 & W4).
  eapply (steps_result tm L leq plain name name_inj gorder gorder_ok korder enum argsort R fuel korder_ok enum_ok argsort_ok rlen wlen clen rlen_ok wlen_ok clen_ok memory o_buffer) with (sel := listed name (map name (fl_bys f)) (fl_by_index f) (fl_triplets f)); try eassumption.
  - intros k s1 H. apply W0. apply listed_written in H. exact H.
  - revert W1. apply Forall2_impl. intros k ij [H1 H2]. split; [exact H1|]. intros s1. rewrite H2, listed_written. reflexivity.
  - intros k. rewrite W2. split; intros (s1 & H); exists s1; apply listed_written in H || apply listed_written; exact H.
Qed.

Theorem threshold_return zero dfuel n_cpu df0 : (1 <= n_cpu)%nat -> d_data df0 = None -> (length (x_pairs x) <= dfuel)%nat ->
  answerable tle vlt distance T db places files normalize -> blocks_fit (for_distances x) n_cpu ->
  exists df' s0,
    compute_distances zero argsort dfuel (mk_setting (for_distances x) files normalize) df0 n_cpu = (df', Ok s0) /\
    forall s, reaches tle distance (mk_setting (for_distances x) files normalize) s0 s ->
      (exists s', reaches tle distance (mk_setting (for_distances x) files normalize) s s' /\ ended s') /\
      (ended s -> s_main s = M_returned).
Proof.
  destruct (make_inv x made) as (T' & bs & st & bs' & f & groups & dty & pairs & attrs & E1 & E2 & E3 & E4 & Ex).
  subst x. cbn [x_triplets x_pairs] in *.
  pose proof (rows_fewer korder enum argsort R fuel korder_ok enum_ok argsort_ok T cols db thr c rd dt kf rr rt T' bs st E1 bs' f E2 t HR Hroom Ht HBX Ethr) as Hle.
  pose proof (storable_le _ _ _ _ (capacity_le _ _ Hle) Hstore) as Hst.
  destruct (some_written korder enum argsort R fuel korder_ok enum_ok argsort_ok T cols db thr c rd dt kf rr rt T' bs st E1 bs' f E2 Hst t HR Hroom Ht HBX Ethr)
      as ([W0 W0'] & W1 & W2 & W3 & W4).
  eapply (steps_return tm L name name_inj gorder gorder_ok korder enum argsort R fuel korder_ok enum_ok argsort_ok rlen wlen clen rlen_ok wlen_ok clen_ok memory o_buffer) with (sel := written f); try eassumption.
Qed.
End Threshold.
End Made.

End Whole.
