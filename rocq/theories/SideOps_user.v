From Coq Require Import Ascii String.
From Verif Require Import Prelude ListFacts Task Task_spec Task_proofs Tree Tree_spec Tree_proofs SideOps SideOps_spec SideOps_proofs SideOps_stages SideOps_staged SideOps_meaning.
Set Implicit Arguments.
Open Scope string_scope.
Open Scope list_scope.
Local Open Scope nat_scope.

Lemma by_rows_in T db k r : In r (by_rows T db k) -> In r db.
Proof. unfold by_rows. destruct (t_by T); [destruct (key_dec _ _); [auto|intros []]|]. intros H. apply filter_In in H. tauto. Qed.

Lemma item_in rows i r : item rows i r -> In r rows.
Proof. intros [_ H]. eapply nth_error_In; eauto. Qed.

Lemma by_rows_agree T db k r r' : In r (by_rows T db k) -> In r' (by_rows T db k) -> agree (t_by T) r r'.
Proof.
  unfold by_rows, agree. destruct (t_by T) as [|c0 cs]; [intros _ _ c []|]. intros H H'. apply filter_In in H as [_ H]. apply filter_In in H' as [_ H'].
  destruct (key_dec (map r (c0 :: cs)) k) as [E|]; [|discriminate]. destruct (key_dec (map r' (c0 :: cs)) k) as [E'|]; [|discriminate].
  intros c Hc. rewrite <- E' in E. clear - E Hc. revert E Hc. generalize (c0 :: cs). induction l as [|d l IH]; cbn; intros E Hc; [destruct Hc|]. destruct Hc as [->|Hc]; injection E; auto.
Qed.

Section User.
Variable forest : list tree.
Hypothesis Hwn : well_named forest.
Variable truthy : Z -> bool.
Variable fps : list (dbfun * pred).
Variable T : task.
Variable m : manager.
Variable db : list row.
Hypothesis Hm : task_manager forest T (map fst fps) = Ok m.
Hypothesis Hew : forall f p, In (f, p) fps -> elementwise f p.
Hypothesis Hus : forall f p, In (f, p) fps -> usable (m_cols m) f.
Hypothesis Hdb : hierarchical forest db.
Hypothesis HF : t_filters T = staged truthy m.

Notation C := (m_cols m).

Lemma columns_ok : all_cols C = flat_map names forest /\
  (forall c, In c (on_cols C) <-> descends forest (t_on T) c) /\
  (forall c, In c (across_cols C) <-> exists col, In col (t_across T) /\ descends forest col c) /\
  (forall c, In c (by_cols C) <-> exists col, In col (t_by T) /\ descends forest col c) /\
  invariant C (map fst fps) m.
Proof.
  destruct Hwn as (Hnd & Hp & Hby & Hac). unfold task_manager, filter_manager in Hm.
  destruct (init_columns _ _ _ _) as [C0|] eqn:EC; [|discriminate]. cbn [bind] in Hm.
  pose proof (init_columns_ok _ _ _ _ Hnd EC) as (H1 & H2 & H3 & H4).
  assert (Hinv : invariant C0 (map fst fps) m).
  { change (map fst fps) with ([] ++ map fst fps). eapply foldM_add_invariant; [apply empty_invariant|exact Hm]. }
  pose proof (iv_cols Hinv) as E. rewrite E. split; [exact H1|]. split; [exact H2|].
  split; [|split; [|exact Hinv]].
  - intros c. rewrite H3. destruct (t_across T); [|reflexivity]. split; intros (col & Hc & Hd); [|destruct Hc].
    destruct Hc as [<-|[]]. exfalso. apply Hac. eapply descends_in; eauto.
  - intros c. rewrite H4. destruct (t_by T); [|reflexivity]. split; intros (col & Hc & Hd); [|destruct Hc].
    destruct Hc as [<-|[]]. exfalso. apply Hby. eapply descends_in; eauto.
Qed.

Lemma Hplain : Forall plain (all_cols C).
Proof. destruct columns_ok as (-> & _). apply Hwn. Qed.

Lemma Hinv : invariant C (map fst fps) m.
Proof. apply columns_ok. Qed.

Lemma by_agree r r' : In r db -> In r' db -> agree (t_by T) r r' -> agree (by_cols C) r r'.
Proof. intros Hr Hr' H c Hc. apply columns_ok in Hc as (col & Hcol & Hd). eapply Hdb; eauto. Qed.

Lemma on_agree r r' : In r db -> In r' db -> r (t_on T) = r' (t_on T) -> agree (on_cols C) r r'.
Proof. intros Hr Hr' H c Hc. apply columns_ok in Hc. eapply Hdb; eauto. Qed.

Lemma across_agree r r' : In r db -> In r' db -> agree (t_across T) r r' -> agree (across_cols C) r r'.
Proof. intros Hr Hr' H c Hc. apply columns_ok in Hc as (col & Hcol & Hd). eapply Hdb; eauto. Qed.

Theorem filtered_wanted k a b x : wanted T db k a b x <-> filtered T db C fps k a b x.
Proof.
  unfold wanted, filtered. rewrite HF.
  split; intros (ra & rb & rx & Ha & Hb & Hx & Habx & Hp); exists ra, rb, rx; repeat (split; [assumption|]);
  pose proof (item_in Ha) as Ia; pose proof (item_in Hb) as Ib; pose proof (item_in Hx) as Ix;
  (assert (H1 : agree (by_cols C) ra rb) by (apply by_agree; [eapply by_rows_in; eauto|eapply by_rows_in; eauto|eapply by_rows_agree; eauto]));
  (assert (H2 : agree (by_cols C) ra rx) by (apply by_agree; [eapply by_rows_in; eauto|eapply by_rows_in; eauto|eapply by_rows_agree; eauto]));
  (assert (H3 : agree (on_cols C) ra rx) by (apply on_agree; [eapply by_rows_in; eauto|eapply by_rows_in; eauto|symmetry; apply Habx]));
  apply (passes_accepts Hplain truthy fps Hinv Hew Hus H1 H2 H3); exact Hp.
Qed.

(** The filters read the columns of the table. *)
Variable cols : list string.
Hypothesis Hcols : incl (flat_map names forest) cols.

Lemma svalue_agree v v' a a' b b' x x' e : In (fst e) (all_cols C) -> agree cols v v' -> agree cols a a' -> agree cols b b' -> agree cols x x' ->
  svalue C v a b x e = svalue C v' a' b' x' e.
Proof.
  intros He Hv Ha Hb Hx. assert (Hin : In (fst e) cols) by (apply Hcols; destruct columns_ok as (<- & _); exact He).
  unfold svalue. destruct (isby C e); [auto|]. destruct (negb _); [auto|]. destruct (String.eqb _ _); [auto|]. destruct (String.eqb _ _); auto.
Qed.

Lemma spred_agree st v v' a a' b b' x x' : agree cols v v' -> agree cols a a' -> agree cols b b' -> agree cols x x' ->
  stage_pred C fps st (senv C v a b x) = stage_pred C fps st (senv C v' a' b' x').
Proof.
  intros Hv Ha Hb Hx. apply eq_true_iff_eq. rewrite !(spred_true C fps).
  assert (G : forall f p, In (f, p) fps -> p (senv C v a b x) = p (senv C v' a' b' x')).
  { intros f p Hf. apply (@elementwise_ext f p); [eauto|]. intros n Hn. destruct (Hus _ _ Hf) as (_ & Hn' & _). destruct (Hn' n Hn) as (c & s & -> & Hc & Hs).
    unfold senv. rewrite parse_named by (auto using Hplain). apply svalue_agree; auto. }
  split; intros H f p Hf Hst; [rewrite <- (G f p Hf)|rewrite (G f p Hf)]; eauto.
Qed.

Lemma user_reads : reads cols (t_filters T).
Proof.
  rewrite HF. pose proof Hplain as Hp. pose proof Hinv as Hi.
  constructor; intros.
  - rewrite !(staged_by Hp truthy fps Hi Hew). apply spred_agree; auto.
  - rewrite !(staged_generic Hp truthy fps Hi Hew Hus). apply spred_agree; auto.
  - rewrite !(staged_oab Hp truthy fps Hi Hew Hus). apply spred_agree; auto.
  - pose proof (staged_A Hp truthy fps Hi Hew Hus) as Hs. rewrite H in Hs. cbn in Hs. rewrite !Hs. apply spred_agree; auto.
  - pose proof (staged_B Hp truthy fps Hi Hew Hus) as Hs. rewrite H in Hs. cbn in Hs. rewrite !Hs. apply spred_agree; auto.
  - pose proof (staged_X Hp truthy fps Hi Hew Hus) as Hs. rewrite H in Hs. cbn in Hs. rewrite !Hs. apply spred_agree; auto.
  - pose proof (staged_ABX Hp truthy fps Hi Hew Hus) as Hs. rewrite H in Hs. cbn in Hs. rewrite !Hs. apply spred_agree; auto.
Qed.

(** What is read of the block is determined by its values. *)
Lemma spred_block st v v' a b x : st <> By -> st <> Generic ->
  agree (by_cols C) v v' -> agree (on_cols C) v v' -> agree (across_cols C) v v' ->
  forall a' b' x', (st = StA \/ st = StABX -> a' = a) -> (st = StB \/ st = StABX -> b' = b) -> (st = StX \/ st = StABX -> x' = x) ->
  stage_pred C fps st (senv C v a b x) = stage_pred C fps st (senv C v' a' b' x').
Proof.
  intros Hnb Hng Hv1 Hv2 Hv3 a' b' x' Ha Hb Hx. apply eq_true_iff_eq. rewrite !(spred_true C fps).
  assert (G : forall f p, In (f, p) fps -> stage_of C f = st -> p (senv C v a b x) = p (senv C v' a' b' x')).
  { intros f p Hf Hst. apply (@elementwise_ext f p); [eauto|]. intros n Hn. pose proof (iv_accepted Hinv f (in_map_fps _ _ _ Hf)) as [Hp _ _].
    destruct (cover_cases Hplain fps Hinv Hus f p n Hf) as (e & -> & Hc); try congruence. rewrite Hst in Hc. cbv zeta in Hc.
    destruct Hc as [H|[H|[H|[[H H']|[[H H']|[H H']]]]]].
    - rewrite !(by_value Hplain fps Hinv _ _ _ _ _ _ H). apply Hv1. apply (ok_by (iv_lists Hinv)) in H as (_ & H & _). apply mem_string_In in H. exact H.
    - rewrite !(on_value Hplain fps Hinv _ _ _ _ _ _ H). apply Hv2. apply (ok_on (iv_lists Hinv)) in H. apply H.
    - rewrite !(across_value Hplain fps Hinv _ _ _ _ _ _ H).
      apply Hv3. apply (ok_across (iv_lists Hinv)) in H. apply H.
    - rewrite !(A_value Hplain fps Hinv _ _ _ _ _ _ H). rewrite (Ha H'). reflexivity.
    - rewrite !(B_value Hplain fps Hinv _ _ _ _ _ _ H). rewrite (Hb H'). reflexivity.
    - rewrite !(X_value Hplain fps Hinv _ _ _ _ _ _ H). rewrite (Hx H'). reflexivity. }
  split; intros H f p Hf Hst; [rewrite <- (G f p Hf Hst)|rewrite (G f p Hf Hst)]; eauto.
Qed.

Lemma block_agree r r' : In r db -> In r' db -> agree (t_on T :: t_across T ++ t_by T) r r' ->
  agree (by_cols C) r r' /\ agree (on_cols C) r r' /\ agree (across_cols C) r r'.
Proof.
  intros Hr Hr' H. split; [apply by_agree|split; [apply on_agree|apply across_agree]]; auto.
  - intros c Hc. apply H. right. apply in_app_iff. auto.
  - apply H. left. reflexivity.
  - intros c Hc. apply H. right. apply in_app_iff. auto.
Qed.

Lemma user_determined : determined T db.
Proof.
  pose proof Hplain as Hp. pose proof Hinv as Hi.
  constructor; rewrite HF; intros.
  - rewrite !(staged_by Hp truthy fps Hi Hew). apply eq_true_iff_eq. rewrite !(spred_true C fps).
    assert (G : forall f p, In (f, p) fps -> stage_of C f = By -> p (senv C r r r r) = p (senv C r' r' r' r')).
    { intros f p Hf Hst. apply (@elementwise_ext f p); [eauto|]. intros n Hn. pose proof (iv_accepted Hi f (in_map_fps _ _ _ Hf)) as [Hpa _ _].
      destruct (elements_all C f Hpa n Hn) as (e & He & <-). destruct (elements_named C f Hpa e He) as [N _].
      rewrite !senv_named by assumption. unfold svalue. pose proof (by_stage C f e Hst He) as Hb. rewrite Hb. apply (by_agree H H0 H1). apply mem_string_In in Hb. exact Hb. }
    split; intros K f p Hf Hst; [rewrite <- (G f p Hf Hst)|rewrite (G f p Hf Hst)]; eauto.
  - rewrite !(staged_generic Hp truthy fps Hi Hew Hus). apply eq_true_iff_eq. rewrite !(spred_true C fps).
    split; intros K f p Hf Hst; [rewrite (generic_line_value Hp fps Hi Hew Hus f p r' r x Hf Hst)|rewrite (generic_line_value Hp fps Hi Hew Hus f p r r' x Hf Hst)]; eauto.
  - rewrite !(staged_oab Hp truthy fps Hi Hew Hus). destruct (block_agree H0 H1 H2) as (K1 & K2 & K3). apply spred_block; auto; try discriminate; intros [?|?]; discriminate.
  - pose proof (staged_A Hp truthy fps Hi Hew Hus) as Hs. rewrite H in Hs. cbn in Hs. rewrite !Hs.
    destruct (block_agree H1 H2 H4) as (K1 & K2 & K3). apply spred_block; auto; try discriminate.
  - pose proof (staged_B Hp truthy fps Hi Hew Hus) as Hs. rewrite H in Hs. cbn in Hs. rewrite !Hs.
    destruct (block_agree H1 H2 H4) as (K1 & K2 & K3). apply spred_block; auto; try discriminate.
  - pose proof (staged_X Hp truthy fps Hi Hew Hus) as Hs. rewrite H in Hs. cbn in Hs. rewrite !Hs.
    destruct (block_agree H1 H2 H4) as (K1 & K2 & K3). apply spred_block; auto; try discriminate.
  - pose proof (staged_ABX Hp truthy fps Hi Hew Hus) as Hs. rewrite H in Hs. cbn in Hs. rewrite !Hs.
    destruct (block_agree H1 H2 H6) as (K1 & K2 & K3). apply spred_block; auto; try discriminate.
Qed.

Lemma item_accepted_generic v r : f_generic (t_filters T) v r = true <-> item_accepted C fps r.
Proof.
  pose proof Hplain as Hp. pose proof Hinv as Hi. rewrite HF, (staged_generic Hp truthy fps Hi Hew Hus), (spred_true C fps). split.
  - intros H f p Hf Hg env Hr. apply (generic_stage Hp fps Hi Hus f p Hf) in Hg.
    rewrite (reads_pred Hp fps Hew Hus f p Hf (a := r) (b := r) (x := r) (e := env)) by (auto; intros ? ?; reflexivity).
    rewrite (generic_line_value Hp fps Hi Hew Hus f p r v r Hf Hg). eauto.
  - intros H f p Hf Hst. rewrite (generic_line_value Hp fps Hi Hew Hus f p v r r Hf Hst). apply (H f p Hf); [apply (generic_stage Hp fps Hi Hus f p Hf); exact Hst|].
    apply senv_reads; auto; intros ? ?; reflexivity.
Qed.

Lemma user_kept_first : accepted_first T db C fps -> kept_first T db.
Proof.
  intros H k i j ri rj Hij Hi Hj. rewrite !item_accepted_generic. eapply H; eauto.
Qed.

End User.
