(** Lines made of whole groups, and lines whose score is unbiased. *)
From Coq Require Import Reals String Lra.
From Coq Require Import List ZArith QArith Qreals Lia Permutation.
From Verif Require Import Prelude ListFacts Sampler Sampler_spec Chance_spec Expect_spec Expect Task Task_spec Task_sort Task_proofs
  Task_main Task_total Task_reg_spec Distances Distances_spec
  Score Score_spec Analyze Analyze_spec Rounding H5io Pipeline Pipeline_spec Pipeline_file Pipeline_proofs Pipeline_same_spec Pipeline_same_main Pipeline_scores RoundEval_lines
  Task_thr_total Chance_task Expect_task Pipeline_thr Unbiased_spec Unbiased_made Unbiased.
Import ListNotations.
Local Open Scope Z_scope.
Local Open Scope list_scope.

Lemma always_unique {A} M (ev : nat -> rng -> res A -> Prop) w e e' L : multiple M L ->
  always_expects M ev w e -> always_expects M ev w e' -> e = e'.
Proof.
  intros HL H H'. destruct (H L HL) as [Hm Hc]. destruct (H' L HL) as [_ Hc'].
  destruct (Req_dec e e') as [|N]; [assumption|exfalso].
  set (eps := (Rabs (e - e') / 2)%R). assert (Hp : (0 < eps)%R) by (unfold eps; assert (0 < Rabs (e - e'))%R by (apply Rabs_pos_lt; lra); lra).
  destruct (Hc eps Hp) as (N1 & H1). destruct (Hc' eps Hp) as (N2 & H2). destruct (Hm (N1 + N2)%nat) as (m & Hmm).
  specialize (H1 (N1 + N2)%nat m ltac:(lia) Hmm). specialize (H2 (N1 + N2)%nat m ltac:(lia) Hmm).
  assert (Rabs (e - e') <= Rabs (m - e) + Rabs (m - e'))%R; [|unfold eps in *; lra].
  replace (e - e')%R with (- (m - e) + (m - e'))%R by lra. eapply Rle_trans; [apply Rabs_triang|]. rewrite Rabs_Ropp. lra.
Qed.

(** The items of a by have the values of the by in its columns. *)
Lemma in_by T db k r : In r (by_rows T db k) -> In r db /\ (t_by T <> [] -> map r (t_by T) = k).
Proof.
  unfold by_rows. destruct (t_by T) as [|c cs]; [destruct (key_dec k [0]); [intros H; split; [exact H|congruence]|intros []]|].
  intros H. apply filter_In in H as [H E]. destruct (key_dec (map r (c :: cs)) k) as [E'|]; [|discriminate]. auto.
Qed.

Lemma map_agree cols (r r' : row) : map r cols = map r' cols -> agree cols r r'.
Proof.
  induction cols as [|c cols IH]; cbn [map]; intros E; [intros c []|]. injection E as E1 E2. intros c' [<-|H]; [exact E1|apply IH; assumption].
Qed.

Lemma whole_groups L T db (indexes : list (string * list L)) :
  reg_determined T db ->
  t_across T = [] \/ (forall nf, In nf (r_A (t_regressors T)) -> ~ In (fst nf) (map fst indexes)) ->
  forall k s u, is_wanted T db k s -> is_wanted T db k u -> same_group T (by_rows T db k) u s ->
    combination T (by_rows T db k) (map fst indexes) u = combination T (by_rows T db k) (map fst indexes) s.
Proof.
  intros rt HA k [[a b] x] [[a' b'] x'] Hs Hu [Hb Hg]. unfold combination. apply map_ext_in. intros nm Hnm. unfold value_of.
  destruct (find (fun ng => String.eqb (fst ng) nm) (all_regressors (t_regressors T))) as [[nm' g]|] eqn:Ef; [|reflexivity].
  pose proof (find_some _ _ Ef) as [Hin Hname]. cbn [fst] in Hname. apply String.eqb_eq in Hname. subst nm'. clear Ef. cbn [snd].
  destruct Hs as (ra & rb & rx & [Ha0 Ha] & _). destruct Hu as (ra' & rb' & rx' & [Ha0' Ha'] & _).
  assert (Er : row_at (by_rows T db k) a = ra) by (unfold row_at; apply nth_error_nth; exact Ha).
  assert (Er' : row_at (by_rows T db k) a' = ra') by (unfold row_at; apply nth_error_nth; exact Ha').
  unfold same_block_of in Hb. cbn [fst] in Hb.
  unfold all_regressors in Hin. apply in_app_iff in Hin as [Hin|Hin].
  - apply in_map_iff in Hin as (nf & E & Hnf). injection E as E1 <-. cbn [value]. rewrite Er, Er'.
    destruct (t_across T) as [|c0 cs] eqn:Eac; [subst a'; congruence|]. rewrite Er, Er' in Hb.
    destruct (in_by T db k ra (nth_error_In _ _ Ha)) as [Hra Hka]. destruct (in_by T db k ra' (nth_error_In _ _ Ha')) as [Hra' Hka'].
    assert (Hby : agree (t_by T) ra' ra).
    { destruct (t_by T) as [|c1 cs1] eqn:Eby; [intros c []|]. apply map_agree. rewrite Hka by discriminate. apply Hka'. discriminate. }
    apply in_app_iff in Hnf as [Hnf|Hnf].
    + apply (rt_by rt nf Hnf Hra' Hra Hby).
    + apply (rt_oab rt nf Hnf); [rewrite Eac; discriminate|exact Hra'|exact Hra|]. rewrite Eac. intros c [<-|Hc]; [apply Hb; left; reflexivity|].
      apply in_app_iff in Hc as [Hc|Hc]; [apply Hb; right; exact Hc|apply Hby; exact Hc].
  - apply in_app_iff in Hin as [Hin|Hin].
    + apply in_map_iff in Hin as (nf & E & Hnf). injection E as E1 <-. cbn [value]. destruct HA as [HA|HA].
      * rewrite HA in Hb. subst a'. reflexivity.
      * destruct (HA nf Hnf). rewrite E1. exact Hnm.
    + exact (Hg (nm, g) Hin).
Qed.

(** Mean of worths when the chances are all the same. *)
Lemma even_chances (chance : triplet -> R) all : forall answers c, List.length all = List.length answers -> (0 < c)%R -> all <> [] ->
  (forall s, In s all -> chance s = c) -> expected all answers chance = (Rsum (map worth answers) / INR (List.length answers))%R.
Proof.
  intros answers c El Hc Hn H. unfold expected.
  rewrite (map_ext_in _ (fun sa : triplet * Z => c * worth (snd sa))%R) by (intros [s x] Hin; cbn; rewrite (H s (in_combine_l _ _ _ _ Hin)); reflexivity).
  rewrite Rsum_scal. rewrite (map_ext_in chance (fun _ => c)) by exact H. rewrite Rsum_const.
  replace (map (fun sa : triplet * Z => worth (snd sa)) (combine all answers)) with (map worth answers).
  - rewrite El. assert (0 < INR (List.length answers))%R by (apply lt_0_INR; rewrite <- El; destruct all; [congruence|cbn; lia]). field. lra.
  - clear -El. revert answers El. induction all as [|s l IH]; intros [|x m] El; try discriminate; [reflexivity|]. cbn [combine map snd]. f_equal. apply IH. cbn in El. lia.
Qed.

Theorem unbiased_scores :
  forall (tm L F V : Type) (leq : forall x y : L, {x = y} + {x <> y}) (plain : L -> bool) (name : key -> string),
    (forall k k', name k = name k' -> k = k') ->
  forall gorder : list (string * by_group L) -> list (string * by_group L), (forall l, Permutation (gorder l) l) ->
  forall korder enum argsort, lists_keys korder -> lists_set enum -> argsort_spec argsort ->
  forall rlen wlen clen : Z -> nat,
    (forall z, (0 < rlen z)%nat) -> (forall z, (0 < wlen z)%nat) -> (forall z, (0 < clen z)%nat) ->
  forall memory o_buffer : Z, 8 <= o_buffer ->
  forall T cols db (places : list (Distances.item tm)) (indexes : list (string * list L)) (files : list (feature_data tm F)),
    evaluable plain T cols db places indexes files ->
  forall T' bs st, task_init korder enum T cols db = Ok (T', bs, st) -> room T db ->
    Zlen db * Zlen db * Zlen db < 2 ^ 63 -> r_ABX (t_regressors T) = false -> storable T db (capacity (s_nb_triplets st)) ->
    64 * s_nb_triplets st <= 3 * memory \/ 10 ^ 9 <= memory /\ s_nb_triplets st <= 10 ^ 14 ->
  forall t, 0 < t -> of_BX (t_regressors T) <> [] ->
  forall (tle : tm -> tm -> bool) (vlt : V -> V -> bool) (distance : option bool -> list F -> list F -> res V) (normalize : option Z),
    asymmetric vlt -> answerable tle vlt distance T db places files normalize ->
    (forall s levels, In (s, levels) indexes -> NoDup levels) ->
    t_across T = [] \/ (forall nf, In nf (r_A (t_regressors T)) -> ~ In (fst nf) (map fst indexes)) ->
  forall lines ln,
    evaluated leq plain name tle vlt distance T cols db places indexes files normalize lines -> In ln lines ->
    (forall k s u all_s all_u, l_by ln = name k -> is_wanted T db k s -> is_wanted T db k u ->
       labelled indexes (combination T (by_rows T db k) (map fst indexes) s) (l_labels ln) ->
       combination T (by_rows T db k) (map fst indexes) s = combination T (by_rows T db k) (map fst indexes) u ->
       lists_that (fun v => is_wanted T db k v /\ same_group T (by_rows T db k) v s) all_s ->
       lists_that (fun v => is_wanted T db k v /\ same_group T (by_rows T db k) v u) all_u ->
       Z.min t (Zlen all_s) * Zlen all_u = Z.min t (Zlen all_u) * Zlen all_s) ->
    always_expects (s_nb_triplets st)
      (evaluates (fun fuel R => make_file leq plain name gorder korder enum argsort R fuel rlen wlen clen memory o_buffer T cols db places indexes (Some t) 0)
        (finished argsort tle vlt distance files normalize))
      (score_at leq (l_by ln) (l_labels ln)) (Q2R (l_score ln)).
Proof.
  intros tm L F V leq plain name name_inj gorder gorder_ok korder enum argsort korder_ok enum_ok argsort_ok rlen wlen clen R1 R2 R3 memory o_buffer Ho
    T cols db places indexes files Hev T' bs st init rm Hsz HG Hst Hm t Ht Hne tle vlt distance normalize asym Hans Hlev HA lines ln He Hln Hsh.
  destruct (evaluated_result name_inj Hev asym He) as (parts & El & _ & _ & Hparts).
  rewrite El in Hln. apply in_concat in Hln as (part' & Hp' & Hl'). apply in_map_iff in Hp' as ([k part] & <- & Hpart). cbn [snd] in Hl'.
  apply in_map_iff in Hl' as ([r ln'] & E' & Hin). cbn in E'. subst ln'.
  destruct (Hparts k part Hpart) as (_ & Hr & Hlns). destruct (Hlns r ln Hin) as (Hlab & Hby & ts & answers & Hts & Hanswers & _ & Hsc).
  destruct (proj1 (Hr r) (in_map fst _ _ Hin)) as (s0 & Hw0 & Hc0).
  assert (Hs0 : In s0 ts) by (apply (proj2 Hts); auto).
  assert (Hsome : ts <> []) by (destruct ts; [destruct Hs0|discriminate]).
  pose proof (whole_groups L T db indexes (ev_reg_determined Hev) HA k) as Hwhole.
  set (grp := fun s => filter (fun u => if same_group_dec T (by_rows T db k) u s then true else false) ts).
  set (chance := fun s => (IZR (Z.min t (Zlen (grp s))) / IZR (Zlen (grp s)))%R).
  assert (Hgrp : forall s, In s ts -> lists_that (fun u => is_wanted T db k u /\ same_group T (by_rows T db k) u s) (grp s)).
  { intros s Hs. apply (proj2 Hts) in Hs as [Hw Hc]. split; [apply NoDup_filter; apply (proj1 Hts)|]. intros u. unfold grp. rewrite filter_In, (proj2 Hts u).
    destruct (same_group_dec T (by_rows T db k) u s) as [G|G]; split; try tauto; try (intros [_ H]; discriminate).
    intros [Hu _]. split; [|reflexivity]. split; [exact Hu|]. rewrite (Hwhole s u Hw Hu G). exact Hc. }
  assert (Hpos : forall s, In s ts -> 0 < Zlen (grp s)).
  { intros s Hs. assert (H : In s (grp s)).
    { apply (proj2 (Hgrp s Hs)). split; [apply (proj2 Hts); exact Hs|]. split; [unfold same_block_of; destruct (t_across T); [reflexivity|intros c _; reflexivity]|reflexivity]. }
    unfold Zlen. destruct (grp s); [destruct H|cbn [List.length]; lia]. }
  assert (Hperm : forall s g, In s ts -> lists_that (fun u => is_wanted T db k u /\ same_group T (by_rows T db k) u s) g -> Zlen g = Zlen (grp s)).
  { intros s g Hs [Hg1 Hg2]. unfold Zlen. f_equal. apply Permutation_length. apply NoDup_Permutation; [exact Hg1|apply (Hgrp s Hs)|].
    intros u. rewrite Hg2, (proj2 (Hgrp s Hs) u). reflexivity. }
  rewrite Hby, (Qeq_eqR _ _ Hsc), Q2R_proportion.
  2:{ intros ->. inversion Hanswers; subst. congruence. }
  assert (Hc0pos : (0 < chance s0)%R).
  { unfold chance. pose proof (Hpos s0 Hs0). apply Rdiv_lt_0_compat; apply IZR_lt; lia. }
  rewrite <- (even_chances chance ts answers (chance s0)).
  - eapply (expected_score tm L F V leq plain name name_inj gorder gorder_ok korder enum argsort korder_ok enum_ok argsort_ok rlen wlen clen R1 R2 R3 memory o_buffer Ho
      T cols db places indexes files Hev T' bs st init rm Hsz HG Hst Hm t Ht Hne tle vlt distance normalize asym Hans Hlev k r (l_labels ln) ts answers chance Hlab Hts Hsome Hanswers).
    + intros s u Hs Hu G Ec. rewrite (Hwhole s u Hs Hu G). exact Ec.
    + intros s g Hs Hg. unfold chance. rewrite (Hperm s g Hs Hg). reflexivity.
  - eapply RoundEval_lines.Forall2_len. exact Hanswers.
  - exact Hc0pos.
  - exact Hsome.
  - intros s Hs. unfold chance. destruct (proj1 (proj2 Hts s) Hs) as [Hws Hcs].
    pose proof (Hsh k s s0 (grp s) (grp s0) Hby Hws Hw0 ltac:(rewrite Hcs; exact Hlab) ltac:(congruence) (Hgrp s Hs) (Hgrp s0 Hs0)) as E.
    pose proof (Hpos s Hs) as P1. pose proof (Hpos s0 Hs0) as P2. apply (f_equal IZR) in E. rewrite !mult_IZR in E.
    apply IZR_lt in P1, P2. apply (Rmult_eq_reg_r (IZR (Zlen (grp s)) * IZR (Zlen (grp s0)))%R); [|apply Rgt_not_eq, Rmult_lt_0_compat; assumption].
    field_simplify; [|lra|lra]. rewrite E. ring.
Qed.

Theorem threshold_file_made :
  forall (tm L : Type) (leq : forall x y : L, {x = y} + {x <> y}) (plain : L -> bool) (name : key -> string),
    (forall k k', name k = name k' -> k = k') ->
  forall gorder : list (string * by_group L) -> list (string * by_group L),
  forall korder enum argsort, lists_keys korder -> lists_set enum -> argsort_spec argsort ->
  forall rlen wlen clen : Z -> nat,
    (forall z, (0 < rlen z)%nat) -> (forall z, (0 < wlen z)%nat) -> (forall z, (0 < clen z)%nat) ->
  forall memory o_buffer : Z, 8 <= o_buffer ->
  forall T cols db (places : list (Distances.item tm)) (indexes : list (string * list L)),
    reads cols (t_filters T) -> determined T db -> kept_first T db ->
    reg_reads cols (t_regressors T) -> reg_determined T db ->
    length places = length db -> Zlen db <= 94906265 -> A_fine T -> levels_ok plain T db indexes ->
  forall T' bs st, task_init korder enum T cols db = Ok (T', bs, st) -> room T db ->
    r_ABX (t_regressors T) = false -> storable T db (capacity (s_nb_triplets st)) ->
    64 * s_nb_triplets st <= 3 * memory \/ 10 ^ 9 <= memory /\ s_nb_triplets st <= 10 ^ 14 ->
  forall t, 0 < t -> of_BX (t_regressors T) <> [] ->
  forall (R : rng) (fuel : nat) bs' of, rng_ok R ->
    generate_triplets korder enum argsort R fuel T' (Some t) bs st 0 = Ok (bs', of) ->
    exists o, make_file leq plain name gorder korder enum argsort R fuel rlen wlen clen memory o_buffer T cols db places indexes (Some t) 0 = Ok o /\
      (o = None <-> forall k s, ~ is_wanted T db k s) /\
      forall x, o = Some x -> Zlen (x_triplets x) <= s_nb_triplets st.
Proof.
  intros tm L leq plain name name_inj gorder korder enum argsort korder_ok enum_ok argsort_ok rlen wlen clen R1 R2 R3 memory o_buffer Ho
    T cols db places indexes H1 H2 H3 H4 H5 H6 H7 H8 H9 T' bs st init rm HG Hst Hm t Ht Hne R fuel bs' of HR E.
  destruct of as [f|].
  - destruct (made_some tm L leq plain name name_inj gorder korder enum argsort R fuel korder_ok enum_ok argsort_ok rlen wlen clen R1 R2 R3 memory o_buffer Ho
      T cols db places indexes 0 H1 H2 H3 H4 H5 H6 H7 H8 H9 T' bs st init Hst Hm t HR rm Ht Hne bs' f E) as (x & Ex & X1 & X2 & X3).
    exists (Some x). split; [exact Ex|].
    destruct (some_written korder enum argsort R fuel korder_ok enum_ok argsort_ok T cols db (Some t) 0 H1 H2 H3 H4 H5 T' bs st init bs' f E Hst t HR rm Ht Hne eq_refl)
      as (_ & _ & _ & W3 & W4).
    split; [split; [discriminate|]|].
    + intros N. exfalso. destruct (fl_bys f) as [|k l]; [congruence|]. destruct (proj1 (W3 k) (or_introl eq_refl)) as (s & Hs). exact (N k s Hs).
    + intros x' [= <-]. rewrite X3.
      exact (rows_fewer korder enum argsort R fuel korder_ok enum_ok argsort_ok T cols db (Some t) 0 H1 H2 H3 H4 H5 T' bs st init bs' f E t HR rm Ht Hne eq_refl).
  - exists None. split; [exact (made_none tm L leq plain name gorder korder enum argsort R fuel rlen wlen clen memory o_buffer T cols db places indexes 0 T' bs st init t bs' E)|].
    split; [split; [|reflexivity]|discriminate]. intros _ k s Hs.
    assert (HM : s_nb_triplets st = 0).
    { destruct (Z.eq_dec (s_nb_triplets st) 0) as [|HM]; [assumption|exfalso].
      assert (Hp : prog korder enum argsort T' bs st t fuel R = Ok None) by (unfold prog; rewrite E; reflexivity).
      apply prog_generated in Hp as (c & Hg); [|exact HM]. unfold generated in Hg.
      destruct (chainc korder enum argsort T' t bs fuel R 0%nat) as [[x c1]|e]; [|discriminate]. apply bind_ok in Hg as (of' & Ef & Hg). injection Hg as -> ->.
      unfold file_of in Ef. destruct (Z.eqb_spec (s_nb_triplets st) 0) as [|_]; [contradiction|]. apply bind_ok in Ef as (? & _ & Ef). apply bind_ok in Ef as (? & _ & Ef).
      apply bind_ok in Ef as (? & _ & Ef). discriminate. }
    destruct s as [[a b'] x]. pose proof Hs as H. cbn in H. destruct (wanted_key _ korder_ok H1 H2 H3 init H) as (b & Hb & Ek).
    subst k. apply (blist_In korder_ok enum_ok H1 H2 H3 init _ _ _ _ Hb) in H. pose proof (blist_le korder enum korder_ok enum_ok T cols db T' bs st init b Hb) as Hle.
    unfold Zlen in Hle. match type of Hle with context [List.length ?l] => destruct l; [destruct H|] end. cbn [List.length] in Hle. lia.
Qed.
