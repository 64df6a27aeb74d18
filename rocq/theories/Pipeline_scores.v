(** The scores of a whole evaluation: bounds, extreme values, totals. *)
From Coq Require Import String.
From Coq Require Import List ZArith QArith Sorted Permutation Lia Lqa.
From Verif Require Import Prelude Sampler Sampler_spec Sampler_proofs Task Task_spec Task_sort Task_main Task_reg_spec Distances Distances_spec
  Score Score_spec Analyze Analyze_spec Rounding H5io Pipeline Pipeline_spec Pipeline_proofs Pipeline_same_spec Pipeline_same Pipeline_same_main
  Pipeline_scores_spec.
Import ListNotations.
Local Open Scope Z_scope.
Local Open Scope list_scope.
Set Implicit Arguments.

(** ** Proportions *)

Definition is_answer (s : Z) : Prop := s = 1 \/ s = 0 \/ s = -1.

Lemma howmany_cons v s l : howmany v (s :: l) = (if v =? s then 1 else 0) + howmany v l.
Proof. unfold howmany. cbn. destruct (v =? s); cbn [length]; lia. Qed.

Lemma howmany_pos v l : 0 <= howmany v l.
Proof. unfold howmany. lia. Qed.

Lemma answers_counted l : Forall is_answer l ->
  howmany 1 l + howmany 0 l + howmany (-1) l = Z.of_nat (length l).
Proof.
  induction 1 as [|s l H _ IH]; [reflexivity|]. rewrite !howmany_cons. cbn [length].
  destruct H as [-> |[-> | ->]]; cbn [Z.eqb Pos.eqb]; lia.
Qed.

Lemma howmany_all v l : howmany v l = Z.of_nat (length l) <-> Forall (eq v) l.
Proof.
  split.
  - induction l as [|s l IH]; [constructor|]. rewrite howmany_cons. cbn [length].
    assert (howmany v l <= Z.of_nat (length l)).
    { clear. induction l as [|s l IH]; [reflexivity|]. rewrite howmany_cons. cbn [length]. destruct (v =? s); lia. }
    destruct (Z.eqb_spec v s) as [-> |N]; intros E; [|lia]. constructor; [reflexivity|]. apply IH. lia.
  - induction 1 as [|s l <- _ IH]; [reflexivity|]. rewrite howmany_cons, Z.eqb_refl. cbn [length]. lia.
Qed.

Lemma proportion_mult l : l <> [] ->
  (proportion l * inject_Z (Z.of_nat (length l)) == inject_Z (howmany 1 l) + (1 # 2) * inject_Z (howmany 0 l))%Q.
Proof.
  intros N. unfold proportion. field. intros E. change 0%Q with (inject_Z 0) in E. rewrite inject_Z_injective in E.
  destruct l; [congruence|]. cbn [length] in E. lia.
Qed.

(** A score as a fraction of twice the number of answers. *)
Lemma proportion_num l q : l <> [] ->
  (proportion l == q <-> q * inject_Z (2 * Z.of_nat (length l)) == inject_Z (2 * howmany 1 l + howmany 0 l))%Q.
Proof.
  intros N. assert (P : (0 < inject_Z (Z.of_nat (length l)))%Q).
  { change 0%Q with (inject_Z 0). rewrite <- Zlt_Qlt. destruct l; [congruence|]. cbn [length]. lia. }
  pose proof (proportion_mult N) as E. rewrite inject_Z_plus, !inject_Z_mult. change (inject_Z 2) with 2%Q. split.
  - intros <-. lra.
  - intros H. apply (Qmult_inj_r _ _ (inject_Z (Z.of_nat (length l)))); [lra|]. lra.
Qed.

Lemma proportion_Z l (a : Z) : l <> [] ->
  (proportion l == a # 2)%Q <-> a * Z.of_nat (length l) = 2 * howmany 1 l + howmany 0 l.
Proof.
  intros N. rewrite (proportion_num _ N). unfold Qeq. cbn [Qnum Qden Qmult inject_Z]. lia.
Qed.

Lemma proportion_1 l : l <> [] -> Forall is_answer l -> (proportion l == 1)%Q <-> Forall (eq 1) l.
Proof.
  intros N A. assert (E : (proportion l == 1)%Q <-> (proportion l == 2 # 2)%Q) by (split; intros ->; reflexivity).
  rewrite E, (proportion_Z _ N), <- howmany_all. pose proof (answers_counted A). pose proof (howmany_pos 0 l).
  pose proof (howmany_pos (-1) l). lia.
Qed.

Lemma proportion_0 l : l <> [] -> Forall is_answer l -> (proportion l == 0)%Q <-> Forall (eq (-1)) l.
Proof.
  intros N A. assert (E : (proportion l == 0)%Q <-> (proportion l == 0 # 2)%Q) by (split; intros ->; reflexivity).
  rewrite E, (proportion_Z _ N), <- howmany_all. pose proof (answers_counted A). pose proof (howmany_pos 0 l).
  pose proof (howmany_pos 1 l). lia.
Qed.

Lemma proportion_half l : l <> [] -> Forall (eq 0) l -> (proportion l == 1 # 2)%Q.
Proof.
  intros N A. rewrite (proportion_Z _ N). apply howmany_all in A as E.
  assert (Forall is_answer l) as B by (eapply Forall_impl; [|exact A]; intros s <-; right; left; reflexivity).
  pose proof (answers_counted B). pose proof (howmany_pos 1 l). pose proof (howmany_pos (-1) l). lia.
Qed.

Lemma proportion_range l : l <> [] -> Forall is_answer l -> (0 <= proportion l <= 1)%Q.
Proof.
  intros N A. pose proof (answers_counted A). pose proof (howmany_pos 0 l). pose proof (howmany_pos 1 l). pose proof (howmany_pos (-1) l).
  assert (P : (0 < inject_Z (2 * Z.of_nat (length l)))%Q).
  { change 0%Q with (inject_Z 0). rewrite <- Zlt_Qlt. destruct l; [congruence|]. cbn [length]. lia. }
  pose proof (proj1 (proportion_num (proportion l) N) (Qeq_refl _)) as E.
  split; apply (Qmult_le_r _ _ _ P); rewrite E.
  - rewrite Qmult_0_l. change 0%Q with (inject_Z 0). rewrite <- Zle_Qle. lia.
  - rewrite Qmult_1_l. rewrite <- Zle_Qle. lia.
Qed.

Lemma howmany_opp v l : howmany v (map Z.opp l) = howmany (- v) l.
Proof.
  induction l as [|s l IH]; [reflexivity|]. cbn [map]. rewrite !howmany_cons, IH. f_equal.
  destruct (Z.eqb_spec v (- s)), (Z.eqb_spec (- v) s); try reflexivity; lia.
Qed.

Lemma proportion_opp l : l <> [] -> Forall is_answer l -> (proportion (map Z.opp l) == 1 - proportion l)%Q.
Proof.
  intros N A. pose proof (answers_counted A) as C.
  assert (N' : map Z.opp l <> []) by (destruct l; [congruence|discriminate]).
  apply (proportion_num _ N'). rewrite map_length, !howmany_opp. cbn [Z.opp].
  pose proof (proj1 (proportion_num (proportion l) N) (Qeq_refl _)) as E. rewrite <- C in *.
  rewrite !inject_Z_mult, !inject_Z_plus, !inject_Z_mult in *. change (inject_Z 2) with 2%Q in *. lra.
Qed.

Lemma verdict_answer (V : Type) (vlt : V -> V -> bool) d d' s : verdict vlt d d' s -> is_answer s.
Proof. unfold verdict, is_answer. tauto. Qed.

(** ** Lines *)

Section Lines.
Variables tm L F V : Type.
Variable name : key -> string.
Variables (tle : tm -> tm -> bool) (vlt : V -> V -> bool).
Variable distance : option bool -> list F -> list F -> res V.
Variables (T : task) (db : list row) (places : list (Distances.item tm)).
Variables (files : list (feature_data tm F)) (normalize : option Z).
Variable indexes : list (string * list L).
Local Notation answer := (answer tle vlt distance T db places files normalize).
Local Notation result := (result_of tle vlt distance name T db places files normalize indexes).
Local Notation comb k t := (combination T (by_rows T db k) (map fst indexes) t).

Lemma answer_is k t s : answer k t s -> is_answer s.
Proof.
  destruct t as [[a b] x]. intros (pa & pb & px & ma & mb & mx & dax & dbx & _ & _ & _ & _ & _ & _ & _ & _ & H).
  eapply verdict_answer, H.
Qed.

(** Every line is the line of a by and a combination. *)
Lemma line_is lines ln : result lines -> In ln lines ->
  exists k r ts answers, l_by ln = name k /\ ts <> [] /\
    lists_that (fun t => is_wanted T db k t /\ comb k t = r) ts /\ Forall2 (answer k) ts answers /\
    l_n ln = Z.of_nat (length ts) /\ (l_score ln == proportion answers)%Q.
Proof.
  intros (parts & -> & _ & _ & H) Hl. apply in_concat in Hl as (m & Hm & Hl). apply in_map_iff in Hm as ([k part] & <- & Hp).
  apply in_map_iff in Hl as ([r ln'] & E & Hr). cbn in E, Hr. subst ln'. destruct (H k part Hp) as (_ & Hc & Hln).
  destruct (Hln r ln Hr) as (_ & Eb & ts & answers & Ht & Ha & En & Es). exists k, r, ts, answers.
  split; [exact Eb|]. split; [|auto]. destruct (proj1 (Hc r) (in_map fst _ _ Hr)) as (t & Hw & Et). destruct Ht as [_ Ht].
  intros ->. apply (proj2 (Ht t)). auto.
Qed.

Lemma answers_are k ts answers : Forall2 (answer k) ts answers -> Forall is_answer answers.
Proof. induction 1; constructor; auto. eapply answer_is; eauto. Qed.

Lemma answers_some k ts answers : ts <> [] -> Forall2 (answer k) ts answers -> answers <> [].
Proof. intros N H. destruct H; [congruence|discriminate]. Qed.

Lemma answers_eq k ts answers s : Forall2 (answer k) ts answers ->
  (forall t s', In t ts -> answer k t s' -> s = s') -> Forall (eq s) answers.
Proof.
  induction 1 as [|t s' ts answers H _ IH]; intros E; constructor.
  - apply (E t); [left; reflexivity|exact H].
  - apply IH. intros u v Hu. apply E. right. exact Hu.
Qed.

(** All the answers are the same. *)
Lemma scores_const s q lines : result lines ->
  (forall l, l <> [] -> Forall (eq s) l -> (proportion l == q)%Q) ->
  (forall k t s', is_wanted T db k t -> answer k t s' -> s = s') ->
  forall ln, In ln lines -> (l_score ln == q)%Q.
Proof.
  intros R Hq H ln Hl. destruct (line_is ln R Hl) as (k & r & ts & answers & _ & N & [_ Ht] & Ha & _ & ->).
  apply Hq; [exact (answers_some N Ha)|]. apply (answers_eq Ha). intros t s' It. apply H. apply Ht, It.
Qed.

Lemma scores_range lines : result lines -> forall ln, In ln lines -> 1 <= l_n ln /\ (0 <= l_score ln <= 1)%Q.
Proof.
  intros R ln Hl. destruct (line_is ln R Hl) as (k & r & ts & answers & _ & N & _ & Ha & En & Es). split.
  - rewrite En. destruct ts; [congruence|]. cbn [length]. lia.
  - rewrite Es. apply proportion_range; [exact (answers_some N Ha)|exact (answers_are Ha)].
Qed.

Hypothesis len : length places = length db.
Hypothesis asym : asymmetric vlt.
Hypothesis feat : features_ok files.

Lemma answer_fun k t s s' : answer k t s -> answer k t s' -> s = s'.
Proof.
  destruct t as [[a b] x]. intros (pa & pb & px & ma & mb & mx & dax & dbx & Ha & Hb & Hx & Ma & Mb & Mx & Da & Db & Hv).
  intros (pa' & pb' & px' & ma' & mb' & mx' & dax' & dbx' & Ha' & Hb' & Hx' & Ma' & Mb' & Mx' & Da' & Db' & Hv').
  assert (pa' = pa) as -> by (destruct Ha, Ha'; congruence). assert (pb' = pb) as -> by (destruct Hb, Hb'; congruence).
  assert (px' = px) as -> by (destruct Hx, Hx'; congruence).
  rewrite <- (matrix_fun feat Ma Ma') in Da'. rewrite <- (matrix_fun feat Mb Mb') in Db'. rewrite <- (matrix_fun feat Mx Mx') in Da', Db'.
  assert (dax' = dax) as -> by congruence. assert (dbx' = dbx) as -> by congruence. exact (verdict_fun asym Hv Hv').
Qed.

Lemma all_iff k ts answers s : Forall2 (answer k) ts answers ->
  (Forall (eq s) answers <-> forall t, In t ts -> answer k t s).
Proof.
  intros H. split.
  - induction H as [|t s' ts answers Ht _ IH]; intros A u [].
    + subst. inversion A; subst. exact Ht.
    + inversion A; subst. apply IH; assumption.
  - intros A. apply (answers_eq H). intros t s' It Hs. exact (answer_fun _ _ _ _ (A t It) Hs).
Qed.

Lemma scores_extreme lines : result lines -> forall ln, In ln lines ->
  exists k r, l_by ln = name k /\ (exists t, is_wanted T db k t /\ comb k t = r) /\
    ((l_score ln == 1)%Q <-> forall t, is_wanted T db k t -> comb k t = r -> answer k t 1) /\
    ((l_score ln == 0)%Q <-> forall t, is_wanted T db k t -> comb k t = r -> answer k t (-1)).
Proof.
  intros R ln Hl. destruct (line_is ln R Hl) as (k & r & ts & answers & Eb & N & [_ Ht] & Ha & _ & Es).
  pose proof (answers_some N Ha) as N'. pose proof (answers_are Ha) as A. exists k, r. split; [exact Eb|]. split.
  { destruct ts as [|t ts]; [congruence|]. exists t. apply Ht. left. reflexivity. }
  rewrite Es, (proportion_1 N' A), (proportion_0 N' A), !(all_iff _ Ha). split; split.
  - intros H t H1 H2. apply H, Ht. auto.
  - intros H t It. apply Ht in It as [H1 H2]. auto.
  - intros H t H1 H2. apply H, Ht. auto.
  - intros H t It. apply Ht in It as [H1 H2]. auto.
Qed.

(** ** Categories *)

Lemma items_in k i r p : at_ (items_of T db places k) i (r, p) -> In (r, p) (items_of T db places k).
Proof. intros [_ H]. eapply nth_error_In, H. Qed.

Lemma answer_categories (near : V -> V -> Prop) k t s : is_wanted T db k t ->
  categories tle distance near T db places files normalize -> answer k t s ->
  exists dax dbx, near dax dbx /\ verdict vlt dax dbx s.
Proof.
  destruct t as [[a b] x]. intros W C (pa & pb & px & ma & mb & mx & dax & dbx & Ha & Hb & Hx & Ma & Mb & Mx & Da & Db & Hv).
  exists dax, dbx. split; [|exact Hv]. cbn in W. rewrite (wanted_items T k _ _ a b x len) in W.
  destruct W as (ra & qa & rb & qb & rx & qx & Wa & Wb & Wx & (O1 & O2 & _) & _).
  apply at_place in Ha as (ra' & Ha), Hb as (rb' & Hb), Hx as (rx' & Hx).
  pose proof (at_fun Wa Ha) as Ea. pose proof (at_fun Wb Hb) as Eb. pose proof (at_fun Wx Hx) as Ex.
  injection Ea as <- <-. injection Eb as <- <-. injection Ex as <- <-.
  apply (C k ra qa rb qb rx qx (items_in _ Ha) (items_in _ Hb) (items_in _ Hx)) with ma mb mx; auto. congruence.
Qed.

(** ** Totals *)

Lemma nodup_app A (l m : list A) : NoDup l -> NoDup m -> (forall x, In x l -> In x m -> False) -> NoDup (l ++ m).
Proof.
  induction l as [|x l IH]; intros Nl Nm D; [exact Nm|]. inversion Nl; subst. cbn. constructor.
  - rewrite in_app_iff. intros [I|I]; [auto|]. apply (D x); [left; reflexivity|exact I].
  - apply IH; auto. intros y I. apply D. right. exact I.
Qed.

Lemma sorted_nodup l : StronglySorted lex l -> NoDup l.
Proof.
  induction 1 as [|r l _ IH G]; constructor; [|exact IH]. intros I. rewrite Forall_forall in G.
  exact (lex_irrefl _ (G r I)).
Qed.


Lemma right_mult answers : (proportion answers * inject_Z (Z.of_nat (length answers))
  == inject_Z (howmany 1 answers) + (1 # 2) * inject_Z (howmany 0 answers))%Q.
Proof.
  destruct answers as [|s l]; [reflexivity|]. apply proportion_mult. discriminate.
Qed.

Lemma howmany_app v l m : howmany v (l ++ m) = howmany v l + howmany v m.
Proof. induction l as [|s l IH]; [reflexivity|]. cbn [app]. rewrite !howmany_cons, IH. lia. Qed.

Lemma Forall2_length_eq A B (P : A -> B -> Prop) l m : Forall2 P l m -> length l = length m.
Proof. induction 1; cbn; auto. Qed.

Definition total_is k (ts : list triplet) (answers : list Z) (lines : list (line L)) : Prop :=
  Forall2 (answer k) ts answers /\ triplets_in lines = Z.of_nat (length ts) /\
  (right_in lines == inject_Z (howmany 1 answers) + (1 # 2) * inject_Z (howmany 0 answers))%Q.

Lemma part_total k part : NoDup (map fst part) ->
  (forall r ln, In (r, ln) part -> line_among tle vlt distance name (is_wanted T db) T db places files normalize indexes k r ln) ->
  exists ts answers, lists_that (fun t => is_wanted T db k t /\ In (comb k t) (map fst part)) ts /\
    total_is k ts answers (map snd part).
Proof.
  induction part as [|[r ln] part IH]; intros N H.
  - exists [], []. split; [split; [constructor|]; intros t; cbn; tauto|]. split; [constructor|]. split; reflexivity.
  - cbn [map fst snd] in *. inversion N as [|? ? Hr N']; subst.
    destruct IH as (ts & answers & [Nt Ht] & Ha & En & Es); [exact N'|intros; apply H; right; assumption|].
    destruct (H r ln (or_introl eq_refl)) as (_ & _ & ts0 & answers0 & [Nt0 Ht0] & Ha0 & En0 & Es0).
    exists (ts0 ++ ts), (answers0 ++ answers). split; [split|split; [|split]].
    + apply nodup_app; auto. intros t I0 I. apply Ht0 in I0 as [_ I0]. apply Ht in I as [_ I]. subst r. exact (Hr I).
    + intros t. rewrite in_app_iff, Ht0, Ht. cbn [In]. split.
      * intros [[A B]|[A B]]; split; auto.
      * intros [A [B|B]]; [left|right]; auto.
    + apply Forall2_app; assumption.
    + cbn [triplets_in fold_right]. change (fold_right (fun ln n => l_n ln + n) 0 (map snd part)) with (triplets_in (map snd part)).
      rewrite En, En0, app_length. lia.
    + cbn [right_in fold_right]. change (fold_right _ _ (map snd part)) with (right_in (map snd part)).
      rewrite Es, En0, Es0, (Forall2_length_eq Ha0), right_mult, !howmany_app, !inject_Z_plus. ring.
Qed.

Hypothesis name_inj : forall k k', name k = name k' -> k = k'.

Lemma by_total k lines : result lines ->
  exists ts answers, lists_that (is_wanted T db k) ts /\ total_is k ts answers (of_by (name k) lines).
Proof.
  intros (parts & -> & N & K & H).
  assert (B : forall k' part, In (k', part) parts -> forall r ln, In (r, ln) part -> l_by ln = name k').
  { intros k' part Hp r ln Hr. apply (H k' part Hp) in Hr. apply Hr. }
  destruct (of_by_part name name_inj k parts B N) as [Hin Hout].
  destruct (in_dec key_dec k (map fst parts)) as [I|I].
  - apply in_map_iff in I as ([k' part] & E & Hp). cbn in E. subst k'. rewrite (Hin part Hp).
    destruct (H k part Hp) as (Hs & Hc & Hl).
    destruct (part_total part (sorted_nodup Hs) Hl) as (ts & answers & [Nt Ht] & Htot). exists ts, answers. split; [|exact Htot].
    split; [exact Nt|]. intros t. rewrite Ht. split; [tauto|]. intros W. split; [exact W|]. apply Hc. eauto.
  - rewrite (Hout I). exists [], []. split; [split; [constructor|]|].
    + intros t. split; [intros []|]. intros W. apply I, K. eauto.
    + split; [constructor|]. split; reflexivity.
Qed.

End Lines.

(** ** Evaluations *)

Section Main.
Variables tm L F V : Type.
Variable leq : forall x y : L, {x = y} + {x <> y}.
Variable plain : L -> bool.
Variable name : key -> string.
Hypothesis name_inj : forall k k', name k = name k' -> k = k'.
Variables (tle : tm -> tm -> bool) (vlt : V -> V -> bool).
Variable distance : option bool -> list F -> list F -> res V.
Hypothesis asym : asymmetric vlt.

Section One.
Variables (T : task) (cols : list string) (db : list row) (places : list (Distances.item tm)).
Variables (indexes : list (string * list L)) (files : list (feature_data tm F)) (normalize : option Z).
Hypothesis E : evaluable plain T cols db places indexes files.
Variable lines : list (line L).
Hypothesis R : evaluated leq plain name tle vlt distance T cols db places indexes files normalize lines.

Let Rl := evaluated_result name_inj E asym R.

Theorem range ln : In ln lines -> 1 <= l_n ln /\ (0 <= l_score ln <= 1)%Q.
Proof. apply (scores_range Rl). Qed.

Theorem extreme ln : In ln lines ->
  exists k r, l_by ln = name k /\
    (exists t, is_wanted T db k t /\ combination T (by_rows T db k) (map fst indexes) t = r) /\
    ((l_score ln == 1)%Q <-> forall t, is_wanted T db k t -> combination T (by_rows T db k) (map fst indexes) t = r ->
                               answer tle vlt distance T db places files normalize k t 1) /\
    ((l_score ln == 0)%Q <-> forall t, is_wanted T db k t -> combination T (by_rows T db k) (map fst indexes) t = r ->
                               answer tle vlt distance T db places files normalize k t (-1)).
Proof. apply (scores_extreme asym (ev_features E) Rl). Qed.

Theorem perfect : categories tle distance (fun d d' => vlt d d' = true) T db places files normalize ->
  forall ln, In ln lines -> (l_score ln == 1)%Q.
Proof.
  intros C. apply (@scores_const _ _ _ _ _ _ _ _ _ _ _ _ _ _ 1 1%Q _ Rl).
  - intros l N A. apply proportion_1; [exact N| |exact A]. eapply Forall_impl; [|exact A]. intros s <-. left. reflexivity.
  - intros k t s W H. destruct (answer_categories vlt (ev_length E) _ _ _ W C H) as (d & d' & Hd & Hv).
    pose proof (asym Hd). unfold verdict in Hv. intuition congruence.
Qed.

Theorem inverted : categories tle distance (fun d d' => vlt d' d = true) T db places files normalize ->
  forall ln, In ln lines -> (l_score ln == 0)%Q.
Proof.
  intros C. apply (@scores_const _ _ _ _ _ _ _ _ _ _ _ _ _ _ (-1) 0%Q _ Rl).
  - intros l N A. apply proportion_0; [exact N| |exact A]. eapply Forall_impl; [|exact A]. intros s <-. right; right. reflexivity.
  - intros k t s W H. destruct (answer_categories vlt (ev_length E) _ _ _ W C H) as (d & d' & Hd & Hv).
    pose proof (asym Hd). unfold verdict in Hv. intuition congruence.
Qed.

Theorem blind : same_frames tle places files -> forall ln, In ln lines -> (l_score ln == 1 # 2)%Q.
Proof.
  intros C. apply (@scores_const _ _ _ _ _ _ _ _ _ _ _ _ _ _ 0 (1 # 2)%Q _ Rl).
  - exact proportion_half.
  - intros k [[a b] x] s W (pa & pb & px & ma & mb & mx & dax & dbx & Ha & Hb & Hx & Ma & Mb & Mx & Da & Db & Hv).
    apply at_place in Ha as (ra & Ha), Hb as (rb & Hb).
    assert (Ia : In pa places) by (eapply items_places, items_in, Ha).
    assert (Ib : In pb places) by (eapply items_places, items_in, Hb).
    rewrite (C pa pb ma mb Ia Ib Ma Mb) in Da. assert (dax = dbx) as -> by congruence.
    assert (vlt dbx dbx = false) as I by (destruct (vlt dbx dbx) eqn:I; [pose proof (asym I); congruence|reflexivity]).
    unfold verdict in Hv. intuition congruence.
Qed.

Theorem total k : exists ts answers, lists_that (is_wanted T db k) ts /\
  Forall2 (answer tle vlt distance T db places files normalize k) ts answers /\
  triplets_in (of_by (name k) lines) = Z.of_nat (length ts) /\
  (right_in (of_by (name k) lines) == inject_Z (howmany 1 answers) + (1 # 2) * inject_Z (howmany 0 answers))%Q.
Proof. exact (by_total (ev_length E) name_inj k Rl). Qed.

End One.

(** ** Other regressors *)

Lemma same_wanted T T' db k t : same_triplets T T' -> is_wanted T db k t -> is_wanted T' db k t.
Proof.
  destruct t as [[a b] x]. intros (E1 & E2 & E3 & E4). cbn. unfold wanted, by_rows, abx. rewrite E1, E2, E3, E4. auto.
Qed.

Lemma same_answer T T' db (places : list (Distances.item tm)) files normalize k t s : same_triplets T T' ->
  answer tle vlt distance T db places files normalize k t s -> answer tle vlt distance T' db places files normalize k t s.
Proof. destruct t as [[a b] x]. intros (_ & _ & E3 & _). unfold answer, place. rewrite E3. auto. Qed.

Lemma same_sym T T' : same_triplets T T' -> same_triplets T' T.
Proof. unfold same_triplets. intuition congruence. Qed.

Theorem regressors T T' cols cols' db (places : list (Distances.item tm)) (indexes indexes' : list (string * list L)) files normalize lines lines' :
  same_triplets T T' ->
  evaluable plain T cols db places indexes files -> evaluable plain T' cols' db places indexes' files ->
  evaluated leq plain name tle vlt distance T cols db places indexes files normalize lines ->
  evaluated leq plain name tle vlt distance T' cols' db places indexes' files normalize lines' ->
  forall k, triplets_in (of_by (name k) lines) = triplets_in (of_by (name k) lines') /\
            (right_in (of_by (name k) lines) == right_in (of_by (name k) lines'))%Q.
Proof.
  intros S E E' R R' k. destruct (total E R k) as (ts & ans & [N H] & Ha & En & Es). destruct (total E' R' k) as (ts' & ans' & [N' H'] & Ha' & En' & Es').
  assert (P : Permutation ts ts').
  { apply NoDup_Permutation; auto. intros t. rewrite H, H'. split; apply same_wanted; auto using same_sym. }
  rewrite En, En', (Permutation_length P). split; [reflexivity|]. rewrite Es, Es'.
  destruct (Permutation_Forall2 P Ha) as (ans2 & P2 & Ha2).
  assert (ans2 = ans') as ->.
  { refine (Forall2_fun _ Ha2 Ha'). intros t s s' _ A B. assert (B' : answer tle vlt distance T db places files normalize k t s') by (eapply same_answer; [exact (same_sym S)|exact B]).
    eapply answer_fun; [exact asym|exact (ev_features E)|exact A|exact B']. }
  rewrite (howmany_perm 1 P2), (howmany_perm 0 P2). reflexivity.
Qed.

(** ** The whole result *)

Definition sumZ (l : list Z) : Z := fold_right Z.add 0 l.
Definition sumQ (l : list Q) : Q := fold_right Qplus 0%Q l.

Lemma triplets_app (l m : list (line L)) : triplets_in (l ++ m) = triplets_in l + triplets_in m.
Proof. induction l as [|ln l IH]; [reflexivity|]. unfold triplets_in in *. cbn. rewrite IH. lia. Qed.

Lemma right_app (l m : list (line L)) : (right_in (l ++ m) == right_in l + right_in m)%Q.
Proof. induction l as [|ln l IH]; unfold right_in in *; cbn; [ring|]. rewrite IH. ring. Qed.

Lemma sumZ_perm l m : Permutation l m -> sumZ l = sumZ m.
Proof. unfold sumZ. induction 1; cbn; lia. Qed.

Lemma sumQ_perm l m : Permutation l m -> (sumQ l == sumQ m)%Q.
Proof. unfold sumQ. induction 1; cbn; [reflexivity|rewrite IHPermutation; reflexivity|ring|]. rewrite IHPermutation1. assumption. Qed.

Lemma parts_sums (parts : list (key * list (list Z * line L))) (f : key -> list (line L)) :
  (forall k part, In (k, part) parts -> f k = map snd part) ->
  let lines := concat (map (fun p => map snd (snd p)) parts) in
  triplets_in lines = sumZ (map (fun k => triplets_in (f k)) (map fst parts)) /\
  (right_in lines == sumQ (map (fun k => right_in (f k)) (map fst parts)))%Q.
Proof.
  induction parts as [|[k part] parts IH]; intros O; [split; reflexivity|].
  cbn [map concat fst snd]. destruct IH as [IH1 IH2]; [intros; apply O; right; assumption|]. cbn zeta in *.
  rewrite (O k part (or_introl eq_refl)). split.
  - rewrite triplets_app, IH1. reflexivity.
  - rewrite right_app, IH2. reflexivity.
Qed.

Lemma result_sums T db (places : list (Distances.item tm)) files normalize (indexes : list (string * list L)) (lines : list (line L)) :
  result_of tle vlt distance name T db places files normalize indexes lines ->
  exists keys, NoDup keys /\ (forall k, In k keys <-> exists t, is_wanted T db k t) /\
    triplets_in lines = sumZ (map (fun k => triplets_in (of_by (name k) lines)) keys) /\
    (right_in lines == sumQ (map (fun k => right_in (of_by (name k) lines)) keys))%Q.
Proof.
  intros (parts & El & N & K & H). exists (map fst parts). split; [exact N|]. split; [exact K|].
  assert (B : forall k' part, In (k', part) parts -> forall r ln, In (r, ln) part -> l_by ln = name k').
  { intros k' part Hp r ln Hr. apply (H k' part Hp) in Hr. apply Hr. }
  assert (O : forall k part, In (k, part) parts -> of_by (name k) lines = map snd part).
  { intros k part Hp. rewrite El. apply (of_by_part name name_inj k parts B N). exact Hp. }
  pose proof (parts_sums parts (fun k => of_by (name k) lines) O) as A. rewrite <- El in A. exact A.
Qed.

Theorem regressors_whole T T' cols cols' db (places : list (Distances.item tm)) (indexes indexes' : list (string * list L)) files normalize lines lines' :
  same_triplets T T' ->
  evaluable plain T cols db places indexes files -> evaluable plain T' cols' db places indexes' files ->
  evaluated leq plain name tle vlt distance T cols db places indexes files normalize lines ->
  evaluated leq plain name tle vlt distance T' cols' db places indexes' files normalize lines' ->
  triplets_in lines = triplets_in lines' /\ (right_in lines == right_in lines')%Q.
Proof.
  intros S E E' R R'. pose proof (regressors S E E' R R') as G.
  destruct (result_sums (evaluated_result name_inj E asym R)) as (ks & N & K & E1 & E2).
  destruct (result_sums (evaluated_result name_inj E' asym R')) as (ks' & N' & K' & E1' & E2').
  assert (P : Permutation ks ks').
  { apply NoDup_Permutation; auto. intros k. rewrite K, K'. split; intros [t Ht]; exists t; eapply same_wanted; eauto using same_sym. }
  rewrite E1, E1', E2, E2'. split.
  - rewrite (sumZ_perm (Permutation_map _ P)). f_equal. apply map_ext. intros k. apply G.
  - rewrite (sumQ_perm (Permutation_map _ P)). clear - G. induction ks' as [|k ks' IH]; [reflexivity|]. cbn.
    destruct (G k) as [_ ->]. apply Qplus_comp; [reflexivity|exact IH].
Qed.

(** ** Reversed distances *)

Definition flipped (ln : line L) : line L := mk_line (l_labels ln) (l_by ln) (1 - l_score ln)%Q (l_n ln).

Lemma flip_verdict d d' s : verdict (fun u v => vlt v u) d d' s -> verdict vlt d d' (- s).
Proof. unfold verdict. intros [[H ->]|[[H ->]|(H & H' & ->)]]; cbn; tauto. Qed.

Lemma flip_answer T db (places : list (Distances.item tm)) files normalize k t s :
  answer tle (fun u v => vlt v u) distance T db places files normalize k t s ->
  answer tle vlt distance T db places files normalize k t (- s).
Proof.
  destruct t as [[a b] x]. intros (pa & pb & px & ma & mb & mx & dax & dbx & H).
  exists pa, pb, px, ma, mb, mx, dax, dbx. intuition. apply flip_verdict. assumption.
Qed.

Lemma flip_result T db (places : list (Distances.item tm)) files normalize (indexes : list (string * list L)) lines :
  result_of tle (fun u v => vlt v u) distance name T db places files normalize indexes lines ->
  result_of tle vlt distance name T db places files normalize indexes (map flipped lines).
Proof.
  intros (parts & -> & N & K & H). exists (map (fun p => (fst p, map (fun q => (fst q, flipped (snd q))) (snd p))) parts).
  split; [|split; [|split]].
  - rewrite concat_map, !map_map. f_equal. apply map_ext. intros [k part]. cbn. rewrite !map_map. reflexivity.
  - rewrite map_map. exact N.
  - intros k. rewrite map_map. apply K.
  - intros k part Hp. apply in_map_iff in Hp as ([k' part'] & Ep & Hp). injection Ep as <- <-. cbn.
    destruct (H k' part' Hp) as (Hs & Hc & Hl). rewrite map_map. cbn. split; [exact Hs|]. split; [exact Hc|].
    intros r ln Hr. apply in_map_iff in Hr as ([r' ln'] & Er & Hr). injection Er as <- <-. cbn.
    destruct (Hl r' ln' Hr) as (Hlab & Hb & ts & answers & Ht & Ha & En & Es). split; [exact Hlab|]. split; [exact Hb|].
    exists ts, (map Z.opp answers). split; [exact Ht|]. split; [|split; [exact En|]].
    + clear - Ha. induction Ha; cbn; constructor; auto using flip_answer.
    + cbn. rewrite Es. symmetry. apply proportion_opp; [|exact (answers_are Ha)].
      destruct (proj1 (Hc r') (in_map fst _ _ Hr)) as (t & Hw & Et). intros ->. inversion Ha; subst.
      apply (proj2 (proj2 Ht t)). auto.
Qed.

Lemma of_by_flipped s lines : of_by s (map flipped lines) = map flipped (of_by s lines).
Proof.
  unfold of_by. induction lines as [|ln lines IH]; [reflexivity|]. cbn. destruct (String.eqb (l_by ln) s); cbn; rewrite IH; reflexivity.
Qed.

Lemma flip_asym : asymmetric (fun u v => vlt v u).
Proof. intros d d' H. exact (asym H). Qed.

Theorem reversed T cols db (places : list (Distances.item tm)) (indexes : list (string * list L)) files normalize lines lines' :
  evaluable plain T cols db places indexes files ->
  evaluated leq plain name tle vlt distance T cols db places indexes files normalize lines ->
  evaluated leq plain name tle (fun d d' => vlt d' d) distance T cols db places indexes files normalize lines' ->
  forall k, Forall2 (@opposite L) (of_by (name k) lines) (of_by (name k) lines').
Proof.
  intros E R R' k.
  assert (J : Forall2 (@line_same L) (of_by (name k) lines) (of_by (name k) (map flipped lines'))).
  { refine (by_same name_inj (ev_length E) (ev_length E) _ k (Permutation_refl _) (evaluated_result name_inj E asym R)
      (flip_result (evaluated_result name_inj E flip_asym R'))).
    intros pa pb px s s' _ _ _ (ma & mb & mx & dax & dbx & Ma & Mb & Mx & Da & Db & Hv) (ma' & mb' & mx' & dax' & dbx' & Ma' & Mb' & Mx' & Da' & Db' & Hv').
    rewrite <- (matrix_fun (ev_features E) Ma Ma') in Da'. rewrite <- (matrix_fun (ev_features E) Mb Mb') in Db'.
    rewrite <- (matrix_fun (ev_features E) Mx Mx') in Da', Db'.
    assert (dax' = dax) as -> by congruence. assert (dbx' = dbx) as -> by congruence. exact (verdict_fun asym Hv Hv'). }
  rewrite of_by_flipped in J. revert J. generalize (of_by (name k) lines) (of_by (name k) lines'). clear.
  intros l. induction l as [|ln l IH]; intros [|ln' l'] J; cbn in J; inversion J as [|? ? ? ? (H1 & H2 & H3 & H4) J']; subst; constructor.
  - unfold opposite. cbn in *. repeat (split; [assumption|]). rewrite H4. ring.
  - apply IH, J'.
Qed.

End Main.
