(** The divergences between distributions. *)

From Coq Require Import Reals List Bool Arith Lia Lra Psatz.
From Verif Require Import Prelude Metrics Metrics_spec Metrics_proofs Metrics_cosine.
Import ListNotations.
Local Open Scope R_scope.

(** ** Logarithms *)

Lemma ln_le_minus : forall t, 0 < t -> ln t <= t - 1.
Proof.
  intros t Ht; pose proof (exp_ineq1_le (ln t)) as H; rewrite exp_ln in H by assumption; lra.
Qed.

Lemma ln_lt_minus : forall t, 0 < t -> t <> 1 -> ln t < t - 1.
Proof.
  intros t Ht N.
  assert (L : ln t <> 0).
  { intros E; apply N; rewrite <- (exp_ln t), E, exp_0 by assumption; reflexivity. }
  pose proof (exp_ineq1 (ln t) L) as H; rewrite exp_ln in H by assumption; lra.
Qed.

Lemma ln_div : forall a b, 0 < a -> 0 < b -> ln (a / b) = ln a - ln b.
Proof.
  intros a b Ha Hb; unfold Rdiv; rewrite ln_mult by (auto using Rinv_0_lt_compat).
  rewrite ln_Rinv by assumption; lra.
Qed.

Lemma gibbs_term : forall a b, 0 < a -> 0 < b -> a - b <= a * ln (a / b).
Proof.
  intros a b Ha Hb; rewrite ln_div by assumption.
  pose proof (ln_le_minus (b / a) (Rdiv_lt_0_compat _ _ Hb Ha)) as H.
  rewrite ln_div in H by assumption.
  apply (Rmult_le_compat_l a) in H; [|lra].
  replace (a * (b / a - 1)) with (b - a) in H by (field; lra); lra.
Qed.

Lemma gibbs_term_eq : forall a b, 0 < a -> 0 < b -> a * ln (a / b) = a - b -> a = b.
Proof.
  intros a b Ha Hb E; destruct (Req_dec (b / a) 1) as [Q|Q].
  - assert (b = a) by (rewrite <- (Rmult_1_l a), <- Q; field; lra); auto.
  - exfalso; pose proof (ln_lt_minus (b / a) (Rdiv_lt_0_compat _ _ Hb Ha) Q) as H.
    rewrite ln_div in H, E by assumption.
    apply (Rmult_lt_compat_l a) in H; [|lra].
    replace (a * (b / a - 1)) with (b - a) in H by (field; lra); lra.
Qed.

Lemma KL_gibbs : forall p q, length p = length q -> positive p -> positive q ->
  total p - total q <= KL p q /\ (KL p q = total p - total q -> p = q).
Proof.
  intros p q L Hp; revert q L; induction Hp as [|a p Ha Hp IH]; intros [|b q] L Hq; cbn in *;
    try discriminate; [split; [lra|reflexivity]|].
  inversion Hq as [|? ? Hb Hq']; subst.
  destruct (IH q ltac:(lia) Hq') as [I1 I2]; pose proof (gibbs_term a b Ha Hb); split; [lra|].
  intros E; f_equal; [apply gibbs_term_eq; auto; lra|apply I2; lra].
Qed.

Lemma KL_same : forall p, positive p -> KL p p = 0.
Proof.
  induction 1 as [|a p Ha Hp IH]; cbn; auto.
  rewrite IH; unfold Rdiv; rewrite Rinv_r, ln_1 by lra; lra.
Qed.

Lemma KL_nonneg : forall p q, length p = length q -> positive p -> positive q ->
  total p = total q -> 0 <= KL p q /\ (KL p q = 0 <-> p = q).
Proof.
  intros p q L Hp Hq E; destruct (KL_gibbs p q L Hp Hq) as [A B]; split; [lra|].
  split; [intros Z; apply B; lra|intros <-; apply KL_same; assumption].
Qed.

(** ** Distributions *)

Lemma positive_nonnegative : forall x, positive x -> nonnegative x.
Proof. intros x H; eapply Forall_impl; [|exact H]; cbn; intros; lra. Qed.

Lemma nonnegative_total : forall x, nonnegative x -> 0 <= total x.
Proof. induction 1; cbn; lra. Qed.

Lemma positive_total : forall x, positive x -> x = [] \/ 0 < total x.
Proof.
  intros x H; destruct H as [|a x Ha H]; auto; right.
  pose proof (nonnegative_total x (positive_nonnegative x H)); cbn; lra.
Qed.

Lemma total_prob : forall x, total x <> 0 -> total (prob x) = 1.
Proof.
  intros x H; unfold prob; rewrite total_scale with (c := / total x) by reflexivity.
  apply Rinv_r; assumption.
Qed.

Lemma prob_length : forall x, length (prob x) = length x.
Proof. intros; apply map_length. Qed.

Lemma shift_length : forall e x, length (shift e x) = length x.
Proof. intros; apply map_length. Qed.

Lemma map_positive : forall (f : R -> R) x, positive x -> (forall v, 0 < v -> 0 < f v) ->
  positive (map f x).
Proof. intros f x H Hf; induction H; cbn; constructor; auto. Qed.

Lemma prob_positive : forall x, positive x -> positive (prob x).
Proof.
  intros x H; destruct (positive_total x H) as [->|P]; [constructor|].
  apply map_positive; auto; intros v Hv; apply Rdiv_lt_0_compat; assumption.
Qed.

Lemma prob_nonnegative : forall x, nonnegative x -> nonnegative (prob x).
Proof.
  intros x H; pose proof (nonnegative_total x H) as P.
  unfold prob; generalize dependent (total x); intros s Hs.
  induction H; cbn; constructor; auto.
  destruct Hs as [Hs| <-].
  - unfold Rdiv; apply Rmult_le_pos; [assumption|]; apply Rlt_le, Rinv_0_lt_compat; assumption.
  - unfold Rdiv; rewrite Rinv_0, Rmult_0_r; lra.
Qed.

Lemma shift_positive : forall e x, 0 < e -> nonnegative x -> positive (shift e x).
Proof. intros e x He H; induction H; cbn; constructor; auto; lra. Qed.

Lemma mean_length : forall p q, length p = length q -> length (mean p q) = length p.
Proof. induction p; intros [|b q] H; cbn in *; try discriminate; auto. Qed.

Lemma mean_positive : forall p q, positive p -> positive q -> positive (mean p q).
Proof.
  intros p q H; revert q; induction H as [|a p Ha Hp IH]; intros q Hq; [constructor|].
  destruct Hq as [|b q Hb Hq]; cbn; constructor; [lra|]; apply IH; assumption.
Qed.

Lemma mean_total : forall p q, length p = length q -> total (mean p q) = (total p + total q) / 2.
Proof.
  induction p; intros [|b q] H; cbn in *; try discriminate; [lra|rewrite IHp by lia; lra].
Qed.

Lemma mean_sym : forall p q, mean p q = mean q p.
Proof. induction p; intros [|b q]; cbn; auto; rewrite IHp; f_equal; lra. Qed.

Lemma mean_eq_l : forall p q, length p = length q -> p = mean p q -> p = q.
Proof.
  induction p; intros [|b q] H E; cbn in *; try discriminate; auto.
  injection E as E1 E2; f_equal; [lra|apply IHp; auto].
Qed.

Lemma JS_sym : forall p q, JS p q = JS q p.
Proof. intros; unfold JS; rewrite (mean_sym q p); lra. Qed.

Lemma JS_lower : forall p q, length p = length q -> positive p -> positive q -> total p = total q ->
  0 <= JS p q /\ (JS p q = 0 <-> p = q).
Proof.
  intros p q L Hp Hq E.
  pose proof (mean_positive p q Hp Hq) as Hm; pose proof (mean_length p q L) as Lm.
  pose proof (mean_total p q L) as Tm.
  destruct (KL_nonneg p (mean p q)) as [A1 A2]; auto; try lra.
  destruct (KL_nonneg q (mean p q)) as [B1 B2]; auto; try lra; [lia|].
  unfold JS; split; [lra|split].
  - intros Z; apply mean_eq_l; auto; apply A2; lra.
  - intros Q; subst q.
    assert (M : p = mean p p).
    { clear; induction p; cbn; auto; rewrite <- IHp; f_equal; lra. }
    rewrite <- M; rewrite KL_same by assumption; lra.
Qed.

Lemma KL_mean_upper : forall p q, length p = length q -> positive p -> positive q ->
  KL p (mean p q) <= total p * ln 2.
Proof.
  intros p q L H; revert q L; induction H as [|a p Ha Hp IH]; intros [|b q] L Hq; cbn in *;
    try discriminate; [lra|].
  inversion Hq as [|? ? Hb Hq']; subst; specialize (IH q ltac:(lia) Hq').
  assert (ln (a / ((a + b) / 2)) < ln 2).
  { apply ln_increasing; [apply Rdiv_lt_0_compat; lra|].
    apply Rmult_lt_reg_r with ((a + b) / 2); [lra|].
    replace (a / ((a + b) / 2) * ((a + b) / 2)) with a by (field; lra); lra. }
  nra.
Qed.

Lemma JS_upper : forall p q, length p = length q -> positive p -> positive q ->
  JS p q <= (total p + total q) / 2 * ln 2.
Proof.
  intros p q L Hp Hq; unfold JS.
  pose proof (KL_mean_upper p q L Hp Hq); pose proof (KL_mean_upper q p (eq_sym L) Hq Hp) as H2.
  rewrite mean_sym in H2; lra.
Qed.

(** Hellinger. *)
Lemma affinity_sym : forall p q, affinity p q = affinity q p.
Proof. induction p; intros [|b q]; cbn; auto; rewrite IHp, (Rmult_comm a b); reflexivity. Qed.

Lemma affinity_nonneg : forall p q, 0 <= affinity p q.
Proof. induction p; intros [|b q]; cbn; try lra; pose proof (sqrt_pos (a * b)); specialize (IHp q); lra. Qed.

Fixpoint sqdiff (x y : frame) : R :=
  match x, y with a :: x', b :: y' => (a - b) * (a - b) + sqdiff x' y' | _, _ => 0 end.

Lemma sqdiff_affinity : forall p q, length p = length q -> nonnegative p -> nonnegative q ->
  sqdiff (map sqrt p) (map sqrt q) = total p + total q - 2 * affinity p q.
Proof.
  intros p q L H; revert q L; induction H as [|a p Ha Hp IH]; intros [|b q] L Hq; cbn in *;
    try discriminate; [lra|].
  inversion Hq as [|? ? Hb Hq']; subst; rewrite (IH q) by (auto; lia).
  rewrite sqrt_mult by assumption.
  pose proof (sqrt_sqrt a Ha); pose proof (sqrt_sqrt b Hb); nra.
Qed.

Lemma sqdiff_nonneg : forall x y, 0 <= sqdiff x y.
Proof.
  induction x as [|a x IH]; intros [|b y]; cbn; try lra.
  specialize (IH y); pose proof (Rle_0_sqr (a - b)); unfold Rsqr in *; lra.
Qed.

Lemma sqdiff_zero : forall x y, length x = length y -> sqdiff x y = 0 -> x = y.
Proof.
  induction x as [|a x IH]; intros [|b y] L E; cbn in *; try discriminate; auto.
  pose proof (sqdiff_nonneg x y); pose proof (Rle_0_sqr (a - b)); unfold Rsqr in *.
  assert ((a - b) * (a - b) = 0) as Z by lra; apply Rmult_integral in Z.
  f_equal; [|apply IH; [lia|]]; lra.
Qed.

Lemma sqdiff_same : forall x, sqdiff x x = 0.
Proof. induction x; cbn; [|rewrite IHx]; lra. Qed.

Lemma map_sqrt_inj : forall p q, nonnegative p -> nonnegative q -> map sqrt p = map sqrt q -> p = q.
Proof.
  intros p q H; revert q; induction H as [|a p Ha Hp IH]; intros [|b q] Hq E; cbn in *; try discriminate; auto.
  inversion Hq; subst; injection E as E1 E2; f_equal; [apply sqrt_inj; assumption|apply IH; assumption].
Qed.

Lemma Hellinger_range : forall p q, length p = length q -> nonnegative p -> nonnegative q ->
  total p = 1 -> total q = 1 ->
  0 <= Hellinger p q <= 1 /\ (Hellinger p q = 0 <-> p = q) /\ (Hellinger p q = 1 <-> affinity p q = 0).
Proof.
  intros p q L Hp Hq Tp Tq; unfold Hellinger.
  pose proof (sqdiff_affinity p q L Hp Hq) as S.
  pose proof (sqdiff_nonneg (map sqrt p) (map sqrt q)) as N.
  pose proof (affinity_nonneg p q) as A.
  repeat split.
  - apply sqrt_pos.
  - apply Rle_trans with (sqrt 1); [apply sqrt_le_1_alt; lra|rewrite sqrt_1; lra].
  - intros E; apply sqrt_eq_0 in E; [|lra].
    apply map_sqrt_inj; auto; apply sqdiff_zero; [rewrite !map_length; assumption|lra].
  - intros <-; rewrite sqdiff_same in S; replace (1 - affinity p p) with 0 by lra; apply sqrt_0.
  - intros E; apply (f_equal Rsqr) in E; rewrite Rsqr_sqrt, Rsqr_1 in E; lra.
  - intros ->; rewrite Rminus_0_r; apply sqrt_1.
Qed.

(** No dimension is shared. *)
Lemma affinity_zero : forall p q, length p = length q -> nonnegative p -> nonnegative q ->
  (affinity p q = 0 <-> forall k a b, nth_error p k = Some a -> nth_error q k = Some b -> a = 0 \/ b = 0).
Proof.
  intros p q L H; revert q L; induction H as [|a p Ha Hp IH]; intros [|b q] L Hq; cbn [affinity] in *;
    try discriminate.
  - split; auto; intros _ [|k] a b Hk; discriminate.
  - inversion Hq as [|? ? Hb Hq']; subst; specialize (IH q ltac:(cbn in L; lia) Hq').
    pose proof (sqrt_pos (a * b)); pose proof (affinity_nonneg p q).
    split.
    + intros E [|k] u v Hu Hv; cbn in Hu, Hv.
      * injection Hu as <-; injection Hv as <-.
        assert (sqrt (a * b) = 0) as Z by lra.
        apply sqrt_eq_0 in Z; [|apply Rmult_le_pos; assumption]; apply Rmult_integral; assumption.
      * apply (proj1 IH ltac:(lra) k); assumption.
    + intros Hk; rewrite (proj2 IH) by (intros k; apply (Hk (S k))).
      destruct (Hk 0%nat a b eq_refl eq_refl) as [->| ->]; rewrite ?Rmult_0_l, ?Rmult_0_r, sqrt_0; lra.
Qed.
