(** What rounding changes of the default distance. *)
From Coq Require Import Reals List Arith Lia Lra Bool Permutation.
From Verif Require Import Prelude Metrics_spec Metrics_proofs Dtw Dtw_spec Dtw_proofs DefaultDistance_spec DefaultDistance_proofs.
From Verif Require Metrics DefaultDistance.
From Verif Require Import FloatDistance FloatDistance_spec FloatDistance_proofs.
Import ListNotations.
Local Open Scope R_scope.

(** ** Angles *)

Lemma jordan h : 0 <= h <= PI / 2 -> 2 * h / PI <= sin h.
Proof.
  intros [H0 H1]. pose proof PI_RGT_0 as P. destruct (Req_dec h 0) as [->|N0]; [rewrite sin_0; unfold Rdiv; lra|].
  destruct (Req_dec h (PI / 2)) as [->|N1]; [rewrite sin_PI2; right; field; lra|].
  destruct (Rle_lt_dec (2 * h / PI) (sin h)) as [|L]; [assumption|exfalso].
  destruct (MVT_cor2 sin cos 0 h ltac:(lra)) as (c1 & E1 & B1); [intros; apply derivable_pt_lim_sin|].
  destruct (MVT_cor2 sin cos h (PI / 2) ltac:(lra)) as (c2 & E2 & B2); [intros; apply derivable_pt_lim_sin|].
  rewrite sin_0 in E1. rewrite sin_PI2 in E2.
  assert (D : cos c2 < cos c1) by (apply cos_decreasing_1; lra).
  assert (C1 : cos c1 < 2 / PI).
  { apply (Rmult_lt_reg_r h); [lra|]. replace (2 / PI * h) with (2 * h / PI) by (field; lra). lra. }
  assert (C2 : 2 / PI < cos c2).
  { apply (Rmult_lt_reg_r (PI / 2 - h)); [lra|]. replace (2 / PI * (PI / 2 - h)) with (1 - 2 * h / PI) by (field; lra). lra. }
  lra.
Qed.

(** Cosines of angles, in half turns. *)
Lemma cos_gap a b : 0 <= a <= 1 -> 0 <= b <= a -> 2 * ((a - b) * (a - b)) <= cos (b * PI) - cos (a * PI).
Proof.
  intros Ha Hb. pose proof PI_RGT_0 as P. set (h := (a - b) * PI / 2). set (m := (a + b) * PI / 2).
  assert (E : cos (b * PI) - cos (a * PI) = 2 * (sin h * sin m)).
  { rewrite form2. replace ((b * PI - a * PI) / 2) with (- h) by (unfold h; field). replace ((b * PI + a * PI) / 2) with m by (unfold m; field).
    rewrite sin_neg. ring. }
  rewrite E. assert (Hh : 0 <= h <= PI / 2).
  { unfold h. assert (0 <= (a - b) * PI) by (apply Rmult_le_pos; lra). assert ((a - b) * PI <= 1 * PI) by (apply Rmult_le_compat_r; lra). lra. }
  assert (J : a - b <= sin h).
  { eapply Rle_trans; [|apply jordan; exact Hh]. right. unfold h. field. lra. }
  assert (K : sin h <= sin m).
  { assert (B : b * PI <= PI) by (rewrite <- (Rmult_1_l PI) at 2; apply Rmult_le_compat_r; lra). assert (B0 : 0 <= b * PI) by (apply Rmult_le_pos; lra).
    assert (A0 : a * PI <= PI) by (rewrite <- (Rmult_1_l PI) at 2; apply Rmult_le_compat_r; lra).
    assert (Hm : m = h + b * PI) by (unfold m, h; field). assert (Hm' : m = PI - h - (PI - a * PI)) by (unfold m, h; field).
    destruct (Rle_dec m (PI / 2)).
    - apply sin_incr_1; lra.
    - rewrite <- (sin_PI_x m). apply sin_incr_1; lra. }
  assert (Q : (a - b) * (a - b) <= sin h * sin m) by (apply Rmult_le_compat; lra). lra.
Qed.

Lemma acos_half_turns v : 0 <= acos v / PI <= 1.
Proof.
  pose proof PI_RGT_0 as P. pose proof (acos_bound v) as [B0 B1]. split.
  - unfold Rdiv. apply Rmult_le_pos; [lra|]. apply Rlt_le, Rinv_0_lt_compat, P.
  - apply (Rmult_le_reg_r PI); [lra|]. unfold Rdiv. rewrite Rmult_assoc, Rinv_l; lra.
Qed.

Lemma acos_times v : acos v / PI * PI = acos v.
Proof. pose proof PI_RGT_0. field. lra. Qed.

(** Of cosines that can be a bit above 1. *)
Definition clamp (v : R) : R := Rmax (-1) (Rmin 1 v).
Lemma acos_clamp v : acos v = acos (clamp v).
Proof.
  unfold clamp, Rmax, Rmin. destruct (Rle_dec 1 v) as [H|H].
  - destruct (Rle_dec (-1) 1); [|lra]. unfold acos. destruct (Rle_dec v (-1)); [lra|]. destruct (Rle_dec 1 v); [|lra].
    destruct (Rle_dec 1 (-1)); [lra|]. destruct (Rle_dec 1 1); [reflexivity|lra].
  - destruct (Rle_dec (-1) v); [reflexivity|]. unfold acos. destruct (Rle_dec v (-1)); [|lra]. destruct (Rle_dec (-1) (-1)); [reflexivity|lra].
Qed.
Lemma clamp_in v : -1 <= clamp v <= 1.
Proof. unfold clamp, Rmax, Rmin. destruct (Rle_dec 1 v); destruct (Rle_dec (-1) _); lra. Qed.
Lemma clamp_near v c : -1 <= c <= 1 -> Rabs (clamp v - c) <= Rabs (v - c).
Proof.
  intros H. unfold clamp, Rmax, Rmin. destruct (Rle_dec 1 v); destruct (Rle_dec (-1) _); unfold Rabs; repeat match goal with |- context [Rcase_abs ?a] => destruct (Rcase_abs a) end; lra.
Qed.

Lemma angle_near q a e : 0 <= a <= 1 -> Rabs (q - cos (a * PI)) <= e -> Rabs (acos q / PI - a) <= sqrt (e / 2).
Proof.
  intros Ha He. set (b := acos q / PI). assert (Hb : 0 <= b <= 1) by apply acos_half_turns.
  assert (Cb : cos (b * PI) = clamp q) by (unfold b; rewrite acos_times, acos_clamp; apply cos_acos, clamp_in).
  assert (D : Rabs (cos (b * PI) - cos (a * PI)) <= e).
  { rewrite Cb. eapply Rle_trans; [apply clamp_near|exact He]. pose proof (COS_bound (a * PI)). lra. }
  apply Rsqr_incr_0_var; [|apply sqrt_pos]. rewrite <- Rsqr_abs.
  assert (E0 : 0 <= e / 2) by (pose proof (Rabs_pos (cos (b * PI) - cos (a * PI))); lra). rewrite Rsqr_sqrt by exact E0. unfold Rsqr.
  destruct (Rle_dec a b) as [L|L].
  - pose proof (cos_gap b a ltac:(lra) ltac:(lra)) as G. rewrite Rabs_minus_sym in D. pose proof (Rle_abs (cos (a * PI) - cos (b * PI))). lra.
  - pose proof (cos_gap a b ltac:(lra) ltac:(lra)) as G. pose proof (Rle_abs (cos (b * PI) - cos (a * PI))).
    replace ((b - a) * (b - a)) with ((a - b) * (a - b)) by ring. lra.
Qed.

(** ** Sums *)
Section Rounding.
Variable rnd : R -> R.
Variable u : R.
Hypothesis Pr : precise rnd u.

Lemma u_bounds : 0 <= u < 1.
Proof. apply Pr. Qed.

Lemma rnd_abs a : Rabs (rnd a - a) <= u * Rabs a.
Proof. apply Pr. Qed.

Lemma rnd_nonneg a : 0 <= a -> (1 - u) * a <= rnd a <= (1 + u) * a.
Proof.
  intros H. pose proof (rnd_abs a) as E. rewrite (Rabs_pos_eq a) in E by exact H.
  pose proof (Rle_abs (rnd a - a)). pose proof (Rle_abs (-(rnd a - a))) as K. rewrite Rabs_Ropp in K. lra.
Qed.

Lemma rnd_0 : rnd 0 = 0.
Proof. pose proof (rnd_nonneg 0 ltac:(lra)). lra. Qed.

Lemma up_pos n : 1 <= (1 + u) ^ n.
Proof. apply pow_R1_Rle. pose proof u_bounds. lra. Qed.
Lemma up_mono n m : (n <= m)%nat -> (1 + u) ^ n <= (1 + u) ^ m.
Proof. intros H. apply Rle_pow; [pose proof u_bounds; lra|exact H]. Qed.
Lemma down_pos n : 0 < (1 - u) ^ n.
Proof. apply pow_lt. pose proof u_bounds. lra. Qed.
Lemma down_mono n m : (n <= m)%nat -> (1 - u) ^ m <= (1 - u) ^ n.
Proof.
  intros H. replace m with (n + (m - n))%nat by lia. rewrite pow_add. rewrite <- (Rmult_1_r ((1 - u) ^ n)) at 2.
  apply Rmult_le_compat_l; [apply Rlt_le, down_pos|]. apply Rle_trans with (1 ^ (m - n)); [apply pow_incr; pose proof u_bounds; lra|rewrite pow1; lra].
Qed.

Lemma total_perm l l' : Permutation l l' -> total l = total l'.
Proof. induction 1; cbn [total]; lra. Qed.
Lemma total_app l l' : total (l ++ l') = total l + total l'.
Proof. induction l; cbn [total app]; lra. Qed.
Lemma total_nonneg l : (forall a, In a l -> 0 <= a) -> 0 <= total l.
Proof. induction l as [|a l IH]; intros H; cbn [total]; [lra|]. pose proof (H a (or_introl eq_refl)). assert (0 <= total l) by (apply IH; intros b Hb; apply H; right; exact Hb). lra. Qed.

Lemma summed_near : forall l s, summed rnd l s -> (forall a, In a l -> 0 <= a) ->
  (1 - u) ^ (length l - 1) * total l <= s <= (1 + u) ^ (length l - 1) * total l.
Proof.
  induction 1 as [|a|l l1 l2 a b P N1 N2 S1 IH1 S2 IH2]; intros H; [cbn; lra|cbn; lra|].
  assert (H1 : forall e, In e l1 -> 0 <= e) by (intros e He; apply H, (Permutation_in _ (Permutation_sym P)), in_or_app; left; exact He).
  assert (H2 : forall e, In e l2 -> 0 <= e) by (intros e He; apply H, (Permutation_in _ (Permutation_sym P)), in_or_app; right; exact He).
  specialize (IH1 H1). specialize (IH2 H2). pose proof (total_nonneg l1 H1) as T1. pose proof (total_nonneg l2 H2) as T2.
  rewrite (total_perm _ _ P), total_app, (Permutation_length P), app_length.
  assert (L1 : (1 <= length l1)%nat) by (destruct l1; [congruence|cbn; lia]). assert (L2 : (1 <= length l2)%nat) by (destruct l2; [congruence|cbn; lia]).
  set (k := (length l1 + length l2 - 2)%nat). replace (length l1 + length l2 - 1)%nat with (S k) by (unfold k; lia).
  assert (U1 : a <= (1 + u) ^ k * total l1).
  { eapply Rle_trans; [apply IH1|]. apply Rmult_le_compat_r; [exact T1|]. apply up_mono. unfold k. lia. }
  assert (U2 : b <= (1 + u) ^ k * total l2).
  { eapply Rle_trans; [apply IH2|]. apply Rmult_le_compat_r; [exact T2|]. apply up_mono. unfold k. lia. }
  assert (D1 : (1 - u) ^ k * total l1 <= a).
  { eapply Rle_trans; [|apply IH1]. apply Rmult_le_compat_r; [exact T1|]. apply down_mono. unfold k. lia. }
  assert (D2 : (1 - u) ^ k * total l2 <= b).
  { eapply Rle_trans; [|apply IH2]. apply Rmult_le_compat_r; [exact T2|]. apply down_mono. unfold k. lia. }
  assert (Pa : 0 <= a) by (eapply Rle_trans; [|exact D1]; apply Rmult_le_pos; [apply Rlt_le, down_pos|exact T1]).
  assert (Pb : 0 <= b) by (eapply Rle_trans; [|exact D2]; apply Rmult_le_pos; [apply Rlt_le, down_pos|exact T2]).
  pose proof (rnd_nonneg (a + b) ltac:(lra)) as [R1 R2]. pose proof u_bounds. cbn [pow]. rewrite !Rmult_assoc. split.
  - eapply Rle_trans; [|exact R1]. apply Rmult_le_compat_l; lra.
  - eapply Rle_trans; [exact R2|]. apply Rmult_le_compat_l; lra.
Qed.

(** Sums of products and of their absolute values. *)
Definition psum (l : list (R * R)) : R := total (map (fun p => fst p * snd p) l).
Definition asum (l : list (R * R)) : R := total (map (fun p => Rabs (fst p * snd p)) l).

Lemma asum_nonneg l : 0 <= asum l.
Proof. apply total_nonneg. intros a Ha. apply in_map_iff in Ha. destruct Ha as (p & <- & _). apply Rabs_pos. Qed.
Lemma psum_asum l : Rabs (psum l) <= asum l.
Proof.
  unfold psum, asum. induction l as [|p l IH]; cbn [map total]; [rewrite Rabs_R0; lra|]. eapply Rle_trans; [apply Rabs_triang|]. lra.
Qed.

(** Two rounded sums [s] and [t] of [p] and [q], added and rounded. *)
Lemma add_near k s t p q A B : Rabs (s - p) <= ((1 + u) ^ k - 1) * A -> Rabs (t - q) <= ((1 + u) ^ k - 1) * B ->
  Rabs p <= A -> Rabs q <= B -> Rabs (rnd (s + t) - (p + q)) <= ((1 + u) ^ S k - 1) * (A + B).
Proof.
  intros Hs Ht Hp Hq. pose proof (rnd_abs (s + t)) as E. pose proof u_bounds as U.
  assert (T : Rabs (s + t - (p + q)) <= ((1 + u) ^ k - 1) * (A + B)).
  { replace (s + t - (p + q)) with ((s - p) + (t - q)) by ring. eapply Rle_trans; [apply Rabs_triang|]. lra. }
  assert (M : Rabs (s + t) <= (1 + u) ^ k * (A + B)).
  { replace (s + t) with ((s + t - (p + q)) + (p + q)) by ring. eapply Rle_trans; [apply Rabs_triang|].
    pose proof (Rabs_triang p q). lra. }
  replace (rnd (s + t) - (p + q)) with ((rnd (s + t) - (s + t)) + (s + t - (p + q))) by ring.
  eapply Rle_trans; [apply Rabs_triang|]. cbn [pow].
  assert (u * Rabs (s + t) <= u * ((1 + u) ^ k * (A + B))) by (apply Rmult_le_compat_l; lra). lra.
Qed.

Lemma dotted_near : forall l s, dotted rnd l s -> Rabs (s - psum l) <= ((1 + u) ^ length l - 1) * asum l.
Proof.
  induction 1 as [|a b|l l' a b s P N D IH|l l1 l2 s t P N1 N2 D1 IH1 D2 IH2].
  - unfold psum, asum. cbn. rewrite Rminus_0_r, Rabs_R0. lra.
  - unfold psum, asum. cbn [map total fst snd length pow]. rewrite !Rplus_0_r. pose proof (rnd_abs (a * b)). lra.
  - rewrite (Permutation_length P). assert (Ep : psum l = a * b + psum l') by (unfold psum; rewrite (total_perm _ _ (Permutation_map _ P)); reflexivity).
    assert (Ea : asum l = Rabs (a * b) + asum l') by (unfold asum; rewrite (total_perm _ _ (Permutation_map _ P)); reflexivity).
    rewrite Ep, Ea. cbn [length]. apply add_near; [|exact IH|lra|apply psum_asum].
    replace (a * b - a * b) with 0 by ring. rewrite Rabs_R0. apply Rmult_le_pos; [pose proof (up_pos (length l')); lra|apply Rabs_pos].
  - rewrite (Permutation_length P), app_length.
    assert (Ep : psum l = psum l1 + psum l2) by (unfold psum; rewrite (total_perm _ _ (Permutation_map _ P)), map_app; apply total_app).
    assert (Ea : asum l = asum l1 + asum l2) by (unfold asum; rewrite (total_perm _ _ (Permutation_map _ P)), map_app; apply total_app).
    rewrite Ep, Ea. assert (L1 : (1 <= length l1)%nat) by (destruct l1; [congruence|cbn; lia]). assert (L2 : (1 <= length l2)%nat) by (destruct l2; [congruence|cbn; lia]).
    set (k := (length l1 + length l2 - 1)%nat). replace (length l1 + length l2)%nat with (S k) by (unfold k; lia).
    apply add_near; try apply psum_asum.
    + eapply Rle_trans; [exact IH1|]. apply Rmult_le_compat_r; [apply asum_nonneg|]. pose proof (up_mono (length l1) k ltac:(unfold k; lia)). lra.
    + eapply Rle_trans; [exact IH2|]. apply Rmult_le_compat_r; [apply asum_nonneg|]. pose proof (up_mono (length l2) k ltac:(unfold k; lia)). lra.
Qed.

Lemma psum_inner x y : psum (combine x y) = inner x y.
Proof. unfold psum. revert y. induction x as [|a x IH]; intros [|b y]; cbn [combine map total inner fst snd]; try reflexivity. rewrite IH. reflexivity. Qed.

Lemma inner_abs_self x : inner (map Rabs x) (map Rabs x) = inner x x.
Proof. induction x as [|a x IH]; cbn [map inner]; [reflexivity|]. rewrite IH. rewrite <- Rabs_mult, Rabs_pos_eq by apply Rle_0_sqr. reflexivity. Qed.

Lemma asum_inner x y : asum (combine x y) = inner (map Rabs x) (map Rabs y).
Proof. unfold asum. revert y. induction x as [|a x IH]; intros [|b y]; cbn [combine map total inner fst snd]; try reflexivity. rewrite IH, Rabs_mult. reflexivity. Qed.

Lemma asum_norms x y : length x = length y -> asum (combine x y) <= norm x * norm y.
Proof.
  intros L. rewrite asum_inner. pose proof (cauchy_schwarz (map Rabs x) (map Rabs y) ltac:(rewrite !map_length; exact L)) as C.
  rewrite !inner_abs_self, <- (norm_sqr x), <- (norm_sqr y) in C.
  apply Rsqr_incr_0_var; [unfold Rsqr; lra|]. apply Rmult_le_pos; apply sqrt_pos.
Qed.

Lemma total_squares x : total (map (fun v => v * v) x) = inner x x.
Proof. induction x as [|a x IH]; cbn [map total inner]; [reflexivity|]. rewrite IH. reflexivity. Qed.

Lemma squares_near x : (1 - u) * inner x x <= total (map (fun v => rnd (v * v)) x) <= (1 + u) * inner x x.
Proof.
  rewrite <- total_squares. induction x as [|a x IH]; cbn [map total]; [lra|]. pose proof (rnd_nonneg (a * a) (Rle_0_sqr a)). lra.
Qed.

(** ** The cosine of two frames *)
Variables (facos fover : R -> R).
Variable sum : list (option R) -> option R.
Variable dot : list (option R) -> list (option R) -> option R.
Hypothesis Sm : sums_rounded rnd sum dot.
Local Notation A := (rounded rnd facos fover sum dot).

Lemma root_pow a n : 0 <= a -> sqrt a ^ n * sqrt a ^ n = a ^ n.
Proof. intros H. rewrite <- Rpow_mult_distr, sqrt_sqrt by exact H. reflexivity. Qed.

Lemma length_near x : exists l, length_of A (map Some x) = Some l /\
  (1 - u) * sqrt (1 - u) ^ length x * norm x <= l <= (1 + u) * sqrt (1 + u) ^ length x * norm x.
Proof.
  pose proof u_bounds as U. unfold length_of. cbn [rounded mul root FloatDistance.sum]. rewrite map_map. cbn [Metrics.lift2].
  rewrite <- (map_map (fun v => rnd (v * v)) Some). destruct Sm as [Ss _]. destruct (Ss (map (fun v => rnd (v * v)) x)) as (s & S & E). rewrite E.
  assert (Sq : forall a, In a (map (fun v => rnd (v * v)) x) -> 0 <= a).
  { intros a Ha. apply in_map_iff in Ha. destruct Ha as (v & <- & _). eapply Rle_trans; [|apply rnd_nonneg, Rle_0_sqr].
    apply Rmult_le_pos; [lra|apply Rle_0_sqr]. }
  apply summed_near in S; [|exact Sq]. rewrite map_length in S. pose proof (squares_near x) as N. pose proof (inner_self_nonneg x) as I0.
  assert (B : (1 - u) ^ length x * inner x x <= s <= (1 + u) ^ length x * inner x x).
  { destruct x as [|a x]; [cbn in *; lra|]. change (length (a :: x)) with (Datatypes.S (length x)) in *. cbn [Nat.sub] in S. rewrite Nat.sub_0_r in S.
    rewrite <- !tech_pow_Rmult. replace ((1 - u) * (1 - u) ^ length x) with ((1 - u) ^ length x * (1 - u)) by ring.
    replace ((1 + u) * (1 + u) ^ length x) with ((1 + u) ^ length x * (1 + u)) by ring. rewrite !Rmult_assoc. split.
    - eapply Rle_trans; [|apply S]. apply Rmult_le_compat_l; [apply Rlt_le, down_pos|apply N].
    - eapply Rle_trans; [apply S|]. apply Rmult_le_compat_l; [pose proof (up_pos (length x)); lra|apply N]. }
  assert (S0 : 0 <= s) by (eapply Rle_trans; [|apply B]; apply Rmult_le_pos; [apply Rlt_le, down_pos|exact I0]).
  destruct (Rle_dec 0 s) as [_|]; [|contradiction]. eexists. split; [reflexivity|]. pose proof (rnd_nonneg (sqrt s) (sqrt_pos s)) as Q.
  assert (Lo : sqrt (1 - u) ^ length x * norm x <= sqrt s).
  { apply Rsqr_incr_0_var; [|apply sqrt_pos]. rewrite Rsqr_sqrt by exact S0. unfold Rsqr.
    replace (sqrt (1 - u) ^ length x * norm x * (sqrt (1 - u) ^ length x * norm x)) with ((sqrt (1 - u) ^ length x * sqrt (1 - u) ^ length x) * (norm x * norm x)) by ring.
    rewrite root_pow, norm_sqr by lra. apply B. }
  assert (Hi : sqrt s <= sqrt (1 + u) ^ length x * norm x).
  { apply Rsqr_incr_0_var; [|apply Rmult_le_pos; [apply pow_le, sqrt_pos|apply sqrt_pos]]. rewrite Rsqr_sqrt by exact S0. unfold Rsqr.
    replace (sqrt (1 + u) ^ length x * norm x * (sqrt (1 + u) ^ length x * norm x)) with ((sqrt (1 + u) ^ length x * sqrt (1 + u) ^ length x) * (norm x * norm x)) by ring.
    rewrite root_pow, norm_sqr by lra. apply B. }
  rewrite !Rmult_assoc. split.
  - eapply Rle_trans; [|apply Q]. apply Rmult_le_compat_l; lra.
  - eapply Rle_trans; [apply Q|]. apply Rmult_le_compat_l; lra.
Qed.

Lemma length_zero x l : length_of A (map Some x) = Some l -> (l = 0 <-> zero_frame x).
Proof.
  intros E. destruct (length_near x) as (l' & E' & B). rewrite E in E'. injection E' as <-. rewrite <- norm_zero_iff. pose proof u_bounds. split.
  - intros ->. pose proof (sqrt_pos (inner x x)) as Q. fold (norm x) in Q. assert (K : 0 < (1 - u) * sqrt (1 - u) ^ length x) by (apply Rmult_lt_0_compat; [lra|]; apply pow_lt, sqrt_lt_R0; lra).
    destruct Q as [Q|Q]; [|lra]. pose proof (Rmult_lt_0_compat _ _ K Q). lra.
  - intros Z. rewrite Z in B. lra.
Qed.

(** The quotient of the product of two frames by the product of their lengths. *)
Lemma quotient_near x y s lx ly : length x = length y -> ~ zero_frame x -> ~ zero_frame y -> dotted rnd (combine x y) s ->
  length_of A (map Some x) = Some lx -> length_of A (map Some y) = Some ly ->
  0 < rnd (lx * ly) /\ Rabs (rnd (s / rnd (lx * ly)) - inner x y / (norm x * norm y)) <= cosine_error u (length x).
Proof.
  intros L Nx Ny D Ex Ey. destruct (length_near x) as (l' & E' & Bx). rewrite Ex in E'. injection E' as <-.
  destruct (length_near y) as (l' & E' & By). rewrite Ey in E'. injection E' as <-. rewrite <- L in By.
  pose proof (norm_pos x Nx) as Px. pose proof (norm_pos y Ny) as Py. pose proof u_bounds as U. set (n := length x) in *. set (NN := norm x * norm y).
  assert (PN : 0 < NN) by (apply Rmult_lt_0_compat; assumption).
  assert (Lo : (1 - u) ^ (n + 2) * NN <= lx * ly).
  { replace ((1 - u) ^ (n + 2) * NN) with (((1 - u) * sqrt (1 - u) ^ n * norm x) * ((1 - u) * sqrt (1 - u) ^ n * norm y)).
    - apply Rmult_le_compat; [| |apply Bx|apply By]; (apply Rmult_le_pos; [apply Rmult_le_pos; [lra|apply pow_le, sqrt_pos]|lra]).
    - transitivity ((1 - u) * (1 - u) * (sqrt (1 - u) ^ n * sqrt (1 - u) ^ n) * NN); [unfold NN; ring|]. rewrite root_pow, pow_add by lra. ring. }
  assert (P0 : 0 < lx * ly) by (eapply Rlt_le_trans; [|exact Lo]; apply Rmult_lt_0_compat; [apply down_pos|exact PN]).
  assert (Lx0 : 0 <= lx) by (eapply Rle_trans; [|apply Bx]; apply Rmult_le_pos; [apply Rmult_le_pos; [lra|apply pow_le, sqrt_pos]|lra]).
  assert (Ly0 : 0 <= ly) by (eapply Rle_trans; [|apply By]; apply Rmult_le_pos; [apply Rmult_le_pos; [lra|apply pow_le, sqrt_pos]|lra]).
  assert (Hi : lx * ly <= (1 + u) ^ (n + 2) * NN).
  { replace ((1 + u) ^ (n + 2) * NN) with (((1 + u) * sqrt (1 + u) ^ n * norm x) * ((1 + u) * sqrt (1 + u) ^ n * norm y)).
    - apply Rmult_le_compat; [exact Lx0|exact Ly0|apply Bx|apply By].
    - transitivity ((1 + u) * (1 + u) * (sqrt (1 + u) ^ n * sqrt (1 + u) ^ n) * NN); [unfold NN; ring|]. rewrite root_pow, pow_add by lra. ring. }
  pose proof (rnd_nonneg (lx * ly) ltac:(lra)) as RP. set (P := rnd (lx * ly)) in *.
  assert (LoP : (1 - u) ^ (n + 3) * NN <= P).
  { eapply Rle_trans; [|apply RP]. replace (n + 3)%nat with (S (n + 2)) by lia. cbn [pow]. rewrite Rmult_assoc. apply Rmult_le_compat_l; lra. }
  assert (HiP : P <= (1 + u) ^ (n + 3) * NN).
  { eapply Rle_trans; [apply RP|]. replace (n + 3)%nat with (S (n + 2)) by lia. cbn [pow]. rewrite Rmult_assoc. apply Rmult_le_compat_l; lra. }
  assert (PP : 0 < P) by (eapply Rlt_le_trans; [|exact LoP]; apply Rmult_lt_0_compat; [apply down_pos|exact PN]).
  split; [exact PP|]. set (th := P / NN). assert (Eth : P = th * NN) by (unfold th; field; lra).
  assert (Hth : (1 - u) ^ (n + 3) <= th <= (1 + u) ^ (n + 3)).
  { split; apply (Rmult_le_reg_r NN); try exact PN; rewrite <- Eth; assumption. }
  assert (Pth : 0 < th) by (eapply Rlt_le_trans; [apply down_pos|apply Hth]).
  set (c := inner x y / NN). assert (Hc : -1 <= c <= 1) by (apply cosine_bounds; assumption).
  set (e := s / NN - c). assert (He : Rabs e <= (1 + u) ^ n - 1).
  { pose proof (dotted_near _ _ D) as B. rewrite psum_inner, combine_length, <- L, Nat.min_id in B. fold n in B.
    assert (B' : Rabs (s - inner x y) <= ((1 + u) ^ n - 1) * NN).
    { eapply Rle_trans; [exact B|]. apply Rmult_le_compat_l; [pose proof (up_pos n); lra|]. apply asum_norms, L. }
    replace e with ((s - inner x y) * / NN) by (unfold e, c; field; lra). rewrite Rabs_mult, (Rabs_pos_eq (/ NN)) by (apply Rlt_le, Rinv_0_lt_compat, PN).
    apply (Rmult_le_reg_r NN); [exact PN|]. rewrite Rmult_assoc, Rinv_l by lra. lra. }
  assert (Eq : s / P = (c + e) / th) by (unfold e; rewrite Eth; field; split; lra).
  (* the relative error of the last rounding *)
  destruct (Req_dec (s / P) 0) as [Z|NZ].
  - rewrite Z, rnd_0. assert (Zc : c = - e) by (rewrite Eq in Z; unfold Rdiv in Z; apply Rmult_integral in Z; destruct Z as [Z|Z]; [lra|]; apply Rinv_neq_0_compat in Z; [destruct Z|lra]).
    rewrite Zc. replace (0 - - e) with e by ring. eapply Rle_trans; [exact He|]. unfold cosine_error. fold n.
    assert (K : (1 + u) ^ n <= (1 + u) ^ (n + 1) / (1 - u) ^ (n + 3)); [|lra].
    apply (Rmult_le_reg_r ((1 - u) ^ (n + 3))); [apply down_pos|]. unfold Rdiv. rewrite Rmult_assoc, Rinv_l by (pose proof (down_pos (n + 3)); lra).
    rewrite Rmult_1_r. apply Rle_trans with ((1 + u) ^ n * 1); [apply Rmult_le_compat_l; [pose proof (up_pos n); lra|]; pose proof (down_mono 0 (n + 3) ltac:(lia)) as K; exact K|].
    rewrite Rmult_1_r. apply up_mono. lia.
  - set (d := rnd (s / P) / (s / P)). assert (Ed : rnd (s / P) = d * (s / P)) by (unfold d; unfold Rdiv at 2; rewrite Rmult_assoc, Rinv_l by exact NZ; ring).
    assert (Hd : 1 - u <= d <= 1 + u).
    { assert (K : Rabs (d - 1) <= u).
      { apply (Rmult_le_reg_r (Rabs (s / P))); [apply Rabs_pos_lt, NZ|]. rewrite <- Rabs_mult. replace ((d - 1) * (s / P)) with (rnd (s / P) - s / P) by (rewrite Ed; ring).
        apply rnd_abs. }
      pose proof (Rle_abs (d - 1)). pose proof (Rle_abs (- (d - 1))) as K'. rewrite Rabs_Ropp in K'. lra. }
    rewrite Ed, Eq. set (r := d / th). replace (d * ((c + e) / th) - c) with (c * (r - 1) + e * r) by (unfold r; field; lra).
    set (a := (1 + u) / (1 - u) ^ (n + 3)). set (b := (1 - u) / (1 + u) ^ (n + 3)). pose proof (down_pos (n + 3)) as Dp. pose proof (up_pos (n + 3)) as Up.
    assert (Ra : r <= a).
    { unfold r, a, Rdiv. apply Rmult_le_compat; [lra|apply Rlt_le, Rinv_0_lt_compat, Pth|lra|]. apply Rinv_le_contravar; [exact Dp|apply Hth]. }
    assert (Rb : b <= r).
    { unfold r, b, Rdiv. apply Rmult_le_compat; [lra|apply Rlt_le, Rinv_0_lt_compat; lra|lra|]. apply Rinv_le_contravar; [exact Pth|apply Hth]. }
    assert (B0 : 0 < b) by (unfold b, Rdiv; apply Rmult_lt_0_compat; [lra|apply Rinv_0_lt_compat; lra]).
    assert (Ab : 1 <= a * b).
    { replace (a * b) with (((1 + u) * (1 - u)) / ((1 + u) * (1 - u)) ^ (n + 3)) by (unfold a, b; rewrite Rpow_mult_distr; field; split; lra).
      assert (V : 0 < (1 + u) * (1 - u) <= 1).
      { split; [apply Rmult_lt_0_compat; lra|]. pose proof (Rle_0_sqr u) as Q. unfold Rsqr in Q. replace ((1 + u) * (1 - u)) with (1 - u * u) by ring. lra. }
      set (v := (1 + u) * (1 - u)) in *. replace (n + 3)%nat with (S (n + 2)) by lia. cbn [pow]. assert (W : 0 < v ^ (n + 2) <= 1).
      { split; [apply pow_lt; lra|]. rewrite <- (pow1 (n + 2)). apply pow_incr. lra. }
      replace (v / (v * v ^ (n + 2))) with (/ v ^ (n + 2)) by (field; split; lra). rewrite <- Rinv_1 at 1. apply Rinv_le_contravar; lra. }
    assert (Am : 2 - a <= b).
    { assert (A0 : 0 < a) by lra. assert (0 <= (a - b) * (a - b)) by apply Rle_0_sqr. assert (4 <= (a + b) * (a + b)) by lra.
      destruct (Rle_dec 2 (a + b)); [lra|]. assert ((a + b) * (a + b) < 2 * 2) by (apply Rmult_le_0_lt_compat; lra). lra. }
    assert (R1 : Rabs (r - 1) <= a - 1) by (apply Rabs_le; lra).
    eapply Rle_trans; [apply Rabs_triang|]. rewrite !Rabs_mult, (Rabs_pos_eq r) by lra.
    assert (T1 : Rabs c * Rabs (r - 1) <= 1 * (a - 1)) by (apply Rmult_le_compat; [apply Rabs_pos|apply Rabs_pos|apply Rabs_le; lra|exact R1]).
    assert (T2 : Rabs e * r <= ((1 + u) ^ n - 1) * a) by (apply Rmult_le_compat; [apply Rabs_pos|lra|exact He|exact Ra]).
    unfold cosine_error. fold n. replace ((1 + u) ^ (n + 1) / (1 - u) ^ (n + 3)) with ((1 + u) ^ n * a) by (unfold a; rewrite (pow_add (1 + u) n 1), pow_1; field; lra).
    lra.
Qed.

(** ** The angle of two frames *)
Variable ua : R.
Hypothesis Ang : accurate facos fover ua.

Lemma angle_off f x y : cosine_between f -> length x = length y ->
  exists v, angle A (map Some x) (map Some y) = Some v /\ 0 <= v /\ Rabs (v - f x y) <= ua + sqrt (cosine_error u (length x) / 2).
Proof.
  intros (F1 & F2 & F3 & F4) L. unfold angle. destruct (length_near x) as (lx & Ex & _). destruct (length_near y) as (ly & Ey & _).
  pose proof (length_zero x lx Ex) as Zx. pose proof (length_zero y ly Ey) as Zy. rewrite Ex, Ey.
  destruct (proj2 Sm x y L) as (s & D & Es). cbn [rounded mul div arccos over_pi zero one equal_0 FloatDistance.dot Metrics.lift1 Metrics.lift2 Metrics.is_zero].
  rewrite Es.
  assert (E0 : 0 <= ua + sqrt (cosine_error u (length x) / 2)).
  { pose proof (sqrt_pos (cosine_error u (length x) / 2)). pose proof (Ang 0) as [_ K]. pose proof (Rabs_pos (fover (facos 0) - acos 0 / PI)). lra. }
  destruct (Req_EM_T lx 0) as [Hx|Hx], (Req_EM_T ly 0) as [Hy|Hy]; cbn [andb].
  - exists 0. rewrite F1 by (try apply Zx; try apply Zy; assumption). repeat split; try lra. rewrite Rminus_0_r, Rabs_R0. exact E0.
  - exists 1. rewrite F2; [|apply Zx; exact Hx|intros Q; apply Hy, Zy, Q]. repeat split; try lra. replace (1 - 1) with 0 by ring. rewrite Rabs_R0. exact E0.
  - exists 1. rewrite F3; [|intros Q; apply Hx, Zx, Q|apply Zy; exact Hy]. repeat split; try lra. replace (1 - 1) with 0 by ring. rewrite Rabs_R0. exact E0.
  - assert (Nx : ~ zero_frame x) by (intros Q; apply Hx, Zx, Q). assert (Ny : ~ zero_frame y) by (intros Q; apply Hy, Zy, Q).
    destruct (quotient_near x y s lx ly L Nx Ny D Ex Ey) as [PP Q]. destruct (Req_EM_T (rnd (lx * ly)) 0) as [|_]; [lra|].
    set (q := rnd (s / rnd (lx * ly))) in *. exists (fover (facos q)). split; [reflexivity|]. destruct (Ang q) as [A0 A1]. split; [exact A0|].
    destruct (F4 x y L Nx Ny) as [B I].
    assert (Ec : inner x y / (norm x * norm y) = cos (f x y * PI)).
    { rewrite I. field. pose proof (norm_pos x Nx). pose proof (norm_pos y Ny). split; lra. }
    rewrite Ec in Q. pose proof (angle_near q (f x y) _ B Q) as K.
    replace (fover (facos q) - f x y) with ((fover (facos q) - acos q / PI) + (acos q / PI - f x y)) by ring.
    eapply Rle_trans; [apply Rabs_triang|]. lra.
Qed.
End Rounding.

(** ** Sums along alignments *)
Section Along.
Variables (rnd : R -> R) (u : R).
Hypothesis Pr : precise rnd u.
Variables f g : frame -> frame -> R.
Variables xs ys : list frame.
Local Notation d := (Dtw_spec.entry 0 (map (fun x => map (g x) ys) xs)).

Lemma cost_near : (forall x y, In x xs -> In y ys -> 0 <= g x y) -> forall p c, inside xs ys p -> p <> [] -> cost_of (plus rnd) d p = Some c ->
  (1 - u) ^ (length p - 1) * along g xs ys p <= c <= (1 + u) ^ (length p - 1) * along g xs ys p /\ 0 <= along g xs ys p.
Proof.
  intros G0. induction p as [|[i j] p IH]; intros c I N E; [congruence|]. inversion I as [|? ? [Hi Hj] I']; subst. cbn [fst snd] in *.
  assert (Ed : d i j = g (nth i xs []) (nth j ys [])) by (apply (entry_dist 0 g); assumption).
  assert (Gd : 0 <= g (nth i xs []) (nth j ys [])) by (apply G0; apply nth_In; assumption).
  destruct p as [|b p].
  - cbn [cost_of] in E. injection E as <-. rewrite Ed. cbn. lra.
  - destruct (cost_of (plus rnd) d (b :: p)) as [c'|] eqn:E'; [|cbn in E, E'; rewrite E' in E; discriminate].
    rewrite (cost_of_cons _ _ _ _ _ _ _ E') in E. injection E as <-. destruct (IH c' I' ltac:(discriminate) eq_refl) as [[B1 B2] A0].
    change (along g xs ys ((i, j) :: b :: p)) with (g (nth i xs []) (nth j ys []) + along g xs ys (b :: p)). set (al := along g xs ys (b :: p)) in *.
    change (length ((i, j) :: b :: p) - 1)%nat with (length (b :: p)). cbn [length] in *. rewrite Nat.sub_succ, Nat.sub_0_r in B1, B2.
    rewrite Ed. set (e := g (nth i xs []) (nth j ys [])) in *. set (k := length p) in *. unfold plus.
    pose proof (down_pos rnd u Pr k) as Dk. pose proof (up_pos rnd u Pr k) as Uk. pose proof (u_bounds rnd u Pr) as U.
    assert (C0 : 0 <= c') by (eapply Rle_trans; [|exact B1]; apply Rmult_le_pos; lra).
    pose proof (rnd_nonneg rnd u Pr (e + c') ltac:(lra)) as [R1 R2]. cbn [pow]. rewrite !Rmult_assoc.
    assert (D1 : (1 - u) ^ k * e <= e) by (rewrite <- (Rmult_1_l e) at 2; apply Rmult_le_compat_r; [exact Gd|]; apply (down_mono rnd u Pr 0 k); lia).
    assert (U1 : e <= (1 + u) ^ k * e) by (rewrite <- (Rmult_1_l e) at 1; apply Rmult_le_compat_r; [exact Gd|]; exact Uk).
    repeat split; try lra.
    + eapply Rle_trans; [|exact R1]. apply Rmult_le_compat_l; lra.
    + eapply Rle_trans; [exact R2|]. apply Rmult_le_compat_l; lra.
Qed.

Lemma along_near e : (forall x y, In x xs -> In y ys -> Rabs (g x y - f x y) <= e) -> forall p, inside xs ys p ->
  Rabs (along g xs ys p - along f xs ys p) <= INR (length p) * e.
Proof.
  intros H. induction p as [|[i j] p IH]; intros I; [cbn; rewrite Rminus_0_r, Rabs_R0; lra|]. inversion I as [|? ? [Hi Hj] I']; subst. cbn [fst snd] in *.
  change (length ((i, j) :: p)) with (S (length p)). rewrite S_INR.
  change (along g xs ys ((i, j) :: p)) with (g (nth i xs []) (nth j ys []) + along g xs ys p).
  change (along f xs ys ((i, j) :: p)) with (f (nth i xs []) (nth j ys []) + along f xs ys p).
  pose proof (H _ _ (nth_In xs [] Hi) (nth_In ys [] Hj)) as K. specialize (IH I').
  match goal with |- Rabs ?a <= _ => replace a with ((g (nth i xs []) (nth j ys []) - f (nth i xs []) (nth j ys [])) + (along g xs ys p - along f xs ys p)) by ring end.
  eapply Rle_trans; [apply Rabs_triang|]. lra.
Qed.
End Along.

(** ** The default distance *)
Lemma machine_error rnd rnd' facos fover sum dot u u' ua f t w xs ys empty p :
  precise rnd u -> precise rnd' u' -> (forall a b, a <= b -> rnd' a <= rnd' b) -> sums_rounded rnd sum dot -> accurate facos fover ua ->
  cosine_between f -> is_float t -> frames_of w xs -> frames_of w ys -> xs <> [] -> ys <> [] -> least f xs ys p ->
  exists v, machine_distance rnd rnd' facos fover sum dot empty (farray t w xs) (farray t w ys) false = Ok (Number (Some v)) /\
    (1 - u') ^ (length xs + length ys - 2) * (along f xs ys p - INR (length xs + length ys - 1) * angle_error ua u w) <= v
      <= (1 + u') ^ (length xs + length ys - 2) * (along f xs ys p + INR (length xs + length ys - 1) * angle_error ua u w).
Proof.
  intros Pr Pr' M Sm Ang Cf Ht Fx Fy Nx Ny [Wp Lp].
  assert (B : forall x y, In x xs -> In y ys -> exists v, angle (rounded rnd facos fover sum dot) (map Some x) (map Some y) = Some v /\ 0 <= v /\ Rabs (v - f x y) <= angle_error ua u w).
  { intros x y Ix Iy. unfold frames_of in *. rewrite Forall_forall in Fx, Fy. unfold FloatDistance_spec.angle_error. rewrite <- (Fx x Ix).
    apply (angle_off rnd u Pr facos fover sum dot Sm ua Ang f x y Cf). rewrite (Fx x Ix), (Fy y Iy). reflexivity. }
  destruct (machine_value rnd rnd' facos fover sum dot t w xs ys empty M Ht Nx Ny) as (q & c & W & L & C & O & E).
  { intros x y Ix Iy. destruct (B x y Ix Iy) as (v & Ev & V & _). exists v. split; [exact Ev|exact V]. }
  exists c. split; [apply E|]. set (g := machine_angle rnd facos fover sum dot) in *. set (e := angle_error ua u w) in *.
  assert (G : forall x y, In x xs -> In y ys -> 0 <= g x y /\ Rabs (g x y - f x y) <= e).
  { intros x y Ix Iy. destruct (B x y Ix Iy) as (v & Ev & V & D). unfold g, machine_angle. rewrite Ev. split; assumption. }
  assert (E0 : 0 <= e).
  { destruct xs as [|x ?]; [congruence|]. destruct ys as [|y ?]; [congruence|]. destruct (G x y (or_introl eq_refl) (or_introl eq_refl)) as [_ K]. pose proof (Rabs_pos (g x y - f x y)). lra. }
  assert (Bound : forall r, whole xs ys r -> (length r <= length xs + length ys - 1)%nat /\ inside xs ys r /\ r <> []).
  { intros r Wr. split; [|split].
    - pose proof (alignment_length _ _ Wr) as K. cbn [fst snd] in K. destruct xs; [congruence|]. destruct ys; [congruence|]. cbn [length] in *. lia.
    - apply whole_inside; assumption.
    - pose proof (whole_pos _ _ _ Wr). destruct r; [cbn in *; lia|discriminate]. }
  assert (Kle : forall r : list (nat * nat), (length r <= length xs + length ys - 1)%nat -> INR (length r) * e <= INR (length xs + length ys - 1) * e).
  { intros r Hr. apply Rmult_le_compat_r; [exact E0|]. apply le_INR. exact Hr. }
  split.
  - destruct (Bound q W) as (Lq & Iq & Nq).
    destruct (cost_near rnd' u' Pr' g xs ys (fun x y Ix Iy => proj1 (G x y Ix Iy)) q c Iq Nq C) as [[C1 _] A0].
    eapply Rle_trans; [|exact C1]. apply Rle_trans with ((1 - u') ^ (length xs + length ys - 2) * along g xs ys q).
    + apply Rmult_le_compat_l; [apply Rlt_le, (down_pos rnd' u' Pr')|].
      pose proof (along_near f g xs ys e (fun x y Ix Iy => proj2 (G x y Ix Iy)) q Iq) as K. pose proof (Lp q W) as Lpq. pose proof (Kle q Lq).
      rewrite Rabs_minus_sym in K. pose proof (Rle_abs (along f xs ys q - along g xs ys q)). lra.
    + apply Rmult_le_compat_r; [exact A0|]. apply (down_mono rnd' u' Pr'). lia.
  - destruct (Bound p Wp) as (Lq & Iq & Nq). destruct (cost_exists rnd' g xs ys p Wp) as (c' & C').
    destruct (cost_near rnd' u' Pr' g xs ys (fun x y Ix Iy => proj1 (G x y Ix Iy)) p c' Iq Nq C') as [[_ C2] A0].
    apply Rle_trans with c'; [apply (O p c' Wp C')|]. eapply Rle_trans; [exact C2|].
    apply Rle_trans with ((1 + u') ^ (length xs + length ys - 2) * along g xs ys p).
    + apply Rmult_le_compat_r; [exact A0|]. apply (up_mono rnd' u' Pr'). lia.
    + apply Rmult_le_compat_l; [pose proof (up_pos rnd' u' Pr' (length xs + length ys - 2)); lra|].
      pose proof (along_near f g xs ys e (fun x y Ix Iy => proj2 (G x y Ix Iy)) p Iq) as K. pose proof (Kle p Lq).
      pose proof (Rle_abs (along g xs ys p - along f xs ys p)). lra.
Qed.

(** With normalisation the length of the alignment is only known to be between those of the longest item and of both. *)
Lemma machine_error_normalised rnd rnd' facos fover sum dot u u' ua f t w xs ys empty p :
  precise rnd u -> precise rnd' u' -> (forall a b, a <= b -> rnd' a <= rnd' b) -> sums_rounded rnd sum dot -> accurate facos fover ua ->
  cosine_between f -> is_float t -> frames_of w xs -> frames_of w ys -> xs <> [] -> ys <> [] -> least f xs ys p ->
  exists v, machine_distance rnd rnd' facos fover sum dot empty (farray t w xs) (farray t w ys) true = Ok (Number (Some v)) /\ 0 <= v /\
    (1 - u') ^ (length xs + length ys - 1) * (along f xs ys p - INR (length xs + length ys - 1) * angle_error ua u w) / INR (length xs + length ys - 1) <= v
      <= (1 + u') ^ (length xs + length ys - 1) * (along f xs ys p + INR (length xs + length ys - 1) * angle_error ua u w) / INR (Nat.max (length xs) (length ys)).
Proof.
  intros Pr Pr' M Sm Ang Cf Ht Fx Fy Nx Ny Lp.
  destruct (machine_error rnd rnd' facos fover sum dot u u' ua f t w xs ys empty p Pr Pr' M Sm Ang Cf Ht Fx Fy Nx Ny Lp) as (c & Ec & B).
  destruct (machine_value rnd rnd' facos fover sum dot t w xs ys empty M Ht Nx Ny) as (q & c' & W & L & C & _ & E).
  { intros x y Ix Iy. unfold frames_of in *. rewrite Forall_forall in Fx, Fy.
    destruct (angle_off rnd u Pr facos fover sum dot Sm ua Ang f x y Cf) as (v & Ev & V & _); [rewrite (Fx x Ix), (Fy y Iy); reflexivity|].
    exists v. split; assumption. }
  rewrite (E false) in Ec. injection Ec as ->. exists (rnd' (c / INR (length q))). split; [apply E|].
  set (al := along f xs ys p) in *. set (e := angle_error ua u w) in *. set (K := (length xs + length ys - 1)%nat) in *.
  assert (HK : (1 <= Nat.max (length xs) (length ys) <= K)%nat) by (unfold K; destruct xs; [congruence|]; destruct ys; [congruence|]; cbn [length]; lia).
  set (mx := Nat.max (length xs) (length ys)) in *. replace (length xs + length ys - 2)%nat with (K - 1)%nat in B by (unfold K; lia).
  assert (PK : 0 < INR K) by (apply (lt_INR 0); lia). assert (Pm : 0 < INR mx) by (apply (lt_INR 0); lia). assert (Lq : (0 < length q)%nat) by (apply (whole_pos xs ys); exact W). assert (Pq : 0 < INR (length q)) by (apply (lt_INR 0); lia).
  assert (C0 : 0 <= c).
  { destruct (cost_near rnd' u' Pr' (machine_angle rnd facos fover sum dot) xs ys) with (p := q) (c := c) as [[C1 _] A0].
    - intros x y Ix Iy. unfold machine_angle. unfold frames_of in *. rewrite Forall_forall in Fx, Fy.
      destruct (angle_off rnd u Pr facos fover sum dot Sm ua Ang f x y Cf) as (v & -> & V & _); [rewrite (Fx x Ix), (Fy y Iy); reflexivity|exact V].
    - apply whole_inside; assumption.
    - destruct q; [cbn in *; lia|discriminate].
    - exact C.
    - eapply Rle_trans; [|exact C1]. apply Rmult_le_pos; [apply Rlt_le, (down_pos rnd' u' Pr')|exact A0]. }
  assert (Q0 : 0 <= c / INR (length q)) by (apply div_nonneg; [exact C0|lia]).
  pose proof (rnd_nonneg rnd' u' Pr' _ Q0) as [R1 R2]. pose proof (u_bounds rnd' u' Pr') as U.
  assert (V0 : 0 <= rnd' (c / INR (length q))) by (eapply Rle_trans; [|exact R1]; apply Rmult_le_pos; lra).
  split; [exact V0|]. replace K with (S (K - 1)) at 1 4 by lia. cbn [pow]. split.
  - destruct (Rle_dec 0 ((1 - u') ^ (K - 1) * (al - INR K * e))) as [Hp|Hn].
    + eapply Rle_trans; [|exact R1]. unfold Rdiv. rewrite !Rmult_assoc. apply Rmult_le_compat_l; [lra|]. rewrite <- Rmult_assoc.
      apply Rmult_le_compat; [exact Hp|apply Rlt_le, Rinv_0_lt_compat, PK|apply B|]. apply Rinv_le_contravar; [exact Pq|]. apply le_INR. unfold K. apply L.
    + eapply Rle_trans; [|exact V0]. rewrite Rmult_assoc. unfold Rdiv. apply Rnot_le_lt in Hn.
      assert (N : (1 - u') * ((1 - u') ^ (K - 1) * (al - INR K * e)) <= (1 - u') * 0) by (apply Rmult_le_compat_l; lra).
      rewrite <- (Rmult_0_l (/ INR K)). apply Rmult_le_compat_r; [apply Rlt_le, Rinv_0_lt_compat, PK|lra].
  - eapply Rle_trans; [exact R2|]. unfold Rdiv. rewrite !Rmult_assoc. apply Rmult_le_compat_l; [lra|]. rewrite <- Rmult_assoc.
    apply Rmult_le_compat; [exact C0|apply Rlt_le, Rinv_0_lt_compat, Pq|apply B|]. apply Rinv_le_contravar; [exact Pm|]. apply le_INR. apply L.
Qed.

(** Items that are far enough are compared as with exact numbers. *)
Lemma machine_compare rnd rnd' facos fover sum dot u u' ua f t w xs ys zs empty empty' p q :
  precise rnd u -> precise rnd' u' -> (forall a b, a <= b -> rnd' a <= rnd' b) -> sums_rounded rnd sum dot -> accurate facos fover ua ->
  cosine_between f -> is_float t -> frames_of w xs -> frames_of w ys -> frames_of w zs -> xs <> [] -> ys <> [] -> zs <> [] ->
  least f xs zs p -> least f ys zs q ->
  (1 + u') ^ (length xs + length zs - 2) * (along f xs zs p + INR (length xs + length zs - 1) * angle_error ua u w)
    < (1 - u') ^ (length ys + length zs - 2) * (along f ys zs q - INR (length ys + length zs - 1) * angle_error ua u w) ->
  exists v v', machine_distance rnd rnd' facos fover sum dot empty (farray t w xs) (farray t w zs) false = Ok (Number (Some v)) /\
    machine_distance rnd rnd' facos fover sum dot empty' (farray t w ys) (farray t w zs) false = Ok (Number (Some v')) /\ v < v'.
Proof.
  intros Pr Pr' M Sm Ang Cf Ht Fx Fy Fz Nx Ny Nz Lp Lq H.
  destruct (machine_error rnd rnd' facos fover sum dot u u' ua f t w xs zs empty p) as (v & Ev & B); try assumption.
  destruct (machine_error rnd rnd' facos fover sum dot u u' ua f t w ys zs empty' q) as (v' & Ev' & B'); try assumption.
  exists v, v'. repeat split; try assumption. lra.
Qed.
