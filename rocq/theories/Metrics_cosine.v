(** The cosine distance. *)

From Coq Require Import Reals List Bool Arith Lia Lra Psatz.
From Verif Require Import Prelude Metrics Metrics_spec Metrics_proofs.
Import ListNotations.
Local Open Scope R_scope.

Lemma same_float_array : forall t w v xs ys, is_float t -> same_float (array t w xs) (array t v ys) = true.
Proof. intros t w v xs ys [->| ->]; reflexivity. Qed.

Lemma same_cols_array : forall t w xs ys, same_cols (array t w xs) (array t w ys) = true.
Proof. intros; unfold same_cols; cbn; apply Nat.eqb_refl. Qed.

Lemma norm_some : forall x,
  nsqrt (nsum (map (lift1 (fun v => v ^ 2)) (map Some x))) = Some (norm x).
Proof.
  intros x; rewrite lift1_map, nsum_some.
  replace (total (map (fun v => v ^ 2) x)) with (inner x x).
  - apply nsqrt_some; apply inner_self_nonneg.
  - induction x as [|a x IH]; cbn [map total inner]; auto; rewrite IH; ring.
Qed.

Definition zerob (x : frame) : bool := is_zero (Some (norm x)).

Lemma zerob_spec : forall x, if zerob x then zero_frame x else ~ zero_frame x.
Proof.
  intros x; unfold zerob, is_zero; destruct (Req_EM_T (norm x) 0) as [E|E].
  - apply norm_zero_iff; assumption.
  - rewrite <- norm_zero_iff; assumption.
Qed.

Definition cosine_value (x y : frame) : R :=
  if zerob x && zerob y then 0
  else if zerob y then 1
  else if zerob x then 1
  else acos (inner x y / (norm x * norm y)) / PI.

Lemma PI_pos : 0 < PI.
Proof. apply PI_RGT_0. Qed.

Lemma acos_range : forall c, 0 <= acos c / PI <= 1.
Proof.
  intros c; pose proof (acos_bound c) as [L U]; pose proof PI_pos.
  assert (0 < / PI) by (apply Rinv_0_lt_compat; assumption).
  split.
  - unfold Rdiv; apply Rmult_le_pos; lra.
  - apply Rmult_le_reg_r with PI; [assumption|].
    replace (acos c / PI * PI) with (acos c) by (field; lra); lra.
Qed.

Lemma cosine_value_range : forall x y, 0 <= cosine_value x y <= 1.
Proof.
  intros x y; unfold cosine_value; pose proof (acos_range (inner x y / (norm x * norm y))).
  destruct (zerob x), (zerob y); cbn; lra.
Qed.

Lemma cosine_value_angle : forall x y, length x = length y -> ~ zero_frame x -> ~ zero_frame y ->
  is_angle x y (cosine_value x y).
Proof.
  intros x y H Hx Hy; split; [apply cosine_value_range|].
  pose proof (zerob_spec x) as Zx; pose proof (zerob_spec y) as Zy.
  unfold cosine_value; destruct (zerob x); [contradiction|]; destruct (zerob y); [contradiction|].
  cbn [andb]; pose proof PI_pos; pose proof (norm_pos x Hx); pose proof (norm_pos y Hy).
  replace (acos (inner x y / (norm x * norm y)) / PI * PI)
    with (acos (inner x y / (norm x * norm y))) by (field; lra).
  rewrite cos_acos by (apply cosine_bounds; assumption).
  field; lra.
Qed.

Lemma is_angle_unique : forall x y a b, ~ zero_frame x -> ~ zero_frame y ->
  is_angle x y a -> is_angle x y b -> a = b.
Proof.
  intros x y a b Hx Hy [Ra Ea] [Rb Eb].
  pose proof (norm_pos x Hx); pose proof (norm_pos y Hy); pose proof PI_pos.
  assert (E : cos (a * PI) = cos (b * PI)).
  { apply Rmult_eq_reg_l with (norm x * norm y); [lra|].
    assert (0 < norm x * norm y) by (apply Rmult_lt_0_compat; assumption); lra. }
  assert (a * PI = b * PI).
  { rewrite <- (acos_cos (a * PI)), <- (acos_cos (b * PI)), E by (split; nra); reflexivity. }
  apply Rmult_eq_reg_r with PI; lra.
Qed.

Lemma cosine_distance_value : forall t w xs ys, is_float t ->
  cosine_distance (array t w xs) (array t w ys)
  = Ok (all_pairs (fun x y => Some (cosine_value x y)) xs ys).
Proof.
  intros t w xs ys Ht; unfold cosine_distance.
  rewrite same_float_array, same_cols_array by assumption; cbn [array m_rows m_type].
  rewrite !map_map.
  assert (Z : forall l, map (fun x => is_zero (nsqrt (nsum (map (lift1 (fun v => v ^ 2)) (map Some x))))) l
                        = map zerob l)
    by (intros l; apply map_ext; intros x; rewrite norm_some; reflexivity).
  rewrite !Z; clear Z.
  rewrite !(map_ext _ _ norm_some).
  rewrite !outer_map, mmap2_outer, mmap_outer.
  rewrite (mimap_outer _ _ (fun bx by_ v => if bx then Some 1 else v) _ zerob zerob).
  rewrite (mimap_outer _ _ (fun bx by_ v => if by_ then Some 1 else v) _ zerob zerob).
  rewrite (mimap_outer _ _ (fun bx by_ v => if bx && by_ then Some 0 else v) _ zerob zerob).
  match goal with |- context [outer ?g xs ys] =>
    replace (outer g xs ys) with (outer (fun x y => Some (cosine_value x y)) xs ys) end.
  - rewrite forallb_outer; [reflexivity|].
    intros x y _ _; cbn; destruct (Rle_dec 0 (cosine_value x y)) as [|N]; [reflexivity|].
    exfalso; apply N; apply cosine_value_range.
  - apply outer_ext; intros x y _ _; unfold cosine_value.
    pose proof (zerob_spec x) as Zx; pose proof (zerob_spec y) as Zy.
    destruct (zerob x), (zerob y); cbn [andb]; auto.
    rewrite dot_some; cbn [lift2]; rewrite ndiv_some; [reflexivity|].
    pose proof (norm_pos x Zx); pose proof (norm_pos y Zy).
    apply Rmult_integral_contrapositive; lra.
Qed.

Lemma norm_scale : forall c x, norm (scale c x) = Rabs c * norm x.
Proof.
  intros c x; unfold norm.
  replace (inner (scale c x) (scale c x)) with (Rsqr c * inner x x).
  - rewrite sqrt_mult by (try apply Rle_0_sqr; apply inner_self_nonneg).
    rewrite sqrt_Rsqr_abs; reflexivity.
  - unfold scale, Rsqr; induction x as [|a x IH]; cbn [map inner]; [ring|]; rewrite <- IH; ring.
Qed.

Lemma inner_scale : forall c x y, inner x (scale c y) = c * inner x y.
Proof. intros c; unfold scale; induction x as [|a x IH]; intros [|b y]; cbn [map inner]; try ring; rewrite IH; ring. Qed.

Lemma scale_length : forall c x, length (scale c x) = length x.
Proof. intros; apply map_length. Qed.

Lemma scale_zero : forall c x, zero_frame x -> zero_frame (scale c x).
Proof. intros c x H; induction H; cbn; constructor; auto; subst; lra. Qed.

Lemma combination_zero : forall t x y, length x = length y -> zero_frame (combination t x y) ->
  y = scale (- t) x.
Proof.
  intros t; induction x as [|a x IH]; intros [|b y]; cbn; intros H Z; try discriminate; auto.
  inversion Z; subst; f_equal; [lra|apply IH; [lia|assumption]].
Qed.

Lemma collinear : forall x y, length x = length y -> ~ zero_frame x ->
  inner x y * inner x y = inner x x * inner y y ->
  y = scale (inner x y / inner x x) x.
Proof.
  intros x y H Hx E.
  assert (N : inner x x <> 0) by (intros Z; apply Hx; apply inner_zero; assumption).
  replace (inner x y / inner x x) with (- (- inner x y / inner x x)) by (field; assumption).
  apply combination_zero; [assumption|]; apply inner_zero.
  rewrite inner_combination by assumption.
  replace (- inner x y / inner x x * (- inner x y / inner x x) * inner x x)
    with (inner x y * inner x y / inner x x) by (field; assumption).
  rewrite E; field_simplify; [|assumption].
  replace (2 * (- inner x y / inner x x) * inner x y) with (- 2 * (inner x y * inner x y) / inner x x)
    by (field; assumption).
  replace (inner x y ^ 2) with (inner x y * inner x y) by ring.
  rewrite E; field; assumption.
Qed.

Lemma angle_scale_pos : forall c x, 0 < c -> is_angle x (scale c x) 0.
Proof.
  intros c x Hc; split; [lra|].
  rewrite inner_scale, norm_scale, Rmult_0_l, cos_0, Rabs_pos_eq, <- norm_sqr by lra; lra.
Qed.

Lemma angle_scale_neg : forall c x, c < 0 -> is_angle x (scale c x) 1.
Proof.
  intros c x Hc; split; [lra|].
  rewrite inner_scale, norm_scale, Rmult_1_l, cos_PI, Rabs_left, <- norm_sqr by lra; lra.
Qed.

Lemma angle_same_direction : forall x y, length x = length y -> ~ zero_frame x -> ~ zero_frame y ->
  (is_angle x y 0 <-> exists c, 0 < c /\ y = scale c x).
Proof.
  intros x y H Hx Hy; split.
  - intros [_ E]; rewrite Rmult_0_l, cos_0, Rmult_1_r in E.
    exists (inner x y / inner x x).
    pose proof (norm_pos x Hx); pose proof (norm_pos y Hy).
    assert (0 < norm x * norm y) by (apply Rmult_lt_0_compat; assumption).
    split.
    + apply Rdiv_lt_0_compat; [lra|]; rewrite <- norm_sqr; apply Rmult_lt_0_compat; assumption.
    + apply collinear; auto; rewrite <- !norm_sqr, E; ring.
  - intros (c & Hc & ->); apply angle_scale_pos; assumption.
Qed.

Lemma angle_opposite : forall x y, length x = length y -> ~ zero_frame x -> ~ zero_frame y ->
  (is_angle x y 1 <-> exists c, c < 0 /\ y = scale c x).
Proof.
  intros x y H Hx Hy; split.
  - intros [_ E]; rewrite Rmult_1_l, cos_PI in E.
    exists (inner x y / inner x x).
    pose proof (norm_pos x Hx); pose proof (norm_pos y Hy).
    assert (0 < norm x * norm y) by (apply Rmult_lt_0_compat; assumption).
    split.
    + replace (inner x y / inner x x) with (- (- inner x y / inner x x)).
      * apply Ropp_lt_gt_0_contravar.
        apply Rdiv_lt_0_compat; [lra|]; rewrite <- norm_sqr; apply Rmult_lt_0_compat; assumption.
      * field; rewrite <- norm_sqr; apply Rmult_integral_contrapositive; lra.
    + apply collinear; auto; rewrite <- !norm_sqr, E; ring.
  - intros (c & Hc & ->); apply angle_scale_neg; assumption.
Qed.

Lemma angle_right : forall x y, ~ zero_frame x -> ~ zero_frame y ->
  (is_angle x y (1 / 2) <-> inner x y = 0).
Proof.
  intros x y Hx Hy; unfold is_angle.
  replace (1 / 2 * PI) with (PI / 2) by lra; rewrite cos_PI2, Rmult_0_r; split; [tauto|].
  intros E; split; [lra|assumption].
Qed.

(** ** Statements *)

Lemma entry_all_pairs : forall A (f : frame -> frame -> A) xs ys i j x y,
  nth_error xs i = Some x -> nth_error ys j = Some y ->
  entry (all_pairs (fun x y => Some (f x y)) xs ys) i j = Some (f x y).
Proof.
  intros A f xs ys i j x y Hx Hy; unfold entry, all_pairs.
  rewrite (@nth_error_nth _ _ _ _ [] (map_nth_error (fun x => map (fun y => Some (f x y)) ys) _ _ Hx)).
  exact (@nth_error_nth _ _ _ _ None (map_nth_error (fun y => Some (f x y)) _ _ Hy)).
Qed.

Lemma cosine_spec : exists f : frame -> frame -> R,
  (forall t w xs ys, is_float t ->
     cosine_distance (array t w xs) (array t w ys) = Ok (all_pairs (fun x y => Some (f x y)) xs ys)) /\
  (forall x y, zero_frame x -> zero_frame y -> f x y = 0) /\
  (forall x y, zero_frame x -> ~ zero_frame y -> f x y = 1) /\
  (forall x y, ~ zero_frame x -> zero_frame y -> f x y = 1) /\
  (forall x y, length x = length y -> ~ zero_frame x -> ~ zero_frame y -> is_angle x y (f x y)).
Proof.
  exists cosine_value; split; [apply cosine_distance_value|].
  assert (Z : forall x y, (zero_frame x -> zero_frame y -> cosine_value x y = 0) /\
     (zero_frame x -> ~ zero_frame y -> cosine_value x y = 1) /\
     (~ zero_frame x -> zero_frame y -> cosine_value x y = 1)).
  { intros x y; pose proof (zerob_spec x) as Zx; pose proof (zerob_spec y) as Zy.
    unfold cosine_value; destruct (zerob x), (zerob y); cbn [andb]; tauto. }
  repeat split; try apply Z; try (apply cosine_value_range); apply cosine_value_angle; assumption.
Qed.

Lemma cosine_types : forall x y,
  (~ (is_float (m_type x) /\ m_type y = m_type x) -> cosine_distance x y = Err AssertionError) /\
  (is_float (m_type x) -> m_type y = m_type x -> m_cols x <> m_cols y ->
     cosine_distance x y = Err ValueError).
Proof.
  intros [tx wx rx] [ty wy ry]; cbn [m_type m_cols]; split.
  - intros H; unfold cosine_distance, same_float; cbn [m_type].
    destruct tx, ty; cbn; auto; exfalso; apply H; unfold is_float; auto.
  - intros F -> N; unfold cosine_distance, same_float, same_cols; cbn [m_type m_cols].
    apply Nat.eqb_neq in N; rewrite N; destruct F as [->| ->]; reflexivity.
Qed.

Lemma cosine_range : forall t w xs ys d, is_float t ->
  cosine_distance (array t w xs) (array t w ys) = Ok d ->
  forall i j x y, nth_error xs i = Some x -> nth_error ys j = Some y ->
  exists a, entry d i j = Some a /\ 0 <= a <= 1.
Proof.
  intros t w xs ys d Ht Hd i j x y Hx Hy; rewrite cosine_distance_value in Hd by assumption.
  injection Hd as <-; exists (cosine_value x y); split; [|apply cosine_value_range].
  apply entry_all_pairs; assumption.
Qed.

Lemma cosine_value_sym : forall x y, cosine_value x y = cosine_value y x.
Proof.
  intros x y; unfold cosine_value.
  rewrite (inner_sym y x), (Rmult_comm (norm y)); destruct (zerob x), (zerob y); reflexivity.
Qed.

Lemma cosine_symmetric : forall t w xs ys d e, is_float t ->
  cosine_distance (array t w xs) (array t w ys) = Ok d ->
  cosine_distance (array t w ys) (array t w xs) = Ok e ->
  forall i j, (i < length xs)%nat -> (j < length ys)%nat -> entry e j i = entry d i j.
Proof.
  intros t w xs ys d e Ht Hd He i j Hi Hj; rewrite cosine_distance_value in Hd, He by assumption.
  injection Hd as <-; injection He as <-.
  destruct (nth_error xs i) as [x|] eqn:Ex; [|apply nth_error_None in Ex; lia].
  destruct (nth_error ys j) as [y|] eqn:Ey; [|apply nth_error_None in Ey; lia].
  rewrite (entry_all_pairs _ _ _ _ _ _ _ _ Ex Ey), (entry_all_pairs _ _ _ _ _ _ _ _ Ey Ex).
  rewrite cosine_value_sym; reflexivity.
Qed.

Lemma cosine_extremes : forall t w xs ys d, is_float t -> frames_of w xs -> frames_of w ys ->
  cosine_distance (array t w xs) (array t w ys) = Ok d ->
  forall i j x y, nth_error xs i = Some x -> nth_error ys j = Some y ->
  (entry d i j = Some 0 <->
     (zero_frame x /\ zero_frame y) \/ (~ zero_frame x /\ exists c, 0 < c /\ y = scale c x)) /\
  (entry d i j = Some 1 <->
     (zero_frame x /\ ~ zero_frame y) \/ (~ zero_frame x /\ zero_frame y) \/
     (~ zero_frame x /\ exists c, c < 0 /\ y = scale c x)) /\
  (~ zero_frame x -> ~ zero_frame y -> (entry d i j = Some (1 / 2) <-> inner x y = 0)).
Proof.
  intros t w xs ys d Ht Wx Wy Hd i j x y Hx Hy.
  rewrite cosine_distance_value in Hd by assumption; injection Hd as <-.
  rewrite (entry_all_pairs _ _ _ _ _ _ _ _ Hx Hy).
  assert (L : length x = length y).
  { unfold frames_of in Wx, Wy; rewrite Forall_forall in Wx, Wy.
    rewrite (Wx x), (Wy y) by (eapply nth_error_In; eassumption); reflexivity. }
  assert (S : forall c, Some (cosine_value x y) = Some c <-> cosine_value x y = c)
    by (intros c; split; [intros [= E]; exact E|intros ->; reflexivity]).
  rewrite !S; clear S.
  assert (ZS : forall c, c <> 0 -> ~ zero_frame x -> ~ zero_frame (scale c x)).
  { intros c Hc Hz Hs; apply norm_zero_iff in Hs; rewrite norm_scale in Hs.
    pose proof (norm_pos x Hz); apply Rmult_integral in Hs; destruct Hs as [Hs|Hs]; [|lra].
    apply Rabs_no_R0 in Hc; contradiction. }
  pose proof (cosine_value_angle x y L) as A.
  pose proof (zerob_spec x) as Zx; pose proof (zerob_spec y) as Zy.
  destruct (zerob x) eqn:Bx, (zerob y) eqn:By.
  - assert (V : cosine_value x y = 0) by (unfold cosine_value; rewrite Bx, By; reflexivity).
    rewrite V; repeat split; try tauto; intros; try lra.
  - assert (V : cosine_value x y = 1) by (unfold cosine_value; rewrite Bx, By; reflexivity).
    rewrite V; repeat split; try tauto; intros; try lra; exfalso; tauto.
  - assert (V : cosine_value x y = 1) by (unfold cosine_value; rewrite Bx, By; reflexivity).
    rewrite V; repeat split; try tauto; intros H; try lra.
    exfalso; destruct H as [?|(N & c & Hc & ->)]; [tauto|].
    apply (ZS c); auto; lra.
  - specialize (A Zx Zy).
    assert (U : forall b, is_angle x y b <-> cosine_value x y = b).
    { intros b; split; [apply is_angle_unique; assumption|intros <-; assumption]. }
    rewrite <- !U, angle_right, angle_same_direction, angle_opposite by assumption; tauto.
Qed.
