(** The default distance with rounded operations: alignments, and what stays in its bounds. *)
From Coq Require Import Reals List Arith Lia Lra Bool Permutation.
From Verif Require Import Prelude Metrics_spec Metrics_proofs Dtw Dtw_spec Dtw_proofs Dtw_hom DefaultDistance_spec DefaultDistance_proofs.
From Verif Require Metrics DefaultDistance.
From Verif Require Import FloatDistance FloatDistance_spec.
Import ListNotations.
Local Open Scope R_scope.

Section Warp.
Variable rnd : R -> R.
Hypothesis mono : forall a b, a <= b -> rnd a <= rnd b.
Variable g : frame -> frame -> R.
Variables xs ys : list frame.
Hypothesis Hx : xs <> [].
Hypothesis Hy : ys <> [].

Local Notation dist := (map (fun x => map (g x) ys) xs).
Local Notation d := (Dtw_spec.entry 0 dist).
Definition plus (a b : R) : R := rnd (a + b).
Definition over (a : R) (n : nat) : R := rnd (a / INR n).

Lemma ordered_plus : ordered plus rleb.
Proof.
  constructor.
  - intros a b. rewrite !rleb_true. destruct (Rle_dec a b); [left|right]; lra.
  - intros a b c. rewrite !rleb_true. lra.
  - intros e a b. rewrite !rleb_true. intros H. apply mono. lra.
Qed.

Lemma machine_warped (empty : costs (option R)) :
  exists p c, whole xs ys p /\ (Nat.max (length xs) (length ys) <= length p <= length xs + length ys - 1)%nat /\
    cost_of plus d p = Some c /\ (forall q c', whole xs ys q -> cost_of plus d q = Some c' -> c <= c') /\
    forall normalized, dtw (radd rnd) DefaultDistance.nle (rdivn rnd) (map (map (@Some R)) xs) (map (map (@Some R)) ys)
        (fun _ _ => Ok (all_pairs (fun x y => Some (g x y)) xs ys)) normalized empty
      = Ok (Some (if normalized then rnd (c / INR (length p)) else c)).
Proof.
  assert (Nx : (0 < length xs)%nat) by (destruct xs; [congruence|cbn; lia]).
  assert (Ny : (0 < length ys)%nat) by (destruct ys; [congruence|cbn; lia]).
  destruct (@dtw_normalised _ plus rleb over ordered_plus _ (fun _ _ => Ok dist) 0 xs ys dist (fun _ _ => 0) Hx Hy eq_refl
              (dist_shape g xs ys)) as (c & p & E1 & E2 & O & L).
  destruct (@dtw_optimal _ plus rleb over ordered_plus _ (fun _ _ => Ok dist) 0 xs ys dist (fun _ _ => 0) Hx Hy eq_refl
              (dist_shape g xs ys)) as (c' & p' & E1' & O' & C').
  rewrite E1 in E1'. injection E1' as <-.
  assert (Cp : cost_of plus d p = Some c) by (rewrite <- (optimal_cost _ plus rleb rleb_antisym d _ _ _ O' O); exact C').
  exists p, c. split; [exact (proj1 O)|]. split; [lia|]. split; [exact Cp|]. split.
  { intros q c' Hq Cq. apply rleb_true. apply (proj2 O q c c' Hq Cp Cq). }
  assert (H : forall normalized, dtw (radd rnd) DefaultDistance.nle (rdivn rnd) (map (map (@Some R)) xs) (map (map (@Some R)) ys)
        (fun _ _ => Ok (all_pairs (fun x y => Some (g x y)) xs ys)) normalized empty
    = (c <- dtw plus rleb over xs ys (fun _ _ => Ok dist) normalized (fun _ _ => 0) ;; Ok (Some c))).
  { intros normalized. unfold dtw. cbn [bind]. rewrite !map_length.
    unfold frame in *. rewrite !(proj2 (Nat.eqb_neq _ 0)) by lia. cbn [orb].
    apply (dtw_costs_hom plus rleb over (radd rnd) DefaultDistance.nle (rdivn rnd) (@Some R)) with (z := 0); try assumption.
    - reflexivity.
    - reflexivity.
    - reflexivity.
    - apply (dist_shape g xs ys).
    - apply (dist_shape (fun x y => Some (g x y)) xs ys).
    - intros i j Hi Hj. unfold all_pairs. rewrite (entry_dist (Some 0) (fun x y => Some (g x y))), (entry_dist 0 g) by assumption. reflexivity. }
  intros [|]; rewrite H, ?E1, ?E2; reflexivity.
Qed.

(** Sums along alignments. *)
Lemma cost_bounds : rnd 0 = 0 -> (forall x y, In x xs -> In y ys -> 0 <= g x y <= 1) ->
  forall p c, p <> [] -> inside xs ys p -> (forall n, (n <= length p)%nat -> rnd (INR n) = INR n) -> cost_of plus d p = Some c -> 0 <= c <= INR (length p).
Proof.
  intros Z B. induction p as [|[i j] p IH]; intros c N I Hn E; [congruence|]. inversion I as [|? ? [Hi Hj] I']; subst. cbn [fst snd] in *.
  assert (Bd : 0 <= d i j <= 1) by (rewrite entry_dist by assumption; apply B; apply nth_In; assumption).
  destruct p as [|b p].
  - cbn [cost_of] in E. injection E as <-. cbn. lra.
  - destruct (cost_of plus d (b :: p)) as [c'|] eqn:E'; [|cbn in E, E'; rewrite E' in E; discriminate].
    rewrite (cost_of_cons _ _ _ _ _ _ _ E') in E. injection E as <-.
    assert (Q : 0 <= c' <= INR (length (b :: p))) by (apply IH; [discriminate|exact I'|intros n L; apply Hn; cbn in *; lia|reflexivity]).
    unfold plus. split.
    + rewrite <- Z at 1. apply mono. lra.
    + rewrite <- Hn by lia. apply mono. change (length ((i, j) :: b :: p)) with (S (length (b :: p))). rewrite S_INR. lra.
Qed.

Lemma cost_exists q : whole xs ys q -> exists c, cost_of plus d q = Some c.
Proof. intros H. exact (alignment_cost _ plus d _ _ H). Qed.
End Warp.

(** ** Matrices *)
Section Machine.
Variables (rnd rnd' facos fover : R -> R).
Variable sum : list (option R) -> option R.
Variable dot : list (option R) -> list (option R) -> option R.
Local Notation A := (rounded rnd facos fover sum dot).

(** The angle as a number. *)
Definition machine_angle (x y : frame) : R := match angle A (map Some x) (map Some y) with Some v => v | None => 0 end.

Lemma machine_cosine t w xs ys : is_float t ->
  (forall x y, In x xs -> In y ys -> exists v, angle A (map Some x) (map Some y) = Some v /\ 0 <= v) ->
  cosine_distance A (farray t w xs) (farray t w ys) = Ok (all_pairs (fun x y => Some (machine_angle x y)) xs ys).
Proof.
  intros Ht H. unfold cosine_distance. assert (S : same_float (farray t w xs) (farray t w ys) = true) by (destruct Ht as [-> | ->]; reflexivity).
  rewrite S. cbn [farray f_cols f_rows]. rewrite Nat.eqb_refl.
  assert (E : map (fun r => map (angle A r) (map (map Some) ys)) (map (map Some) xs) = all_pairs (fun x y => Some (machine_angle x y)) xs ys).
  { unfold all_pairs. rewrite map_map. apply map_ext_in. intros x Ix. rewrite map_map. apply map_ext_in. intros y Iy.
    unfold machine_angle. destruct (H x y Ix Iy) as (v & -> & _). reflexivity. }
  rewrite E. assert (P : forallb (forallb (at_least_0 A)) (all_pairs (fun x y => Some (machine_angle x y)) xs ys) = true).
  { apply forallb_forall. intros row Hr. apply forallb_forall. intros v Hv. apply in_map_iff in Hr. destruct Hr as (x & <- & Ix).
    apply in_map_iff in Hv. destruct Hv as (y & <- & Iy). cbn [at_least_0 rounded Metrics.is_nonneg]. unfold machine_angle.
    destruct (H x y Ix Iy) as (v & -> & V). destruct (Rle_dec 0 v); [reflexivity|contradiction]. }
  rewrite P. reflexivity.
Qed.

Lemma machine_value t w xs ys empty : (forall a b, a <= b -> rnd' a <= rnd' b) -> is_float t -> xs <> [] -> ys <> [] ->
  (forall x y, In x xs -> In y ys -> exists v, angle A (map Some x) (map Some y) = Some v /\ 0 <= v) ->
  exists p c, whole xs ys p /\ (Nat.max (length xs) (length ys) <= length p <= length xs + length ys - 1)%nat /\
    cost_of (plus rnd') (Dtw_spec.entry 0 (map (fun x => map (machine_angle x) ys) xs)) p = Some c /\
    (forall q c', whole xs ys q -> cost_of (plus rnd') (Dtw_spec.entry 0 (map (fun x => map (machine_angle x) ys) xs)) q = Some c' -> c <= c') /\
    forall normalized, machine_distance rnd rnd' facos fover sum dot empty (farray t w xs) (farray t w ys) normalized
      = Ok (Number (Some (if normalized then rnd' (c / INR (length p)) else c))).
Proof.
  intros M Ht Nx Ny H. destruct (machine_warped rnd' M machine_angle xs ys Nx Ny empty) as (p & c & W & L & C & O & E).
  exists p, c. split; [exact W|]. split; [exact L|]. split; [exact C|]. split; [exact O|]. intros normalized. unfold machine_distance, default_distance.
  rewrite (machine_cosine t w xs ys Ht H). change (f_rows (farray t w xs)) with (map (map (@Some R)) xs). change (f_rows (farray t w ys)) with (map (map (@Some R)) ys).
  assert (Lx : (0 <? length (map (map (@Some R)) xs))%nat = true) by (rewrite map_length; apply Nat.ltb_lt; destruct xs; [congruence|cbn; lia]).
  assert (Ly : (0 <? length (map (map (@Some R)) ys))%nat = true) by (rewrite map_length; apply Nat.ltb_lt; destruct ys; [congruence|cbn; lia]).
  rewrite Lx, Ly. cbn [andb bind]. rewrite E. reflexivity.
Qed.

(** ** Bounds *)
Section Bounds.
Variable tiny : R.
Hypothesis Fm : format rnd tiny.
Hypothesis Sm : sums_rounded rnd sum dot.
Hypothesis Ang : forall v, 0 <= fover (facos v) <= 1.

Lemma summed_float : forall l s, summed rnd l s -> (forall a, In a l -> 0 <= a /\ rnd a = a) -> 0 <= s /\ rnd s = s.
Proof.
  induction 1 as [|a|l l1 l2 a b P N1 N2 S1 IH1 S2 IH2]; intros H.
  - split; [lra|apply (fmt_0 _ _ Fm)].
  - apply H. left. reflexivity.
  - destruct IH1 as [A1 _]; [intros e He; apply H; apply (Permutation_in _ (Permutation_sym P)), in_or_app; left; exact He|].
    destruct IH2 as [A2 _]; [intros e He; apply H; apply (Permutation_in _ (Permutation_sym P)), in_or_app; right; exact He|].
    split; [|apply (fmt_idem _ _ Fm)]. rewrite <- (fmt_0 _ _ Fm) at 1. apply (fmt_mono _ _ Fm). lra.
Qed.

Lemma length_float x : exists l, length_of A (map Some x) = Some l /\ (l = 0 \/ 3 / 4 * sqrt tiny <= l).
Proof.
  unfold length_of. cbn [rounded mul root FloatDistance.sum]. rewrite map_map. cbn [Metrics.lift2].
  rewrite <- (map_map (fun v => rnd (v * v)) Some). destruct Sm as [Ss _]. destruct (Ss (map (fun v => rnd (v * v)) x)) as (s & S & E). rewrite E.
  apply summed_float in S.
  - destruct S as [S0 Sf]. destruct (Rle_dec 0 s) as [_|]; [|contradiction]. eexists. split; [reflexivity|].
    destruct (Req_EM_T s 0) as [->|Ns]; [left; rewrite sqrt_0; apply (fmt_0 _ _ Fm)|right].
    assert (G : tiny <= s) by (apply (fmt_gap _ _ Fm); [exact Sf|lra]). eapply Rle_trans; [|apply (fmt_root _ _ Fm); exact G].
    apply Rmult_le_compat_l; [lra|]. apply sqrt_le_1_alt. exact G.
  - intros a Ha. apply in_map_iff in Ha. destruct Ha as (v & <- & _). split; [|apply (fmt_idem _ _ Fm)].
    rewrite <- (fmt_0 _ _ Fm) at 1. apply (fmt_mono _ _ Fm). apply Rle_0_sqr.
Qed.

Lemma angle_float x y : length x = length y -> exists v, angle A (map Some x) (map Some y) = Some v /\ 0 <= v <= 1.
Proof.
  intros L. unfold angle. destruct (length_float x) as (lx & -> & Hx). destruct (length_float y) as (ly & -> & Hy).
  destruct Sm as [_ Sd]. destruct (Sd x y L) as (s & _ & E). cbn [rounded mul div arccos over_pi zero one equal_0 FloatDistance.dot Metrics.lift1 Metrics.lift2 Metrics.is_zero].
  rewrite E. destruct (Req_EM_T lx 0) as [_|Nx], (Req_EM_T ly 0) as [_|Ny]; cbn [andb]; try (eexists; split; [reflexivity|lra]).
  destruct Hx as [|Hx]; [contradiction|]. destruct Hy as [|Hy]; [contradiction|].
  pose proof (fmt_tiny _ _ Fm) as T. pose proof (sqrt_lt_R0 _ T) as Rt. pose proof (sqrt_sqrt tiny ltac:(lra)) as Sq.
  assert (P : tiny / 2 < lx * ly).
  { assert (Q : 3 / 4 * sqrt tiny * (3 / 4 * sqrt tiny) <= lx * ly) by (apply Rmult_le_compat; lra).
    replace (3 / 4 * sqrt tiny * (3 / 4 * sqrt tiny)) with (9 / 16 * (sqrt tiny * sqrt tiny)) in Q by lra. rewrite Sq in Q. lra. }
  pose proof (fmt_least _ _ Fm _ P) as Z. destruct (Req_EM_T (rnd (lx * ly)) 0) as [Z0|_]; [lra|]. eexists. split; [reflexivity|]. apply Ang.
Qed.

Theorem machine_range t w xs ys empty normalized : is_float t -> frames_of w xs -> frames_of w ys -> xs <> [] -> ys <> [] ->
  (forall a b, a <= b -> rnd' a <= rnd' b) -> (forall n, (n <= length xs + length ys)%nat -> rnd' (INR n) = INR n) ->
  exists v, machine_distance rnd rnd' facos fover sum dot empty (farray t w xs) (farray t w ys) normalized = Ok (Number (Some v)) /\
    0 <= v <= (if normalized then 1 else INR (length xs + length ys - 1)).
Proof.
  intros Ht Fx Fy Nx Ny M I.
  assert (Lw : forall x y, In x xs -> In y ys -> length x = length y).
  { intros x y Ix Iy. unfold frames_of in *. rewrite Forall_forall in Fx, Fy. rewrite (Fx x Ix), (Fy y Iy). reflexivity. }
  assert (B : forall x y, In x xs -> In y ys -> exists v, angle A (map Some x) (map Some y) = Some v /\ 0 <= v <= 1).
  { intros x y Ix Iy. apply angle_float, Lw; assumption. }
  destruct (machine_value t w xs ys empty M Ht Nx Ny) as (p & c & W & L & C & _ & E).
  { intros x y Ix Iy. destruct (B x y Ix Iy) as (v & Ev & V). exists v. split; [exact Ev|lra]. }
  assert (Z : rnd' 0 = 0) by (apply (I 0%nat); lia).
  assert (Bc : 0 <= c <= INR (length p)).
  { apply (cost_bounds rnd' M machine_angle xs ys) with (p := p); try assumption.
    - intros x y Ix Iy. unfold machine_angle. destruct (B x y Ix Iy) as (v & -> & V). exact V.
    - pose proof (whole_pos _ _ _ W). destruct p; [cbn in *; lia|discriminate].
    - apply whole_inside; assumption.
    - intros n Hn. apply I. unfold frame in *. lia. }
  eexists. split; [apply E|]. pose proof (whole_pos _ _ _ W) as Pp. destruct normalized.
  - split.
    + rewrite <- Z at 1. apply M, div_nonneg; [lra|exact Pp].
    + pose proof (I 1%nat) as I1. change (INR 1) with 1 in I1. rewrite <- I1 by (destruct xs; [congruence|cbn; lia]). apply M. apply div_le_1; [lra|exact Pp].
  - split; [lra|]. eapply Rle_trans; [apply Bc|]. apply le_INR. unfold frame in *. lia.
Qed.
End Bounds.
End Machine.
