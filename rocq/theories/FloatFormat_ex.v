(** Roundings to nearest exist, for the examples of Props_FloatFormat.v. *)
From Coq Require Import Reals ZArith List Lia Lra.
From Verif Require Import Prelude.
From Verif Require Metrics.
From Verif Require Import FloatDistance FloatDistance_spec FloatDistance_error FloatDistance_ex FloatFormat_spec FloatFormat_proofs.
Import ListNotations.
Local Open Scope R_scope.

(** The exponent of a number that is not 0. *)
Definition expo (x : R) : Z := (up (ln (Rabs x) / ln 2) - 1)%Z.

Lemma expo_bounds x : x <> 0 -> bpow (expo x) <= Rabs x < bpow (expo x + 1).
Proof.
  intros N. apply Rabs_pos_lt in N. pose proof (archimed (ln (Rabs x) / ln 2)) as [A B]. assert (L : 0 < ln 2) by (rewrite <- ln_1; apply ln_increasing; lra).
  assert (E : forall z, bpow z = exp (IZR z * ln 2)) by (intros z; rewrite powerRZ_Rpower by lra; reflexivity).
  assert (D : ln (Rabs x) / ln 2 * ln 2 = ln (Rabs x)) by (field; lra). rewrite !E. rewrite <- (exp_ln (Rabs x) N) at 1 2. unfold expo. set (t := ln (Rabs x)) in *. set (q := t / ln 2) in *.
  replace (up q - 1 + 1)%Z with (up q) by lia. rewrite minus_IZR. split.
  - assert (H : (IZR (up q) - 1) * ln 2 <= t) by nra. destruct H as [H|H]; [left; apply exp_increasing, H|right; rewrite H; reflexivity].
  - apply exp_increasing. nra.
Qed.

Lemma near_least y j : Rabs (IZR (FloatFormat_proofs.near y) - y) <= Rabs (IZR j - y).
Proof.
  pose proof (FloatFormat_proofs.near_bounds y) as B. destruct (Z.eq_dec j (FloatFormat_proofs.near y)) as [->|N]; [lra|].
  assert (H : 1 <= Rabs (IZR j - IZR (FloatFormat_proofs.near y))) by (rewrite <- minus_IZR, <- abs_IZR; apply (IZR_le 1); lia).
  pose proof (Rabs_triang (IZR j - y) (y - IZR (FloatFormat_proofs.near y))) as T. replace (IZR j - y + (y - IZR (FloatFormat_proofs.near y))) with (IZR j - IZR (FloatFormat_proofs.near y)) in T by ring.
  rewrite (Rabs_minus_sym y) in T. lra.
Qed.

Lemma near_multiple k x j e : (k <= e)%Z -> Rabs (IZR (FloatFormat_proofs.near (x / bpow k)) * bpow k - x) <= Rabs (IZR j * bpow e - x).
Proof.
  intros L. pose proof (bpow_pos k) as P. pose proof (near_least (x / bpow k) (j * 2 ^ (e - k))) as H.
  assert (E : IZR (j * 2 ^ (e - k)) * bpow k = IZR j * bpow e).
  { rewrite mult_IZR, <- bpow_IZR by lia. rewrite Rmult_assoc, <- bpow_plus. f_equal. f_equal. lia. }
  apply (Rmult_le_compat_r (bpow k)) in H; [|lra]. assert (M : forall t, Rabs t * bpow k = Rabs (t * bpow k)) by (intros t; rewrite Rabs_mult, (Rabs_pos_eq (bpow k)) by lra; reflexivity). rewrite !M in H.
  replace ((IZR (FloatFormat_proofs.near (x / bpow k)) - x / bpow k) * bpow k) with (IZR (FloatFormat_proofs.near (x / bpow k)) * bpow k - x) in H by (field; lra).
  replace ((IZR (j * 2 ^ (e - k)) - x / bpow k) * bpow k) with (IZR (j * 2 ^ (e - k)) * bpow k - x) in H by (field; lra). rewrite E in H. exact H.
Qed.

(** The rounding in a format. *)
Definition last_digit (p emin : Z) (x : R) : Z := Z.max (expo x + 1 - p) emin.
Definition float_rnd (p emin : Z) (x : R) : R :=
  if Req_EM_T x 0 then 0 else IZR (FloatFormat_proofs.near (x / bpow (last_digit p emin x))) * bpow (last_digit p emin x).
Definition digits_rnd (p : Z) (x : R) : R :=
  if Req_EM_T x 0 then 0 else IZR (FloatFormat_proofs.near (x / bpow (expo x + 1 - p))) * bpow (expo x + 1 - p).

Lemma point_in p k x : (0 < p)%Z -> Rabs x < bpow (k + p) -> exists m e, (Z.abs m < 2 ^ p)%Z /\ (k <= e)%Z /\ IZR (FloatFormat_proofs.near (x / bpow k)) * bpow k = IZR m * bpow e.
Proof. intros Hp Hx. destruct (rounded_point p k x Hp Hx) as (m & e & M & Le & E & _). exists m, e. auto. Qed.

(** A number with fewer digits before the point is not nearer. *)
Lemma smaller_far p x m e : (0 < p)%Z -> x <> 0 -> (Z.abs m < 2 ^ p)%Z -> (e < expo x + 1 - p)%Z ->
  Rabs (IZR (FloatFormat_proofs.near (x / bpow (expo x + 1 - p))) * bpow (expo x + 1 - p) - x) <= Rabs (IZR m * bpow e - x).
Proof.
  intros Hp N M Le. destruct (expo_bounds x N) as [L _].
  assert (G : Rabs (IZR m * bpow e) <= bpow (expo x)).
  { rewrite Rabs_mult, (Rabs_pos_eq (bpow e)) by (pose proof (bpow_pos e); lra). rewrite <- abs_IZR. replace (expo x) with (p + (expo x - p))%Z by lia. rewrite bpow_plus, (bpow_IZR p) by lia.
    apply Rmult_le_compat; [apply IZR_le; lia|pose proof (bpow_pos e); lra|apply IZR_le; lia|apply bpow_le; lia]. }
  destruct (Rle_lt_dec 0 x) as [S|S].
  - rewrite (Rabs_pos_eq x) in L by exact S. eapply Rle_trans; [apply (near_multiple (expo x + 1 - p) x 1 (expo x)); lia|]. unfold Rabs in *. repeat destruct Rcase_abs; lra.
  - rewrite (Rabs_left x) in L by exact S. eapply Rle_trans; [apply (near_multiple (expo x + 1 - p) x (-1) (expo x)); lia|]. unfold Rabs in *. repeat destruct Rcase_abs; lra.
Qed.

Lemma float_rnd_nearest p emin : (0 < p)%Z -> nearest_in (in_format p emin) (float_rnd p emin).
Proof.
  intros Hp x. unfold float_rnd. destruct (Req_EM_T x 0) as [->|N].
  - split.
    + exists 0%Z, emin. split; [apply Z.pow_pos_nonneg; lia|]. split; [lia|lra].
    + intros g _. rewrite Rminus_0_r, Rabs_R0. apply Rabs_pos.
  - destruct (expo_bounds x N) as [L U]. split.
    + destruct (point_in p (last_digit p emin x) x Hp) as (m & e & M & Le & E).
      * eapply Rlt_le_trans; [exact U|]. apply bpow_le. unfold last_digit. lia.
      * exists m, e. split; [exact M|]. split; [unfold last_digit in Le; lia|exact E].
    + intros g (m & e & M & Le & ->). destruct (Z_lt_le_dec e (last_digit p emin x)) as [C|C]; [|apply near_multiple, C].
      assert (K : last_digit p emin x = (expo x + 1 - p)%Z) by (unfold last_digit in *; lia). rewrite K in *. apply smaller_far; assumption.
Qed.

Lemma digits_rnd_nearest p : (0 < p)%Z -> nearest_in (with_digits p) (digits_rnd p).
Proof.
  intros Hp x. unfold digits_rnd. destruct (Req_EM_T x 0) as [->|N].
  - split.
    + exists 0%Z, 0%Z. split; [apply Z.pow_pos_nonneg; lia|lra].
    + intros g _. rewrite Rminus_0_r, Rabs_R0. apply Rabs_pos.
  - destruct (expo_bounds x N) as [L U]. split.
    + destruct (point_in p (expo x + 1 - p) x Hp) as (m & e & M & Le & E).
      * eapply Rlt_le_trans; [exact U|]. apply bpow_le. lia.
      * exists m, e. split; [exact M|exact E].
    + intros g (m & e & M & ->). destruct (Z_lt_le_dec e (expo x + 1 - p)) as [C|C]; [apply smaller_far; assumption|apply near_multiple, C].
Qed.

Lemma float_range_example : exists v,
  machine_distance (float_rnd 24 (-149)) (float_rnd 53 (-1074)) acos (fun a => a / PI) (rsum (float_rnd 24 (-149))) (rdot (float_rnd 24 (-149))) ex_memory
    (farray Metrics.Float32 2 one_frame) (farray Metrics.Float32 2 two_frames) true = Ok (Number (Some v)) /\ 0 <= v <= 1.
Proof.
  apply (float_range 24 (-149) 53 (-1074) (float_rnd 24 (-149)) (float_rnd 53 (-1074)) acos (fun a => a / PI) (rsum (float_rnd 24 (-149))) (rdot (float_rnd 24 (-149))))
    with (t := Metrics.Float32) (w := 2%nat) (xs := one_frame) (ys := two_frames) (normalized := true);
    try lia; try (apply float_rnd_nearest; lia); try apply rsums; try apply acos_half_turns; try (right; reflexivity); try discriminate; try (repeat constructor; fail).
Qed.
