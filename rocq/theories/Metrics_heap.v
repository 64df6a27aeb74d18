(** The metrics that change their arguments. *)

From Coq Require Import Reals List Bool Arith Lia Lra Psatz.
From Verif Require Import Prelude Metrics Metrics_spec Metrics_proofs Metrics_cosine Metrics_kl.
Import ListNotations.
Local Open Scope R_scope.

Lemma nsum_inv : forall r s, nsum r = Some s -> exists x, r = map Some x /\ total x = s.
Proof.
  induction r as [|[a|] r IH]; cbn; intros s H.
  - exists []; split; auto; injection H; auto.
  - fold (nsum r) in H; destruct (nsum r) as [u|] eqn:E; [|discriminate].
    destruct (IH u eq_refl) as (x & -> & Hx); exists (a :: x); split; auto.
    injection H as <-; cbn; rewrite Hx; reflexivity.
  - discriminate.
Qed.

Lemma normalise_row_some : forall x, total x <> 0 ->
  normalise_row (map Some x) = map Some (prob x).
Proof.
  intros x H; unfold normalise_row, prob; rewrite nsum_some, !map_map; apply map_ext; intros v.
  apply ndiv_some; assumption.
Qed.

Lemma normalise_row_idem : forall r, normalise_row (normalise_row r) = normalise_row r.
Proof.
  intros r; destruct (nsum r) as [s|] eqn:E.
  - destruct (nsum_inv r s E) as (x & -> & Hx).
    destruct (Req_EM_T s 0) as [Z|N].
    + destruct x as [|v x]; [reflexivity|].
      assert (A : normalise_row (map Some (v :: x)) = map (fun _ => None) (v :: x)).
      { unfold normalise_row; rewrite E, Z, map_map; apply map_ext; intros u; cbn.
        destruct (Req_EM_T 0 0); [reflexivity|contradiction]. }
      rewrite A; unfold normalise_row; rewrite map_map; apply map_ext; reflexivity.
    + rewrite normalise_row_some by (rewrite Hx; assumption).
      rewrite normalise_row_some by (rewrite total_prob; [lra|rewrite Hx; assumption]).
      f_equal; unfold prob at 1; rewrite total_prob by (rewrite Hx; assumption).
      rewrite <- (map_id (prob x)) at 2; apply map_ext; intros u; field.
  - destruct r as [|v r]; [reflexivity|].
    assert (A : normalise_row (v :: r) = map (fun _ => None) (v :: r)).
    { unfold normalise_row; rewrite E; apply map_ext; intros [u|]; reflexivity. }
    rewrite A; unfold normalise_row; rewrite map_map; apply map_ext; reflexivity.
Qed.

Lemma normalise_idem : forall m, normalise (normalise m) = normalise m.
Proof.
  intros [t w rows]; unfold normalise; cbn; f_equal; rewrite map_map; apply map_ext.
  intros; apply normalise_row_idem.
Qed.

Lemma update_nth : forall A (l : list A) i a k,
  nth_error (update l i a) k = if (k =? i)%nat then option_map (fun _ => a) (nth_error l k) else nth_error l k.
Proof.
  intros A; induction l as [|b l IH]; intros i a k; cbn.
  - destruct (k =? i)%nat, k; reflexivity.
  - destruct i as [|i], k as [|k]; cbn; auto; apply IH.
Qed.

Definition nth_ok {A} (l : list A) i a : Prop := nth_error l i = Some a.

Lemma nth_res_some : forall A (l : list A) i a, nth_error l i = Some a -> nth_res l i = Ok a.
Proof. intros A l i a H; unfold nth_res; rewrite H; reflexivity. Qed.

Lemma nth_res_none : forall A (l : list A) i, nth_error l i = None -> nth_res l i = Err IndexError.
Proof. intros A l i H; unfold nth_res; rewrite H; reflexivity. Qed.

Lemma normalise_at_spec : forall h i x, nth_error h i = Some x -> m_type x <> Integer ->
  exists h', normalise_at h i = Ok h' /\
    forall k, nth_error h' k = if (k =? i)%nat then option_map normalise (nth_error h k) else nth_error h k.
Proof.
  intros h i x Hx Ht; unfold normalise_at; rewrite (nth_res_some _ _ _ _ Hx); cbn [bind].
  exists (update h i (normalise x)); split.
  - destruct (m_type x); try reflexivity; contradiction.
  - intros k; rewrite update_nth; destruct (Nat.eqb_spec k i) as [->|]; auto.
    rewrite Hx; reflexivity.
Qed.

Lemma normalise_at_inv : forall h i h', normalise_at h i = Ok h' ->
  exists x, nth_error h i = Some x /\ m_type x <> Integer.
Proof.
  intros h i h' H; unfold normalise_at in H; destruct (nth_error h i) as [x|] eqn:E.
  - rewrite (nth_res_some _ _ _ _ E) in H; cbn [bind] in H; exists x; split; auto.
    destruct (m_type x); discriminate.
  - rewrite (nth_res_none _ _ _ E) in H; discriminate.
Qed.

Lemma normalise_both : forall h i j x y, nth_error h i = Some x -> nth_error h j = Some y ->
  m_type x <> Integer -> m_type y <> Integer ->
  exists h0 h1, normalise_at h i = Ok h0 /\ normalise_at h0 j = Ok h1 /\
    nth_res h1 i = Ok (normalise x) /\ nth_res h1 j = Ok (normalise y) /\
    (forall k, nth_error h1 k = if ((k =? i) || (k =? j))%nat then option_map normalise (nth_error h k) else nth_error h k).
Proof.
  intros h i j x y Hx Hy Tx Ty.
  destruct (normalise_at_spec h i x Hx Tx) as (h0 & E0 & N0).
  assert (Hj : exists y', nth_error h0 j = Some y' /\ m_type y' <> Integer).
  { rewrite N0, Hy; destruct (j =? i)%nat; [exists (normalise y)|exists y]; auto. }
  destruct Hj as (y' & Hy' & Ty').
  destruct (normalise_at_spec h0 j y' Hy' Ty') as (h1 & E1 & N1).
  exists h0, h1; split; [exact E0|]; split; [exact E1|].
  assert (N : forall k, nth_error h1 k = if ((k =? i) || (k =? j))%nat then option_map normalise (nth_error h k) else nth_error h k).
  { intros k; rewrite N1, N0; destruct (k =? i)%nat, (k =? j)%nat; cbn [orb]; auto.
    destruct (nth_error h k); cbn; auto; rewrite normalise_idem; reflexivity. }
  repeat split; auto.
  - apply nth_res_some; rewrite N, Nat.eqb_refl, Hx; reflexivity.
  - apply nth_res_some; rewrite N, Nat.eqb_refl, orb_true_r, Hy; reflexivity.
Qed.

(** ** The value of a call *)

Definition js_value (x y : list (list num)) : matrix :=
  let mid := fun r s => map2 (fun a b => lift1 (fun v => v / 2) (lift2 Rplus a b)) r s in
  let x_m := outer (fun r s => nsum (map2 (lift2 Rmult) r (map nlog (mid r s)))) x y in
  let y_m := outer (fun r s => nsum (map2 (lift2 Rmult) s (map nlog (mid r s)))) x y in
  let x_x := outer (fun r _ => nsum (map2 (lift2 Rmult) r (map nlog r))) x y in
  let y_y := transpose (length x)
               (outer (fun s _ => nsum (map2 (lift2 Rmult) s (map nlog s))) y x) in
  mmap2 (lift2 Rplus) (mmap (lift1 (Rmult 0.5)) (mmap2 (lift2 Rminus) x_x x_m))
                      (mmap (lift1 (Rmult 0.5)) (mmap2 (lift2 Rminus) y_y y_m)).

Definition value (m : metric) (x y : mat) : res matrix :=
  match m with
  | NormalizedCosine => cosine_distance x y
  | KullbackLeibler thr sym _ =>
      let xr := m_rows (if thr then smooth x else x) in
      let yr := m_rows (if thr then smooth y else y) in
      Ok (if sym
          then mmap2 (lift2 Rplus) (mmap (lift1 (Rmult 0.5)) (kl_matrix xr yr))
                     (mmap (lift1 (Rmult 0.5)) (transpose (length xr) (kl_matrix yr xr)))
          else kl_matrix xr yr)
  | JensenShannon _ => Ok (js_value (m_rows x) (m_rows y))
  | SqrtJensenShannon => Ok (mmap nsqrt (js_value (m_rows x) (m_rows y)))
  | HellingerMetric =>
      let xr := map (map nsqrt) (m_rows x) in
      let yr := map (map nsqrt) (m_rows y) in
      Ok (mmap (lift1 (Rmult (1 / sqrt 2)))
            (outer (fun r s => nsqrt (nsum (map (lift1 (fun v => v ^ 2)) (map2 (lift2 Rminus) r s)))) xr yr))
  end.

Definition checks_sums (m : metric) : bool :=
  match m with
  | JensenShannon _ | SqrtJensenShannon | HellingerMetric => true
  | _ => false
  end.

Definition normalisesb (m : metric) : bool :=
  match m with
  | KullbackLeibler thr _ nrm => thr || nrm
  | JensenShannon nrm => nrm
  | _ => true
  end.

Lemma normalisesb_spec : forall m, normalisesb m = true <-> normalises m.
Proof.
  intros [| [|] sym [|] | [|] | |]; cbn; split; intuition congruence.
Qed.

Definition guarded (m : metric) (x y : mat) : res matrix :=
  assert! same_float x y else AssertionError ;;
  assert! (if checks_sums m then no_zero_sum x && no_zero_sum y else true) else AssertionError ;;
  assert! same_cols x y else ValueError ;;
  if normalisesb m then value m (normalise x) (normalise y) else value m x y.

Lemma same_float_types : forall x y, same_float x y = true -> m_type x <> Integer /\ m_type y <> Integer.
Proof.
  intros [tx ? ?] [ty ? ?]; unfold same_float; cbn; destruct tx, ty; intros; try discriminate;
    split; discriminate.
Qed.

Definition touched (m : metric) (h h1 : heap) (i j : nat) : Prop :=
  forall k, nth_error h1 k =
    if normalisesb m && ((k =? i) || (k =? j))%nat then option_map normalise (nth_error h k)
    else nth_error h k.

Lemma touched_same : forall m h i j, normalisesb m = false -> touched m h h i j.
Proof. intros m h i j H k; rewrite H; reflexivity. Qed.

Lemma run_guarded : forall m h i j x y, nth_error h i = Some x -> nth_error h j = Some y ->
  m_type x <> Integer -> m_type y <> Integer ->
  exists h1, touched m h h1 i j /\ run m h i j = (d <- guarded m x y ;; Ok (h1, d)).
Proof.
  intros m h i j x y Hx Hy Ix Iy.
  pose proof (nth_res_some _ _ _ _ Hx) as Rx; pose proof (nth_res_some _ _ _ _ Hy) as Ry.
  destruct (normalise_both h i j x y Hx Hy Ix Iy) as (h0 & h1 & E0 & E1 & R1 & R2 & T).
  assert (C : same_cols (normalise x) (normalise y) = same_cols x y) by reflexivity.
  assert (F : same_float (normalise x) (normalise y) = same_float x y) by reflexivity.
  destruct m as [| thr sym nrm | nrm | | ]; unfold run.
  - exists h1; split; [intros k; apply T|].
    unfold normalize_cosine_distance; rewrite E0; cbn [bind]; rewrite E1; cbn [bind].
    rewrite R1; cbn [bind]; rewrite R2; cbn [bind].
    unfold guarded, value; cbn [normalisesb checks_sums].
    unfold cosine_distance; rewrite F, C.
    destruct (same_float x y); cbn [bind]; [|reflexivity].
    destruct (same_cols x y); cbn [bind]; reflexivity.
  - unfold kl_divergence, guarded; rewrite Rx; cbn [bind]; rewrite Ry; cbn [bind checks_sums].
    destruct (same_float x y); cbn [bind]; [|exists (if thr || nrm then h1 else h); split;
      [intros k; cbn [normalisesb]; destruct (thr || nrm); [apply T|reflexivity]|reflexivity]].
    cbn [normalisesb]; destruct thr; [|destruct nrm]; cbn [orb].
    + exists h1; split; [intros k; apply T|].
      rewrite E0; cbn [bind]; rewrite E1; cbn [bind]; rewrite R1; cbn [bind]; rewrite R2; cbn [bind].
      rewrite C; destruct (same_cols x y); cbn [bind]; reflexivity.
    + exists h1; split; [intros k; apply T|].
      rewrite E0; cbn [bind]; rewrite E1; cbn [bind]; rewrite R1; cbn [bind]; rewrite R2; cbn [bind].
      rewrite C; destruct (same_cols x y); cbn [bind]; reflexivity.
    + exists h; split; [intros k; reflexivity|].
      cbn [bind]; rewrite Rx; cbn [bind]; rewrite Ry; cbn [bind].
      destruct (same_cols x y); cbn [bind]; reflexivity.
  - exists (if nrm then h1 else h); split; [intros k; cbn [normalisesb]; destruct nrm; [apply T|reflexivity]|].
    unfold js_divergence, guarded; rewrite Rx; cbn [bind]; rewrite Ry; cbn [bind checks_sums].
    destruct (same_float x y); cbn [bind]; [|reflexivity].
    destruct (no_zero_sum x && no_zero_sum y); cbn [bind]; [|reflexivity].
    cbn [normalisesb]; destruct nrm.
    + rewrite E0; cbn [bind]; rewrite E1; cbn [bind]; rewrite R1; cbn [bind]; rewrite R2; cbn [bind].
      rewrite C; destruct (same_cols x y); cbn [bind]; reflexivity.
    + cbn [bind]; rewrite Rx; cbn [bind]; rewrite Ry; cbn [bind].
      destruct (same_cols x y); cbn [bind]; reflexivity.
  - exists h1; split; [intros k; apply T|].
    unfold sqrt_js_divergence, js_divergence, guarded; rewrite Rx; cbn [bind]; rewrite Ry; cbn [bind checks_sums].
    destruct (same_float x y); cbn [bind]; [|reflexivity].
    destruct (no_zero_sum x && no_zero_sum y); cbn [bind]; [|reflexivity].
    rewrite E0; cbn [bind]; rewrite E1; cbn [bind]; rewrite R1; cbn [bind]; rewrite R2; cbn [bind].
    rewrite C; destruct (same_cols x y); cbn [bind]; reflexivity.
  - exists h1; split; [intros k; apply T|].
    unfold hellinger_distance, guarded; rewrite Rx; cbn [bind]; rewrite Ry; cbn [bind checks_sums].
    destruct (same_float x y); cbn [bind]; [|reflexivity].
    destruct (no_zero_sum x && no_zero_sum y); cbn [bind]; [|reflexivity].
    rewrite E0; cbn [bind]; rewrite E1; cbn [bind]; rewrite R1; cbn [bind]; rewrite R2; cbn [bind].
    rewrite C; destruct (same_cols x y); cbn [bind]; reflexivity.
Qed.
