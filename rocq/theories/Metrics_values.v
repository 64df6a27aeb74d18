(** What the metrics return, and that they do not depend on the earlier calls. *)

From Coq Require Import Reals List Bool Arith Lia Lra Psatz.
From Verif Require Import Prelude Metrics Metrics_spec Metrics_proofs Metrics_cosine Metrics_kl Metrics_heap.
Import ListNotations.
Local Open Scope R_scope.

(** ** History *)

Definition reach (h h' : heap) : Prop :=
  forall k, nth_error h' k = nth_error h k \/ nth_error h' k = option_map normalise (nth_error h k).

Lemma reach_refl : forall h, reach h h.
Proof. intros h k; left; reflexivity. Qed.

Lemma reach_trans : forall a b c, reach a b -> reach b c -> reach a c.
Proof.
  intros a b c H1 H2 k; destruct (H1 k) as [E1|E1], (H2 k) as [E2|E2]; rewrite E1 in E2; auto.
  right; rewrite E2; destruct (nth_error a k); cbn; auto; rewrite normalise_idem; reflexivity.
Qed.

Lemma touched_reach : forall m h h1 i j, touched m h h1 i j -> reach h h1.
Proof.
  intros m h h1 i j T k; rewrite (T k).
  destruct (normalisesb m && ((k =? i) || (k =? j))%nat); auto.
Qed.

Lemma normalise_array : forall t w xs, Forall (fun x => total x <> 0) xs ->
  normalise (array t w xs) = array t w (map prob xs).
Proof.
  intros t w xs H; unfold normalise, array; cbn; f_equal; rewrite !map_map.
  induction H; cbn; f_equal; auto; apply normalise_row_some; assumption.
Qed.

Lemma proper_normalise : forall a, proper a -> proper (normalise a).
Proof.
  intros a (t & w & xs & Ht & -> & H); exists t, w, (map prob xs); split; auto; split.
  - apply normalise_array; assumption.
  - rewrite Forall_map; eapply Forall_impl; [|exact H]; cbn; intros x Hx.
    rewrite total_prob by assumption; lra.
Qed.

Lemma proper_reach : forall h h', reach h h' -> Forall proper h -> Forall proper h'.
Proof.
  intros h h' R H; rewrite Forall_forall in *; intros a Ha; apply In_nth_error in Ha.
  destruct Ha as (k & Hk); destruct (R k) as [E|E]; rewrite E in Hk.
  - apply H; eapply nth_error_In; eassumption.
  - destruct (nth_error h k) as [b|] eqn:Eb; cbn in Hk; [|discriminate].
    injection Hk as <-; apply proper_normalise, H; eapply nth_error_In; eassumption.
Qed.

Lemma proper_type : forall a, proper a -> m_type a <> Integer.
Proof. intros a (t & w & xs & [->| ->] & -> & _); discriminate. Qed.

Lemma proper_sums : forall a, proper a -> no_zero_sum a = true.
Proof.
  intros a (t & w & xs & _ & -> & H); unfold no_zero_sum; cbn; rewrite forallb_forall.
  intros r Hr; apply in_map_iff in Hr; destruct Hr as (x & <- & Hx).
  rewrite Forall_forall in H; rewrite nsum_some; cbn.
  destruct (Req_EM_T (total x) 0) as [E|]; auto; exfalso; exact (H x Hx E).
Qed.

Lemma run_missing_l : forall m h i j, nth_error h i = None -> run m h i j = Err IndexError.
Proof.
  intros m h i j H; pose proof (nth_res_none _ _ _ H) as R.
  destruct m; unfold run, normalize_cosine_distance, normalise_at, kl_divergence, sqrt_js_divergence,
    js_divergence, hellinger_distance; rewrite R; reflexivity.
Qed.

Lemma run_missing_r : forall m h i j x, nth_error h i = Some x -> m_type x <> Integer ->
  nth_error h j = None -> run m h i j = Err IndexError.
Proof.
  intros m h i j x Hx Tx H; pose proof (nth_res_none _ _ _ H) as R.
  pose proof (nth_res_some _ _ _ _ Hx) as Rx.
  destruct m; unfold run, kl_divergence, sqrt_js_divergence, js_divergence, hellinger_distance;
    try (rewrite Rx; cbn [bind]; rewrite R; reflexivity).
  unfold normalize_cosine_distance.
  destruct (normalise_at_spec h i x Hx Tx) as (h0 & E0 & N0); rewrite E0; cbn [bind].
  unfold normalise_at; rewrite nth_res_none; [reflexivity|].
  rewrite N0, H; destruct (j =? i)%nat; reflexivity.
Qed.

Lemma run_reach : forall m h i j h1 d, Forall proper h -> run m h i j = Ok (h1, d) -> reach h h1.
Proof.
  intros m h i j h1 d H E.
  destruct (nth_error h i) as [x|] eqn:Hx; [|rewrite run_missing_l in E by assumption; discriminate].
  assert (Px : proper x) by (rewrite Forall_forall in H; apply H; eapply nth_error_In; eassumption).
  destruct (nth_error h j) as [y|] eqn:Hy;
    [|rewrite (run_missing_r m h i j x Hx) in E by (auto using proper_type); discriminate].
  assert (Py : proper y) by (rewrite Forall_forall in H; apply H; eapply nth_error_In; eassumption).
  destruct (run_guarded m h i j x y Hx Hy (proper_type x Px) (proper_type y Py)) as (h2 & T & R).
  rewrite R in E; destruct (guarded m x y); cbn in E; [|discriminate].
  injection E as <- <-; eapply touched_reach; eassumption.
Qed.

Lemma run_all_reach : forall calls h h', Forall proper h -> run_all calls h = Ok h' -> reach h h'.
Proof.
  induction calls as [|((m, i), j) calls IH]; intros h h' H E; cbn [run_all] in E.
  - injection E as <-; apply reach_refl.
  - destruct (run m h i j) as [(h1, d)|] eqn:Er; cbn [bind fst] in E; [|discriminate].
    pose proof (run_reach m h i j h1 d H Er) as R.
    eapply reach_trans; [exact R|]; apply IH; auto; eapply proper_reach; eassumption.
Qed.

Lemma reach_at : forall h h' k x, reach h h' -> nth_error h k = Some x ->
  exists x', nth_error h' k = Some x' /\ (x' = x \/ x' = normalise x).
Proof.
  intros h h' k x R H; destruct (R k) as [E|E]; rewrite H in E; cbn in E; eauto.
Qed.

Lemma guarded_reach : forall m x y x' y', normalisesb m = true -> proper x -> proper y ->
  x' = x \/ x' = normalise x -> y' = y \/ y' = normalise y ->
  guarded m x' y' = guarded m x y.
Proof.
  intros m x y x' y' Hm Px Py Hx Hy; unfold guarded; rewrite Hm.
  assert (Px' : proper x') by (destruct Hx as [->| ->]; auto using proper_normalise).
  assert (Py' : proper y') by (destruct Hy as [->| ->]; auto using proper_normalise).
  rewrite (proper_sums x), (proper_sums y), (proper_sums x'), (proper_sums y') by assumption.
  destruct Hx as [->| ->], Hy as [->| ->]; rewrite ?normalise_idem; reflexivity.
Qed.

Lemma history : forall calls h h' m i j, Forall proper h -> run_all calls h = Ok h' ->
  normalises m -> returned (run m h' i j) = returned (run m h i j).
Proof.
  intros calls h h' m i j H E Hm; apply normalisesb_spec in Hm.
  pose proof (run_all_reach calls h h' H E) as R.
  pose proof (proper_reach h h' R H) as H'.
  destruct (nth_error h i) as [x|] eqn:Hx.
  2:{ rewrite (run_missing_l m h i j Hx), run_missing_l; auto.
      destruct (R i) as [E1|E1]; rewrite E1, Hx; reflexivity. }
  destruct (reach_at _ _ _ _ R Hx) as (x' & Hx' & Cx).
  assert (Px : proper x) by (rewrite Forall_forall in H; apply H; eapply nth_error_In; eassumption).
  assert (Px' : proper x') by (rewrite Forall_forall in H'; apply H'; eapply nth_error_In; eassumption).
  destruct (nth_error h j) as [y|] eqn:Hy.
  2:{ rewrite (run_missing_r m h i j x Hx (proper_type x Px) Hy).
      rewrite (run_missing_r m h' i j x' Hx' (proper_type x' Px')); auto.
      destruct (R j) as [E1|E1]; rewrite E1, Hy; reflexivity. }
  destruct (reach_at _ _ _ _ R Hy) as (y' & Hy' & Cy).
  assert (Py : proper y) by (rewrite Forall_forall in H; apply H; eapply nth_error_In; eassumption).
  assert (Py' : proper y') by (rewrite Forall_forall in H'; apply H'; eapply nth_error_In; eassumption).
  destruct (run_guarded m h i j x y Hx Hy (proper_type x Px) (proper_type y Py)) as (h1 & _ & R1).
  destruct (run_guarded m h' i j x' y' Hx' Hy' (proper_type x' Px') (proper_type y' Py')) as (h2 & _ & R2).
  rewrite R1, R2, (guarded_reach m x y x' y') by assumption.
  destruct (guarded m x y); reflexivity.
Qed.

Lemma effect : forall m h i j h1 d t w xs v ys, is_float t ->
  nth_error h i = Some (array t w xs) -> nth_error h j = Some (array t v ys) ->
  Forall (fun x => total x <> 0) xs -> Forall (fun y => total y <> 0) ys ->
  run m h i j = Ok (h1, d) ->
  (normalises m ->
     nth_error h1 i = Some (array t w (map prob xs)) /\
     nth_error h1 j = Some (array t v (map prob ys)) /\
     forall k, k <> i -> k <> j -> nth_error h1 k = nth_error h k) /\
  (~ normalises m -> forall k, nth_error h1 k = nth_error h k).
Proof.
  intros m h i j h1 d t w xs v ys Ht Hx Hy Nx Ny E.
  assert (Ix : m_type (array t w xs) <> Integer) by (destruct Ht as [->| ->]; discriminate).
  assert (Iy : m_type (array t v ys) <> Integer) by (destruct Ht as [->| ->]; discriminate).
  destruct (run_guarded m h i j _ _ Hx Hy Ix Iy) as (h2 & T & R).
  rewrite R in E; destruct (guarded m (array t w xs) (array t v ys)); cbn in E; [|discriminate].
  injection E as <- <-; rewrite <- normalisesb_spec; split.
  - intros N; unfold touched in T; rewrite N in T; cbn [andb] in T; repeat split.
    + rewrite T, Nat.eqb_refl, Hx; cbn [orb option_map]; rewrite normalise_array by assumption; reflexivity.
    + rewrite T, Nat.eqb_refl, orb_true_r, Hy; cbn [option_map]; rewrite normalise_array by assumption; reflexivity.
    + intros k Hi Hj; rewrite T; apply Nat.eqb_neq in Hi, Hj; rewrite Hi, Hj; reflexivity.
  - intros N k; rewrite (T k); destruct (normalisesb m); [contradiction|reflexivity].
Qed.

(** ** Values *)

Lemma log_dot : forall p q, positive q ->
  dot (map Some p) (map nlog (map Some q)) = Some (inner p (map ln q)).
Proof. intros p q H; rewrite nlog_map by assumption; apply dot_some. Qed.

Lemma inner_logs : forall p q, length p = length q -> positive p -> positive q ->
  inner p (map ln p) - inner p (map ln q) = KL p q.
Proof.
  intros p q L H; revert q L; induction H as [|a p Ha Hp IH]; intros [|b q] L Hq; cbn in *;
    try discriminate; [lra|].
  inversion Hq as [|? ? Hb Hq']; subst.
  rewrite <- (IH q) by (auto; lia); rewrite ln_div by assumption; lra.
Qed.

Definition rows (xs : list frame) : list (list num) := map (map Some) xs.

Lemma outer_rows : forall g xs ys, outer g (rows xs) (rows ys) = outer (fun x y => g (map Some x) (map Some y)) xs ys.
Proof. intros; unfold rows; apply outer_map. Qed.

Lemma kl_matrix_value : forall w xs ys, frames_of w xs -> frames_of w ys ->
  Forall positive xs -> Forall positive ys ->
  kl_matrix (rows xs) (rows ys) = outer (fun x y => Some (KL x y)) xs ys.
Proof.
  intros w xs ys Wx Wy Px Py; unfold kl_matrix.
  rewrite !outer_rows, mmap2_outer; apply outer_ext; intros x y Hx Hy.
  unfold frames_of in Wx, Wy; rewrite Forall_forall in Wx, Wy, Px, Py.
  rewrite log_dot by auto; fold (dot (map Some x) (map nlog (map Some x))).
  rewrite log_dot by auto; cbn [lift2]; f_equal; apply inner_logs; auto.
  rewrite Wx, Wy by assumption; reflexivity.
Qed.

Lemma kl_result : forall (sym : bool) w xs ys, frames_of w xs -> frames_of w ys ->
  Forall positive xs -> Forall positive ys ->
  (if sym
   then mmap2 (lift2 Rplus) (mmap (lift1 (Rmult 0.5)) (kl_matrix (rows xs) (rows ys)))
          (mmap (lift1 (Rmult 0.5)) (transpose (length (rows xs)) (kl_matrix (rows ys) (rows xs))))
   else kl_matrix (rows xs) (rows ys))
  = outer (fun x y => Some ((if sym then KL_symmetric else KL) x y)) xs ys.
Proof.
  intros sym w xs ys Wx Wy Px Py.
  rewrite (kl_matrix_value w xs ys), (kl_matrix_value w ys xs) by assumption.
  unfold rows; rewrite map_length, transpose_outer; destruct sym; [|reflexivity].
  rewrite !mmap_outer, mmap2_outer; apply outer_ext; intros x y _ _; cbn; f_equal.
  unfold KL_symmetric; lra.
Qed.

Lemma all_pairs_outer : forall (f : frame -> frame -> num) xs ys, all_pairs f xs ys = outer f xs ys.
Proof. reflexivity. Qed.

Lemma frames_map : forall w xs (f : frame -> frame), frames_of w xs -> (forall x, length (f x) = length x) ->
  frames_of w (map f xs).
Proof.
  intros w xs f H Hf; unfold frames_of; rewrite Forall_map; eapply Forall_impl; [|exact H].
  cbn; intros x Hx; rewrite Hf; assumption.
Qed.

Lemma total_shift : forall e x, 0 <= e -> total x <= total (shift e x).
Proof. intros e x He; induction x as [|a x IH]; cbn; [lra|]; unfold shift in IH; lra. Qed.

Lemma precision_eps : forall t e, precision t e -> eps t = e /\ 0 < e.
Proof.
  intros t e [[-> ->]|[-> ->]]; (split; [reflexivity|]); apply Rinv_0_lt_compat, pow_lt; lra.
Qed.

Lemma smooth_array : forall t w e xs, precision t e ->
  Forall (fun x => nonnegative x /\ total x = 1) xs ->
  smooth (array t w xs) = array t w (map (fun x => prob (shift e x)) xs).
Proof.
  intros t w e xs He H; destruct (precision_eps t e He) as [Ee Pe].
  unfold smooth; cbn [array m_type m_cols m_rows]; rewrite Ee.
  replace (mk_mat t w (map (map (lift1 (fun v => v + e))) (map (map Some) xs)))
    with (array t w (map (shift e) xs)).
  - rewrite normalise_array, map_map; [reflexivity|].
    rewrite Forall_map; eapply Forall_impl; [|exact H]; cbn; intros x [_ T].
    pose proof (total_shift e x); lra.
  - unfold array; f_equal; rewrite !map_map; apply map_ext; intros x; unfold shift.
    rewrite !map_map; reflexivity.
Qed.

Lemma positive_total_w : forall w x, (0 < w)%nat -> length x = w -> positive x -> 0 < total x.
Proof.
  intros w x Hw Hx Px; destruct (positive_total x Px) as [->|]; auto; cbn in Hx; lia.
Qed.

Lemma usable_total : forall w thr x, (0 < w)%nat -> length x = w -> usable thr x -> 0 < total x.
Proof.
  intros w [|] x Hw Hx U; [apply U|eapply positive_total_w; eassumption].
Qed.

Lemma usable_totals : forall w thr xs, (0 < w)%nat -> frames_of w xs -> Forall (usable thr) xs ->
  Forall (fun x => total x <> 0) xs.
Proof.
  intros w thr xs Hw Wx U; unfold frames_of in Wx; rewrite Forall_forall in *; intros x Hx.
  pose proof (usable_total w thr x Hw (Wx x Hx) (U x Hx)); lra.
Qed.

Lemma prepared_length : forall thr nrm e x, length (prepared thr nrm e x) = length x.
Proof. intros [|] [|] e x; cbn; rewrite ?prob_length, ?shift_length, ?prob_length; reflexivity. Qed.

Lemma prepared_positive : forall thr nrm e x, 0 < e -> usable thr x -> positive (prepared thr nrm e x).
Proof.
  intros [|] nrm e x He U; cbn in *.
  - apply prob_positive, shift_positive; auto; apply prob_nonnegative; apply U.
  - destruct nrm; [apply prob_positive|]; assumption.
Qed.

Lemma kl_guarded : forall thr sym nrm t w e xs ys, precision t e -> is_float t -> (0 < w)%nat ->
  frames_of w xs -> frames_of w ys -> Forall (usable thr) xs -> Forall (usable thr) ys ->
  guarded (KullbackLeibler thr sym nrm) (array t w xs) (array t w ys)
  = Ok (all_pairs (fun x y => Some ((if sym then KL_symmetric else KL)
                                      (prepared thr nrm e x) (prepared thr nrm e y))) xs ys).
Proof.
  intros thr sym nrm t w e xs ys He Ht Hw Wx Wy Ux Uy.
  pose proof (usable_totals w thr xs Hw Wx Ux) as Tx; pose proof (usable_totals w thr ys Hw Wy Uy) as Ty.
  destruct (precision_eps t e He) as [_ Pe].
  assert (K : forall xs' ys', rows (map (prepared thr nrm e) xs) = xs' -> rows (map (prepared thr nrm e) ys) = ys' ->
     (if sym
      then mmap2 (lift2 Rplus) (mmap (lift1 (Rmult 0.5)) (kl_matrix xs' ys'))
             (mmap (lift1 (Rmult 0.5)) (transpose (length xs') (kl_matrix ys' xs')))
      else kl_matrix xs' ys')
     = outer (fun x y => Some ((if sym then KL_symmetric else KL) (prepared thr nrm e x) (prepared thr nrm e y))) xs ys).
  { intros xs' ys' <- <-; rewrite (kl_result sym w).
    - rewrite outer_map; reflexivity.
    - apply frames_map; auto using prepared_length.
    - apply frames_map; auto using prepared_length.
    - rewrite Forall_map; eapply Forall_impl; [|exact Ux]; cbn; intros; apply prepared_positive; assumption.
    - rewrite Forall_map; eapply Forall_impl; [|exact Uy]; cbn; intros; apply prepared_positive; assumption. }
  unfold guarded; rewrite same_float_array, same_cols_array by assumption; cbn [bind checks_sums].
  rewrite all_pairs_outer, !normalise_array by assumption.
  assert (S : forall zs, thr = true -> Forall (usable thr) zs ->
     Forall (fun x => nonnegative x /\ total x = 1) (map prob zs)).
  { intros zs -> U; rewrite Forall_map; eapply Forall_impl; [|exact U]; cbn; intros x [N T]; split.
    - apply prob_nonnegative; assumption.
    - apply total_prob; lra. }
  destruct thr; cbn [normalisesb orb value].
  - rewrite !(smooth_array t w e) by auto; rewrite !map_map.
    cbn [array m_rows]; rewrite <- (K (rows (map (fun x => prob (shift e (prob x))) xs)) (rows (map (fun x => prob (shift e (prob x))) ys)))
      by reflexivity; reflexivity.
  - destruct nrm; cbn [array m_rows].
    + rewrite <- (K (rows (map prob xs)) (rows (map prob ys))) by reflexivity; reflexivity.
    + rewrite <- (K (rows xs) (rows ys)) by (unfold prepared; rewrite map_id; reflexivity); reflexivity.
Qed.

Lemma kl_value : forall thr sym nrm t w e xs ys h i j, precision t e -> (0 < w)%nat ->
  frames_of w xs -> frames_of w ys -> Forall (usable thr) xs -> Forall (usable thr) ys ->
  nth_error h i = Some (array t w xs) -> nth_error h j = Some (array t w ys) ->
  returned (kl_divergence thr sym nrm h i j)
  = Ok (all_pairs (fun x y => Some ((if sym then KL_symmetric else KL)
                                      (prepared thr nrm e x) (prepared thr nrm e y))) xs ys).
Proof.
  intros thr sym nrm t w e xs ys h i j He Hw Wx Wy Ux Uy Hx Hy.
  assert (Ht : is_float t) by (destruct He as [[-> _]|[-> _]]; [left|right]; reflexivity).
  assert (I : t <> Integer) by (destruct Ht as [->| ->]; discriminate).
  destruct (run_guarded (KullbackLeibler thr sym nrm) h i j _ _ Hx Hy I I) as (h1 & _ & R).
  change (kl_divergence thr sym nrm h i j) with (run (KullbackLeibler thr sym nrm) h i j).
  rewrite R, (kl_guarded thr sym nrm t w e) by assumption; reflexivity.
Qed.

(** Jensen-Shannon. *)
Lemma mid_some : forall x y,
  map2 (fun a b => lift1 (fun v => v / 2) (lift2 Rplus a b)) (map Some x) (map Some y) = map Some (mean x y).
Proof.
  induction x as [|a x IH]; intros [|b y]; cbn; auto.
  unfold map2 in IH; f_equal; apply IH.
Qed.

Lemma js_value_some : forall w xs ys, frames_of w xs -> frames_of w ys ->
  Forall positive xs -> Forall positive ys ->
  js_value (rows xs) (rows ys) = outer (fun x y => Some (JS x y)) xs ys.
Proof.
  intros w xs ys Wx Wy Px Py; unfold js_value.
  replace (length (rows xs)) with (length xs) by (unfold rows; rewrite map_length; reflexivity).
  rewrite !outer_rows, transpose_outer.
  repeat (rewrite ?mmap2_outer, ?mmap_outer); apply outer_ext; intros x y Hx Hy.
  unfold frames_of in Wx, Wy; rewrite Forall_forall in Wx, Wy, Px, Py.
  specialize (Px x Hx); specialize (Py y Hy).
  assert (L : length x = length y) by (rewrite Wx, Wy by assumption; reflexivity).
  rewrite mid_some.
  fold (dot (map Some x) (map nlog (map Some x))); fold (dot (map Some y) (map nlog (map Some y))).
  fold (dot (map Some x) (map nlog (map Some (mean x y)))).
  fold (dot (map Some y) (map nlog (map Some (mean x y)))).
  rewrite !log_dot by (auto; apply mean_positive; assumption).
  cbn [lift1 lift2]; f_equal.
  rewrite !inner_logs; auto using mean_positive.
  - unfold JS; lra.
  - rewrite mean_length; auto.
  - rewrite mean_length; auto.
Qed.

Lemma sums_array : forall t w xs, Forall (fun x => total x <> 0) xs -> no_zero_sum (array t w xs) = true.
Proof.
  intros t w xs H; unfold no_zero_sum; cbn; rewrite forallb_forall.
  intros r Hr; apply in_map_iff in Hr; destruct Hr as (x & <- & Hx).
  rewrite Forall_forall in H; rewrite nsum_some; cbn.
  destruct (Req_EM_T (total x) 0) as [E|]; auto; exfalso; exact (H x Hx E).
Qed.

Lemma js_guarded : forall nrm t w xs ys, is_float t -> (0 < w)%nat ->
  frames_of w xs -> frames_of w ys -> Forall positive xs -> Forall positive ys ->
  guarded (JensenShannon nrm) (array t w xs) (array t w ys)
  = Ok (all_pairs (fun x y => Some (if nrm then JS (prob x) (prob y) else JS x y)) xs ys).
Proof.
  intros nrm t w xs ys Ht Hw Wx Wy Px Py.
  pose proof (usable_totals w false xs Hw Wx Px) as Tx; pose proof (usable_totals w false ys Hw Wy Py) as Ty.
  unfold guarded; rewrite same_float_array, same_cols_array, !sums_array by assumption.
  cbn [bind checks_sums andb normalisesb value]; rewrite !normalise_array by assumption.
  destruct nrm; cbn [array m_rows]; f_equal.
  - change (js_value (rows (map prob xs)) (rows (map prob ys)) =
            all_pairs (fun x y => Some (JS (prob x) (prob y))) xs ys).
    rewrite (js_value_some w), outer_map; [reflexivity| | | |].
    + apply frames_map; auto using prob_length.
    + apply frames_map; auto using prob_length.
    + rewrite Forall_map; eapply Forall_impl; [|exact Px]; cbn; intros; apply prob_positive; assumption.
    + rewrite Forall_map; eapply Forall_impl; [|exact Py]; cbn; intros; apply prob_positive; assumption.
  - apply (js_value_some w); assumption.
Qed.

Lemma js_value_run : forall nrm t w xs ys h i j, is_float t -> (0 < w)%nat ->
  frames_of w xs -> frames_of w ys -> Forall positive xs -> Forall positive ys ->
  nth_error h i = Some (array t w xs) -> nth_error h j = Some (array t w ys) ->
  returned (js_divergence nrm h i j)
  = Ok (all_pairs (fun x y => Some (if nrm then JS (prob x) (prob y) else JS x y)) xs ys).
Proof.
  intros nrm t w xs ys h i j Ht Hw Wx Wy Px Py Hx Hy.
  assert (I : t <> Integer) by (destruct Ht as [->| ->]; discriminate).
  destruct (run_guarded (JensenShannon nrm) h i j _ _ Hx Hy I I) as (h1 & _ & R).
  change (js_divergence nrm h i j) with (run (JensenShannon nrm) h i j).
  rewrite R, (js_guarded nrm t w) by assumption; reflexivity.
Qed.

Lemma prob_total_w : forall w x, (0 < w)%nat -> length x = w -> positive x -> total (prob x) = 1.
Proof. intros w x Hw Hx Px; apply total_prob; pose proof (positive_total_w w x Hw Hx Px); lra. Qed.

Lemma sqrt_js_value_run : forall t w xs ys h i j, is_float t -> (0 < w)%nat ->
  frames_of w xs -> frames_of w ys -> Forall positive xs -> Forall positive ys ->
  nth_error h i = Some (array t w xs) -> nth_error h j = Some (array t w ys) ->
  returned (sqrt_js_divergence h i j)
  = Ok (all_pairs (fun x y => Some (sqrt (JS (prob x) (prob y)))) xs ys).
Proof.
  intros t w xs ys h i j Ht Hw Wx Wy Px Py Hx Hy.
  pose proof (js_value_run true t w xs ys h i j Ht Hw Wx Wy Px Py Hx Hy) as E.
  unfold sqrt_js_divergence, returned in *; destruct (js_divergence true h i j) as [(h1, d)|]; cbn [bind fst snd] in *;
    [|discriminate].
  injection E as ->; f_equal; rewrite !all_pairs_outer, mmap_outer; apply outer_ext; intros x y Ix Iy.
  unfold frames_of in Wx, Wy; rewrite Forall_forall in Wx, Wy, Px, Py.
  apply nsqrt_some; apply JS_lower.
  - rewrite !prob_length, Wx, Wy; auto.
  - apply prob_positive; auto.
  - apply prob_positive; auto.
  - rewrite !(prob_total_w w); auto.
Qed.

(** Hellinger. *)
Lemma sqdiff_some : forall x y,
  nsum (map (lift1 (fun v => v ^ 2)) (map2 (lift2 Rminus) (map Some x) (map Some y))) = Some (sqdiff x y).
Proof.
  intros x y; rewrite map2_lift, lift1_map, nsum_some; f_equal.
  revert y; induction x as [|a x IH]; intros [|b y]; [reflexivity..|].
  rewrite map2_cons; cbn [map total sqdiff]; rewrite IH; ring.
Qed.

Lemma hellinger_entry : forall p q, length p = length q -> nonnegative p -> nonnegative q ->
  total p = 1 -> total q = 1 ->
  1 / sqrt 2 * sqrt (sqdiff (map sqrt p) (map sqrt q)) = Hellinger p q.
Proof.
  intros p q L Hp Hq Tp Tq; unfold Hellinger; rewrite sqdiff_affinity, Tp, Tq by assumption.
  assert (A : affinity p q <= 1).
  { pose proof (sqdiff_affinity p q L Hp Hq); pose proof (sqdiff_nonneg (map sqrt p) (map sqrt q)); lra. }
  replace (1 + 1 - 2 * affinity p q) with (2 * (1 - affinity p q)) by ring.
  rewrite sqrt_mult by lra; field.
  apply Rgt_not_eq, sqrt_lt_R0; lra.
Qed.

Lemma hellinger_value : forall t w xs ys h i j, is_float t ->
  frames_of w xs -> frames_of w ys ->
  Forall (fun x => nonnegative x /\ 0 < total x) xs -> Forall (fun y => nonnegative y /\ 0 < total y) ys ->
  nth_error h i = Some (array t w xs) -> nth_error h j = Some (array t w ys) ->
  returned (hellinger_distance h i j)
  = Ok (all_pairs (fun x y => Some (Hellinger (prob x) (prob y))) xs ys).
Proof.
  intros t w xs ys h i j Ht Wx Wy Ux Uy Hx Hy.
  assert (I : t <> Integer) by (destruct Ht as [->| ->]; discriminate).
  destruct (run_guarded HellingerMetric h i j _ _ Hx Hy I I) as (h1 & _ & R).
  change (hellinger_distance h i j) with (run HellingerMetric h i j).
  rewrite R; clear R.
  assert (T : forall zs, Forall (fun x => nonnegative x /\ 0 < total x) zs -> Forall (fun x => total x <> 0) zs)
    by (intros zs H; eapply Forall_impl; [|exact H]; cbn; intros z [_ Hz]; lra).
  unfold guarded; rewrite same_float_array, same_cols_array, !sums_array by auto.
  cbn [bind checks_sums andb normalisesb value]; rewrite !normalise_array by auto.
  cbn [array m_rows]; unfold returned; cbn [bind snd]; f_equal.
  rewrite all_pairs_outer, !map_map, outer_map, mmap_outer; apply outer_ext; intros x y Ix Iy.
  unfold frames_of in Wx, Wy; rewrite Forall_forall in Wx, Wy, Ux, Uy.
  destruct (Ux x Ix) as [Nx Sx]; destruct (Uy y Iy) as [Ny Sy].
  rewrite !nsqrt_map by (apply prob_nonnegative; assumption).
  rewrite sqdiff_some, nsqrt_some by apply sqdiff_nonneg; cbn [lift1]; f_equal.
  apply hellinger_entry; auto using prob_nonnegative; try (apply total_prob; lra).
  rewrite !prob_length, Wx, Wy; auto.
Qed.

(** Point by point. *)
Lemma minus_logs : forall x y, positive x -> positive y ->
  map2 (lift2 Rminus) (map nlog (map Some x)) (map nlog (map Some y)) = map Some (map2 (fun a b => ln a - ln b) x y).
Proof.
  intros x y Hx Hy; rewrite !nlog_map, map2_lift, map2_map by assumption; reflexivity.
Qed.

Lemma kl_ptwise_value : forall x y, positive x -> positive y ->
  kl_ptwise (map Some x) (map Some y) = Some (KL x y).
Proof.
  intros x y Hx Hy; unfold kl_ptwise; rewrite minus_logs, map2_lift, nsum_some by assumption; f_equal.
  revert y Hy; induction Hx as [|a x Ha Hx IH]; intros y Hy; [reflexivity|].
  destruct Hy as [|b y Hb Hy]; [reflexivity|].
  rewrite !map2_cons; cbn [total KL]; rewrite IH, ln_div by assumption; reflexivity.
Qed.

Lemma js_ptwise_value : forall x y, positive x -> positive y ->
  js_ptwise (map Some x) (map Some y) = Some (JS x y).
Proof.
  intros x y Hx Hy; unfold js_ptwise; rewrite mid_some, !kl_ptwise_value by (auto using mean_positive).
  cbn; f_equal; unfold JS; lra.
Qed.

(** ** Laws of the results *)

Lemma usable_prepared_total : forall w thr nrm e x, 0 < e -> (0 < w)%nat -> length x = w ->
  usable thr x -> thr || nrm = true -> total (prepared thr nrm e x) = 1.
Proof.
  intros w thr nrm e x He Hw Hx U N; pose proof (usable_total w thr x Hw Hx U) as T.
  destruct thr; cbn in *; [|destruct nrm; [|discriminate]]; apply total_prob; [|lra].
  pose proof (total_shift e (prob x)) as S; rewrite total_prob in S; lra.
Qed.

Lemma nth_frames : forall w xs i x, frames_of w xs -> nth_error xs i = Some x -> length x = w.
Proof.
  intros w xs i x H E; unfold frames_of in H; rewrite Forall_forall in H; apply H.
  eapply nth_error_In; eassumption.
Qed.

Lemma nth_usable : forall (P : frame -> Prop) xs i x, Forall P xs -> nth_error xs i = Some x -> P x.
Proof. intros P xs i x H E; rewrite Forall_forall in H; apply H; eapply nth_error_In; eassumption. Qed.

Lemma kl_laws : forall thr sym nrm t w e xs ys h i j d, precision t e -> (0 < w)%nat ->
  thr || nrm = true ->
  frames_of w xs -> frames_of w ys -> Forall (usable thr) xs -> Forall (usable thr) ys ->
  nth_error h i = Some (array t w xs) -> nth_error h j = Some (array t w ys) ->
  returned (kl_divergence thr sym nrm h i j) = Ok d ->
  forall k l x y, nth_error xs k = Some x -> nth_error ys l = Some y ->
  exists v, entry d k l = Some v /\ 0 <= v /\
    (v = 0 <-> prepared thr nrm e x = prepared thr nrm e y).
Proof.
  intros thr sym nrm t w e xs ys h i j d He Hw N Wx Wy Ux Uy Hx Hy E k l x y Kx Ky.
  rewrite (kl_value thr sym nrm t w e xs ys h i j) in E by assumption; injection E as <-.
  eexists; split; [exact (entry_all_pairs _ (fun x y => (if sym then KL_symmetric else KL)
      (prepared thr nrm e x) (prepared thr nrm e y)) _ _ _ _ _ _ Kx Ky)|].
  destruct (precision_eps t e He) as [_ Pe].
  pose proof (nth_frames _ _ _ _ Wx Kx) as Lx; pose proof (nth_frames _ _ _ _ Wy Ky) as Ly.
  pose proof (nth_usable _ _ _ _ Ux Kx) as Vx; pose proof (nth_usable _ _ _ _ Uy Ky) as Vy.
  set (p := prepared thr nrm e x); set (q := prepared thr nrm e y).
  assert (L : length p = length q) by (unfold p, q; rewrite !prepared_length; congruence).
  assert (Pp : positive p) by (apply prepared_positive; assumption).
  assert (Pq : positive q) by (apply prepared_positive; assumption).
  assert (T : total p = total q).
  { unfold p, q; rewrite (usable_prepared_total w), (usable_prepared_total w); auto. }
  destruct (KL_nonneg p q L Pp Pq T) as [A1 A2].
  destruct (KL_nonneg q p (eq_sym L) Pq Pp (eq_sym T)) as [B1 B2].
  destruct sym; unfold KL_symmetric; [|tauto].
  split; [lra|split; [intros Z; apply A2; lra|]].
  intros Q; rewrite (proj2 A2 Q), (proj2 B2 (eq_sym Q)); lra.
Qed.

Lemma kl_symmetric : forall thr nrm t w e xs ys h i j d d', precision t e -> (0 < w)%nat ->
  frames_of w xs -> frames_of w ys -> Forall (usable thr) xs -> Forall (usable thr) ys ->
  nth_error h i = Some (array t w xs) -> nth_error h j = Some (array t w ys) ->
  returned (kl_divergence thr true nrm h i j) = Ok d ->
  returned (kl_divergence thr true nrm h j i) = Ok d' ->
  forall k l, (k < length xs)%nat -> (l < length ys)%nat -> entry d' l k = entry d k l.
Proof.
  intros thr nrm t w e xs ys h i j d d' He Hw Wx Wy Ux Uy Hx Hy E E' k l Hk Hl.
  rewrite (kl_value thr true nrm t w e xs ys h i j) in E by assumption.
  rewrite (kl_value thr true nrm t w e ys xs h j i) in E' by assumption.
  injection E as <-; injection E' as <-.
  destruct (nth_error xs k) as [x|] eqn:Kx; [|apply nth_error_None in Kx; lia].
  destruct (nth_error ys l) as [y|] eqn:Ky; [|apply nth_error_None in Ky; lia].
  rewrite (entry_all_pairs _ (fun x y => KL_symmetric (prepared thr nrm e x) (prepared thr nrm e y)) _ _ _ _ _ _ Kx Ky).
  rewrite (entry_all_pairs _ (fun x y => KL_symmetric (prepared thr nrm e x) (prepared thr nrm e y)) _ _ _ _ _ _ Ky Kx).
  f_equal; unfold KL_symmetric; lra.
Qed.

Lemma js_laws : forall t w xs ys h i j d d', is_float t -> (0 < w)%nat ->
  frames_of w xs -> frames_of w ys -> Forall positive xs -> Forall positive ys ->
  nth_error h i = Some (array t w xs) -> nth_error h j = Some (array t w ys) ->
  returned (js_divergence true h i j) = Ok d ->
  returned (js_divergence true h j i) = Ok d' ->
  forall k l x y, nth_error xs k = Some x -> nth_error ys l = Some y ->
  exists v, entry d k l = Some v /\ entry d' l k = Some v /\ 0 <= v <= ln 2 /\
    (v = 0 <-> prob x = prob y).
Proof.
  intros t w xs ys h i j d d' Ht Hw Wx Wy Ux Uy Hx Hy E E' k l x y Kx Ky.
  rewrite (js_value_run true t w xs ys h i j) in E by assumption.
  rewrite (js_value_run true t w ys xs h j i) in E' by assumption.
  injection E as <-; injection E' as <-.
  exists (JS (prob x) (prob y)); split.
  { exact (entry_all_pairs _ (fun x y => JS (prob x) (prob y)) _ _ _ _ _ _ Kx Ky). }
  split.
  { rewrite JS_sym; exact (entry_all_pairs _ (fun x y => JS (prob x) (prob y)) _ _ _ _ _ _ Ky Kx). }
  pose proof (nth_frames _ _ _ _ Wx Kx) as Lx; pose proof (nth_frames _ _ _ _ Wy Ky) as Ly.
  pose proof (nth_usable _ _ _ _ Ux Kx) as Vx; pose proof (nth_usable _ _ _ _ Uy Ky) as Vy.
  assert (L : length (prob x) = length (prob y)) by (rewrite !prob_length; congruence).
  pose proof (prob_positive x Vx) as Px; pose proof (prob_positive y Vy) as Py.
  pose proof (prob_total_w w x Hw Lx Vx) as Tx; pose proof (prob_total_w w y Hw Ly Vy) as Ty.
  destruct (JS_lower (prob x) (prob y) L Px Py ltac:(lra)) as [A B].
  pose proof (JS_upper (prob x) (prob y) L Px Py) as U; rewrite Tx, Ty in U.
  split; [lra|exact B].
Qed.

Lemma sqrt_zero_iff : forall v, 0 <= v -> (sqrt v = 0 <-> v = 0).
Proof. intros v H; split; [apply sqrt_eq_0; assumption|intros ->; apply sqrt_0]. Qed.

Lemma sqrt_js_laws : forall t w xs ys h i j d d', is_float t -> (0 < w)%nat ->
  frames_of w xs -> frames_of w ys -> Forall positive xs -> Forall positive ys ->
  nth_error h i = Some (array t w xs) -> nth_error h j = Some (array t w ys) ->
  returned (sqrt_js_divergence h i j) = Ok d ->
  returned (sqrt_js_divergence h j i) = Ok d' ->
  forall k l x y, nth_error xs k = Some x -> nth_error ys l = Some y ->
  exists v, entry d k l = Some v /\ entry d' l k = Some v /\ 0 <= v <= sqrt (ln 2) /\
    (v = 0 <-> prob x = prob y).
Proof.
  intros t w xs ys h i j d d' Ht Hw Wx Wy Ux Uy Hx Hy E E' k l x y Kx Ky.
  rewrite (sqrt_js_value_run t w xs ys h i j) in E by assumption.
  rewrite (sqrt_js_value_run t w ys xs h j i) in E' by assumption.
  injection E as <-; injection E' as <-.
  exists (sqrt (JS (prob x) (prob y))); split.
  { exact (entry_all_pairs _ (fun x y => sqrt (JS (prob x) (prob y))) _ _ _ _ _ _ Kx Ky). }
  split.
  { rewrite JS_sym; exact (entry_all_pairs _ (fun x y => sqrt (JS (prob x) (prob y))) _ _ _ _ _ _ Ky Kx). }
  pose proof (nth_frames _ _ _ _ Wx Kx) as Lx; pose proof (nth_frames _ _ _ _ Wy Ky) as Ly.
  pose proof (nth_usable _ _ _ _ Ux Kx) as Vx; pose proof (nth_usable _ _ _ _ Uy Ky) as Vy.
  assert (L : length (prob x) = length (prob y)) by (rewrite !prob_length; congruence).
  pose proof (prob_positive x Vx) as Px; pose proof (prob_positive y Vy) as Py.
  pose proof (prob_total_w w x Hw Lx Vx) as Tx; pose proof (prob_total_w w y Hw Ly Vy) as Ty.
  destruct (JS_lower (prob x) (prob y) L Px Py ltac:(lra)) as [A B].
  pose proof (JS_upper (prob x) (prob y) L Px Py) as U; rewrite Tx, Ty in U.
  split; [split; [apply sqrt_pos|apply sqrt_le_1_alt; lra]|].
  rewrite sqrt_zero_iff by assumption; exact B.
Qed.

Definition mass (x : frame) : Prop := nonnegative x /\ 0 < total x.

Lemma prob_zero : forall x k a, nth_error x k = Some a -> 0 < total x ->
  (nth_error (prob x) k = Some 0 <-> a = 0).
Proof.
  intros x k a H T; unfold prob.
  rewrite (map_nth_error (fun v => v / total x) _ _ H); split; [intros [= E]|intros ->].
  - apply Rmult_eq_reg_r with (/ total x); [unfold Rdiv in E; lra|].
    apply Rinv_neq_0_compat; lra.
  - f_equal; unfold Rdiv; apply Rmult_0_l.
Qed.

Lemma disjoint_prob : forall x y, 0 < total x -> 0 < total y ->
  ((forall k a b, nth_error (prob x) k = Some a -> nth_error (prob y) k = Some b -> a = 0 \/ b = 0) <->
   (forall k a b, nth_error x k = Some a -> nth_error y k = Some b -> a = 0 \/ b = 0)).
Proof.
  intros x y Tx Ty; split; intros H k a b Ka Kb.
  - pose proof (map_nth_error (fun v => v / total x) _ _ Ka) as Pa.
    pose proof (map_nth_error (fun v => v / total y) _ _ Kb) as Pb.
    destruct (H k _ _ Pa Pb) as [E|E]; [left; apply (prob_zero x k a Ka Tx)|right; apply (prob_zero y k b Kb Ty)];
      unfold prob; [rewrite Pa|rewrite Pb]; rewrite E; reflexivity.
  - unfold prob in Ka, Kb.
    rewrite nth_error_map in Ka, Kb.
    destruct (nth_error x k) as [u|] eqn:Eu; [|discriminate].
    destruct (nth_error y k) as [v|] eqn:Ev; [|discriminate].
    cbn in Ka, Kb; injection Ka as <-; injection Kb as <-.
    destruct (H k u v Eu Ev) as [->| ->]; unfold Rdiv; rewrite Rmult_0_l; auto.
Qed.

Lemma hellinger_laws : forall t w xs ys h i j d d', is_float t ->
  frames_of w xs -> frames_of w ys ->
  Forall (fun x => nonnegative x /\ 0 < total x) xs -> Forall (fun y => nonnegative y /\ 0 < total y) ys ->
  nth_error h i = Some (array t w xs) -> nth_error h j = Some (array t w ys) ->
  returned (hellinger_distance h i j) = Ok d ->
  returned (hellinger_distance h j i) = Ok d' ->
  forall k l x y, nth_error xs k = Some x -> nth_error ys l = Some y ->
  exists v, entry d k l = Some v /\ entry d' l k = Some v /\ 0 <= v <= 1 /\
    (v = 0 <-> prob x = prob y) /\
    (v = 1 <-> forall m a b, nth_error x m = Some a -> nth_error y m = Some b -> a = 0 \/ b = 0).
Proof.
  intros t w xs ys h i j d d' Ht Wx Wy Ux Uy Hx Hy E E' k l x y Kx Ky.
  rewrite (hellinger_value t w xs ys h i j) in E by assumption.
  rewrite (hellinger_value t w ys xs h j i) in E' by assumption.
  injection E as <-; injection E' as <-.
  exists (Hellinger (prob x) (prob y)); split.
  { exact (entry_all_pairs _ (fun x y => Hellinger (prob x) (prob y)) _ _ _ _ _ _ Kx Ky). }
  split.
  { unfold Hellinger; rewrite affinity_sym.
    exact (entry_all_pairs _ (fun x y => Hellinger (prob x) (prob y)) _ _ _ _ _ _ Ky Kx). }
  pose proof (nth_frames _ _ _ _ Wx Kx) as Lx; pose proof (nth_frames _ _ _ _ Wy Ky) as Ly.
  destruct (nth_usable _ _ _ _ Ux Kx) as [Nx Tx]; destruct (nth_usable _ _ _ _ Uy Ky) as [Ny Ty].
  assert (L : length (prob x) = length (prob y)) by (rewrite !prob_length; congruence).
  pose proof (prob_nonnegative x Nx) as Px; pose proof (prob_nonnegative y Ny) as Py.
  destruct (Hellinger_range (prob x) (prob y) L Px Py) as (A & B & C); try (apply total_prob; lra).
  split; [exact A|split; [exact B|]].
  rewrite C, affinity_zero, disjoint_prob by assumption; reflexivity.
Qed.

(** ** Refusals *)

Lemma refused_types : forall m h i j x y, nth_error h i = Some x -> nth_error h j = Some y ->
  m_type x <> Integer -> m_type y <> Integer ->
  ~ (is_float (m_type x) /\ m_type y = m_type x) -> run m h i j = Err AssertionError.
Proof.
  intros m h i j x y Hx Hy Ix Iy N.
  destruct (run_guarded m h i j x y Hx Hy Ix Iy) as (h1 & _ & R); rewrite R.
  unfold guarded; replace (same_float x y) with false; [reflexivity|].
  destruct x as [tx ? ?], y as [ty ? ?]; unfold same_float; cbn in *.
  destruct tx, ty; auto; exfalso; apply N; unfold is_float; auto.
Qed.

Lemma refused_sums : forall m h i j t w v xs ys, is_float t ->
  nth_error h i = Some (array t w xs) -> nth_error h j = Some (array t v ys) ->
  (exists n, m = JensenShannon n) \/ m = SqrtJensenShannon \/ m = HellingerMetric ->
  (exists x, In x xs /\ total x = 0) \/ (exists y, In y ys /\ total y = 0) ->
  run m h i j = Err AssertionError.
Proof.
  intros m h i j t w v xs ys Ht Hx Hy Hm Z.
  assert (I : t <> Integer) by (destruct Ht as [->| ->]; discriminate).
  destruct (run_guarded m h i j _ _ Hx Hy I I) as (h1 & _ & R); rewrite R.
  unfold guarded; rewrite same_float_array by assumption; cbn [bind].
  replace (checks_sums m) with true by (destruct Hm as [[n ->]|[->| ->]]; reflexivity).
  assert (N : forall w zs, (exists z, In z zs /\ total z = 0) -> no_zero_sum (array t w zs) = false).
  { intros w' zs (z & Iz & Tz); unfold no_zero_sum; destruct (forallb _ _) eqn:F; [|reflexivity].
    rewrite forallb_forall in F; specialize (F (map Some z)).
    rewrite nsum_some in F; cbn in F; destruct (Req_EM_T (total z) 0); [|contradiction].
    exfalso; assert (false = true); [|discriminate]; apply F; apply in_map; assumption. }
  destruct Z as [Z|Z]; rewrite (N _ _ Z), ?andb_false_r; reflexivity.
Qed.

Lemma refused_width : forall m h i j t w v xs ys, is_float t -> w <> v ->
  nth_error h i = Some (array t w xs) -> nth_error h j = Some (array t v ys) ->
  Forall (fun x => total x <> 0) xs -> Forall (fun y => total y <> 0) ys ->
  run m h i j = Err ValueError.
Proof.
  intros m h i j t w v xs ys Ht Hw Hx Hy Tx Ty.
  assert (I : t <> Integer) by (destruct Ht as [->| ->]; discriminate).
  destruct (run_guarded m h i j _ _ Hx Hy I I) as (h1 & _ & R); rewrite R.
  unfold guarded; rewrite same_float_array, !sums_array by assumption.
  replace (same_cols (array t w xs) (array t v ys)) with false
    by (symmetry; apply Nat.eqb_neq; assumption).
  destruct (checks_sums m); reflexivity.
Qed.

(** ** Zeros *)

Lemma nsum_none : forall r, In None r -> nsum r = None.
Proof.
  induction r as [|v r IH]; [intros []|]; intros [->|H]; [reflexivity|].
  cbn; fold (nsum r); rewrite IH by assumption; destruct v; reflexivity.
Qed.

Lemma nlog_zero : nlog (Some 0) = None.
Proof. cbn; destruct (Rlt_dec 0 0); [lra|reflexivity]. Qed.

Lemma dot_log_zero : forall x y k, length x = length y -> nth_error y k = Some 0 ->
  dot (map Some x) (map nlog (map Some y)) = None.
Proof.
  intros x y k L H; unfold dot; apply nsum_none.
  revert y k L H; induction x as [|a x IH]; intros [|b y] k L H; cbn in L; try discriminate.
  - destruct k; discriminate.
  - cbn [map]; rewrite map2_cons; destruct k as [|k]; cbn in H.
    + left; injection H as ->; rewrite nlog_zero; reflexivity.
    + right; apply (IH y k); [lia|assumption].
Qed.

Lemma lift2_none : forall f a b, a = None \/ b = None -> lift2 f a b = None.
Proof. intros f [a|] [b|] [H|H]; try discriminate; reflexivity. Qed.

Lemma lift1_none : forall f a, a = None -> lift1 f a = None.
Proof. intros f a ->; reflexivity. Qed.

Lemma entry_outer : forall A (f : A -> A -> num) xs ys i j x y,
  nth_error xs i = Some x -> nth_error ys j = Some y -> entry (outer f xs ys) i j = f x y.
Proof.
  intros A f xs ys i j x y Hx Hy; unfold entry, outer.
  transitivity (nth j (map (fun y => f x y) ys) None).
  - apply (f_equal (fun r => nth j r None)).
    exact (@nth_error_nth _ _ _ _ [] (map_nth_error (fun x => map (fun y => f x y) ys) _ _ Hx)).
  - exact (@nth_error_nth _ _ _ _ None (map_nth_error (fun y => f x y) _ _ Hy)).
Qed.

Lemma js_zero : forall nrm t w xs ys h i j d, is_float t ->
  frames_of w xs -> frames_of w ys ->
  Forall (fun x => 0 < total x) xs -> Forall (fun y => 0 < total y) ys ->
  nth_error h i = Some (array t w xs) -> nth_error h j = Some (array t w ys) ->
  returned (js_divergence nrm h i j) = Ok d ->
  forall k l x y n, nth_error xs k = Some x -> nth_error ys l = Some y ->
  nth_error x n = Some 0 \/ nth_error y n = Some 0 -> entry d k l = None.
Proof.
  intros nrm t w xs ys h i j d Ht Wx Wy Tx Ty Hx Hy E k l x y n Kx Ky Z.
  assert (I : t <> Integer) by (destruct Ht as [->| ->]; discriminate).
  destruct (run_guarded (JensenShannon nrm) h i j _ _ Hx Hy I I) as (h1 & _ & R).
  change (js_divergence nrm h i j) with (run (JensenShannon nrm) h i j) in E; rewrite R in E.
  assert (T : forall zs, Forall (fun x => 0 < total x) zs -> Forall (fun x => total x <> 0) zs)
    by (intros zs H; eapply Forall_impl; [|exact H]; cbn; intros; lra).
  unfold guarded in E; rewrite same_float_array, same_cols_array, !sums_array in E by auto.
  cbn [bind checks_sums andb normalisesb value] in E; rewrite !normalise_array in E by auto.
  assert (J : forall us vs u v, frames_of w us -> frames_of w vs ->
     nth_error us k = Some u -> nth_error vs l = Some v ->
     nth_error u n = Some 0 \/ nth_error v n = Some 0 ->
     entry (js_value (rows us) (rows vs)) k l = None).
  { clear; intros us vs u v Wu Wv Ku Kv Z; unfold js_value.
    replace (length (rows us)) with (length us) by (unfold rows; rewrite map_length; reflexivity).
    rewrite !outer_rows, transpose_outer.
    repeat (rewrite ?mmap2_outer, ?mmap_outer); rewrite (entry_outer _ _ _ _ _ _ _ _ Ku Kv).
    fold (dot (map Some u) (map nlog (map Some u))); fold (dot (map Some v) (map nlog (map Some v))).
    destruct Z as [Z|Z]; [rewrite (dot_log_zero u u n eq_refl Z)|rewrite (dot_log_zero v v n eq_refl Z)];
      apply lift2_none; [left|right]; reflexivity. }
  destruct nrm; cbn [array m_rows] in E; unfold returned in E; cbn [bind snd] in E; injection E as <-.
  - apply (J (map prob xs) (map prob ys) (prob x) (prob y)).
    + apply frames_map; auto using prob_length.
    + apply frames_map; auto using prob_length.
    + exact (map_nth_error prob _ _ Kx).
    + exact (map_nth_error prob _ _ Ky).
    + destruct Z as [Z|Z]; [left|right]; apply (prob_zero _ _ 0 Z); auto.
      * exact (nth_usable _ _ _ _ Tx Kx).
      * exact (nth_usable _ _ _ _ Ty Ky).
  - apply (J xs ys x y); assumption.
Qed.

Lemma kl_zero : forall (sym nrm : bool) t w xs ys h i j d, is_float t ->
  frames_of w xs -> frames_of w ys ->
  Forall (fun x => 0 < total x) xs -> Forall (fun y => 0 < total y) ys ->
  nth_error h i = Some (array t w xs) -> nth_error h j = Some (array t w ys) ->
  returned (kl_divergence false sym nrm h i j) = Ok d ->
  forall k l x y n, nth_error xs k = Some x -> nth_error ys l = Some y ->
  nth_error x n = Some 0 \/ nth_error y n = Some 0 -> entry d k l = None.
Proof.
  intros sym nrm t w xs ys h i j d Ht Wx Wy Tx Ty Hx Hy E k l x y n Kx Ky Z.
  assert (I : t <> Integer) by (destruct Ht as [->| ->]; discriminate).
  destruct (run_guarded (KullbackLeibler false sym nrm) h i j _ _ Hx Hy I I) as (h1 & _ & R).
  change (kl_divergence false sym nrm h i j) with (run (KullbackLeibler false sym nrm) h i j) in E; rewrite R in E.
  assert (T : forall zs, Forall (fun x => 0 < total x) zs -> Forall (fun x => total x <> 0) zs)
    by (intros zs H; eapply Forall_impl; [|exact H]; cbn; intros; lra).
  unfold guarded in E; rewrite same_float_array, same_cols_array in E by auto.
  cbn [bind checks_sums andb normalisesb orb value] in E; rewrite !normalise_array in E by auto.
  assert (J : forall us vs u v, frames_of w us -> frames_of w vs ->
     nth_error us k = Some u -> nth_error vs l = Some v ->
     nth_error u n = Some 0 \/ nth_error v n = Some 0 ->
     entry (if sym
       then mmap2 (lift2 Rplus) (mmap (lift1 (Rmult 0.5)) (kl_matrix (rows us) (rows vs)))
          (mmap (lift1 (Rmult 0.5)) (transpose (length (rows us)) (kl_matrix (rows vs) (rows us))))
       else kl_matrix (rows us) (rows vs)) k l = None).
  { clear; intros us vs u v Wu Wv Ku Kv Z; unfold kl_matrix.
    replace (length (rows us)) with (length us) by (unfold rows; rewrite map_length; reflexivity).
    rewrite !outer_rows, !mmap2_outer, transpose_outer, !mmap_outer, mmap2_outer.
    assert (Lu := nth_frames _ _ _ _ Wu Ku); assert (Lv := nth_frames _ _ _ _ Wv Kv).
    assert (M : lift2 Rminus (dot (map Some u) (map nlog (map Some u)))
                  (dot (map Some u) (map nlog (map Some v))) = None).
    { apply lift2_none; destruct Z as [Z|Z];
        [left; apply (dot_log_zero u u n eq_refl Z)|right; apply (dot_log_zero u v n); [congruence|exact Z]]. }
    destruct sym; rewrite (entry_outer _ _ _ _ _ _ _ _ Ku Kv).
    - apply lift2_none; left; apply lift1_none; exact M.
    - exact M. }
  destruct nrm; cbn [array m_rows] in E; unfold returned in E; cbn [bind snd] in E; injection E as <-.
  - apply (J (map prob xs) (map prob ys) (prob x) (prob y)).
    + apply frames_map; auto using prob_length.
    + apply frames_map; auto using prob_length.
    + exact (map_nth_error prob _ _ Kx).
    + exact (map_nth_error prob _ _ Ky).
    + destruct Z as [Z|Z]; [left|right]; apply (prob_zero _ _ 0 Z); auto.
      * exact (nth_usable _ _ _ _ Tx Kx).
      * exact (nth_usable _ _ _ _ Ty Ky).
  - apply (J xs ys x y); assumption.
Qed.

(** ** Normalised cosine *)

Lemma prob_scale : forall x, prob x = scale (/ total x) x.
Proof. intros x; unfold prob, scale; apply map_ext; intros v; unfold Rdiv; ring. Qed.

Lemma scale_not_zero : forall c x, c <> 0 -> ~ zero_frame x -> ~ zero_frame (scale c x).
Proof.
  intros c x Hc Hz Hs; apply norm_zero_iff in Hs; rewrite norm_scale in Hs.
  pose proof (norm_pos x Hz); apply Rmult_integral in Hs; destruct Hs as [Hs|Hs]; [|lra].
  apply Rabs_no_R0 in Hc; contradiction.
Qed.

Lemma zero_total : forall x, zero_frame x -> total x = 0.
Proof. intros x H; induction H; cbn; [reflexivity|subst; lra]. Qed.

Lemma cosine_prob : forall x y, length x = length y -> 0 < total x -> 0 < total y ->
  cosine_value (prob x) (prob y) = cosine_value x y.
Proof.
  intros x y L Tx Ty.
  assert (Zx : ~ zero_frame x) by (intros Z; apply zero_total in Z; lra).
  assert (Zy : ~ zero_frame y) by (intros Z; apply zero_total in Z; lra).
  assert (Cx : 0 < / total x) by (apply Rinv_0_lt_compat; assumption).
  assert (Cy : 0 < / total y) by (apply Rinv_0_lt_compat; assumption).
  rewrite !prob_scale.
  assert (Sx : ~ zero_frame (scale (/ total x) x)) by (apply scale_not_zero; [lra|assumption]).
  assert (Sy : ~ zero_frame (scale (/ total y) y)) by (apply scale_not_zero; [lra|assumption]).
  apply (is_angle_unique (scale (/ total x) x) (scale (/ total y) y)); auto.
  - apply cosine_value_angle; auto; rewrite !scale_length; assumption.
  - destruct (cosine_value_angle x y L Zx Zy) as [B E]; split; [exact B|].
    rewrite inner_scale, inner_sym, inner_scale, !norm_scale, !Rabs_pos_eq, (inner_sym y x), E by lra; ring.
Qed.

Lemma normalized_cosine : forall t w xs ys h i j, is_float t ->
  frames_of w xs -> frames_of w ys ->
  Forall (fun x => 0 < total x) xs -> Forall (fun y => 0 < total y) ys ->
  nth_error h i = Some (array t w xs) -> nth_error h j = Some (array t w ys) ->
  returned (normalize_cosine_distance h i j) = cosine_distance (array t w xs) (array t w ys).
Proof.
  intros t w xs ys h i j Ht Wx Wy Tx Ty Hx Hy.
  assert (I : t <> Integer) by (destruct Ht as [->| ->]; discriminate).
  destruct (run_guarded NormalizedCosine h i j _ _ Hx Hy I I) as (h1 & _ & R).
  change (normalize_cosine_distance h i j) with (run NormalizedCosine h i j); rewrite R.
  assert (T : forall zs, Forall (fun x => 0 < total x) zs -> Forall (fun x => total x <> 0) zs)
    by (intros zs H; eapply Forall_impl; [|exact H]; cbn; intros; lra).
  unfold guarded; rewrite same_float_array, same_cols_array by auto.
  cbn [bind checks_sums andb normalisesb value]; rewrite !normalise_array by auto.
  rewrite !cosine_distance_value by assumption; unfold returned; cbn [bind snd]; f_equal.
  rewrite !all_pairs_outer, outer_map; apply outer_ext; intros x y Ix Iy; f_equal.
  unfold frames_of in *; rewrite Forall_forall in *; apply cosine_prob; auto.
  rewrite Wx, Wy by assumption; reflexivity.
Qed.

Lemma itakura_saito : forall t w v xs ys, is_float t ->
  is_distance (array t w xs) (array t v ys) = Err NotImplementedError.
Proof. intros t w v xs ys Ht; unfold is_distance; rewrite same_float_array by assumption; reflexivity. Qed.
