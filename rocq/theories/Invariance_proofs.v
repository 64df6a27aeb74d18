(** The default distance and the Kullback-Leibler distance do not see the scale of the frames nor
    the order of the columns; without normalisation, the default one does not see the direction of
    time. *)
From Coq Require Import Reals List Bool Arith Lia Lra String Permutation.
From Verif Require Import Prelude PyCall Metrics Dtw Dtw_spec Dtw_proofs Dtw_hom Metrics_spec Metrics_proofs Metrics_values Metrics_heap
  DefaultDistance DefaultDistance_spec DefaultDistance_proofs NotFinite_spec NotFinite_proofs Invariance_spec.
Import ListNotations.
Local Open Scope R_scope.

(** ** The distances, as functions of the cells *)

Lemma cosine_form x y : cosine_distance x y =
  (assert! same_float x y else AssertionError ;;
   assert! same_cols x y else ValueError ;;
   assert! forallb (forallb is_nonneg) (outer cell (m_rows x) (m_rows y)) else AssertionError ;;
   Ok (outer cell (m_rows x) (m_rows y))).
Proof.
  unfold cosine_distance. cbv zeta. fold nrm. rewrite outer_map, mmap2_outer, mmap_outer. rewrite !map_map.
  rewrite (mimap_outer _ _ (fun a b v => if a then Some 1 else v) _ (fun r => is_zero (nrm r)) (fun r => is_zero (nrm r))).
  rewrite (mimap_outer _ _ (fun a b v => if b then Some 1 else v) _ (fun r => is_zero (nrm r)) (fun r => is_zero (nrm r))).
  rewrite (mimap_outer _ _ (fun a b v => if a && b then Some 0 else v) _ (fun r => is_zero (nrm r)) (fun r => is_zero (nrm r))). reflexivity.
Qed.

Definition both (r s : list num) : num :=
  lift2 Rplus (lift1 (Rmult 0.5) (kl_cell r s)) (lift1 (Rmult 0.5) (kl_cell s r)).

Lemma kl_form empty x y b : (r <- dtw_kl_distance empty [x; y] 0 1 b ;; Ok (snd r)) =
  if (0 <? frames x)%nat && (0 <? frames y)%nat then
    (assert! same_float x y else AssertionError ;;
     assert! same_cols x y else ValueError ;;
     v <- warped x y (outer both (m_rows (smooth (normalise x))) (m_rows (smooth (normalise y)))) b empty ;;
     Ok (Value v))
  else if (frames x =? frames y)%nat then Ok (Value (Some 0))
  else Ok Infinite.
Proof.
  unfold dtw_kl_distance. cbn [nth_res nth_error bind]. unfold nth_res. cbn [nth_error bind].
  destruct ((0 <? frames x)%nat && (0 <? frames y)%nat).
  2:{ destruct (frames x =? frames y)%nat; reflexivity. }
  unfold kl_divergence, nth_res. cbn [nth_error bind]. destruct (same_float x y) eqn:Ef; [|reflexivity]. cbn [bind].
  destruct (same_float_types x y Ef) as [Tx Ty]. unfold normalise_at, nth_res. cbn [nth_error bind].
  destruct (m_type x) eqn:Ex; try congruence; destruct (m_type y) eqn:Ey; try congruence; cbn [bind update nth_error];
    rewrite ?Ey; cbn [bind update nth_error]; change (same_cols (normalise x) (normalise y)) with (same_cols x y);
    destruct (same_cols x y); try reflexivity; cbn [bind fst snd]; unfold kl_matrix; rewrite !mmap2_outer, transpose_outer, !mmap_outer, mmap2_outer;
    fold kl_cell; match goal with |- bind (bind ?w _) _ = bind ?w' _ => change w' with w; destruct w; reflexivity end.
Qed.

Lemma call_default_form empty n x y : call_default empty n x y =
  match n with Some b => default_distance empty x y b | None => Err TypeError end.
Proof. destruct n; reflexivity. Qed.

Lemma call_kl_form empty n x y : call_kl empty n x y =
  (r <- dtw_kl_distance empty [x; y] 0 1 (match n with Some b => b | None => true end) ;; Ok (snd r)).
Proof. destruct n; reflexivity. Qed.

(** ** Distances of arrays with the same cells *)

Lemma outer_related A B (g : A -> A -> num) (h : B -> B -> num) (P : A -> B -> Prop) xs xs' : Forall2 P xs xs' ->
  forall ys ys', Forall2 P ys ys' -> (forall a b a' b', P a a' -> P b b' -> h a' b' = g a b) -> outer h xs' ys' = outer g xs ys.
Proof.
  intros Hx. induction Hx as [|a a' xs xs' Ha Hx IH]; intros ys ys' Hy H; [reflexivity|]. unfold outer in *. cbn [map]. f_equal.
  - clear - Ha Hy H. induction Hy as [|b b' ys ys' Hb Hy IH]; [reflexivity|]. cbn [map]. f_equal; [apply H; assumption|exact IH].
  - apply IH; assumption.
Qed.

Lemma Forall2_frames A B (P : A -> B -> Prop) l l' : Forall2 P l l' -> length l = length l'.
Proof. induction 1; cbn; congruence. Qed.

Lemma warped_lengths x y x' y' d b empty : length (m_rows x') = length (m_rows x) -> length (m_rows y') = length (m_rows y) ->
  warped x' y' d b empty = warped x y d b empty.
Proof. intros Hx Hy. unfold warped, dtw. rewrite Hx, Hy. reflexivity. Qed.

Lemma default_cells empty b x y x' y' :
  same_float x' y' = same_float x y -> same_cols x' y' = same_cols x y ->
  length (m_rows x') = length (m_rows x) -> length (m_rows y') = length (m_rows y) ->
  (same_cols x y = true -> outer cell (m_rows x') (m_rows y') = outer cell (m_rows x) (m_rows y)) ->
  default_distance empty x' y' b = default_distance empty x y b.
Proof.
  intros Hf Hc Hx Hy H. unfold default_distance, frames. rewrite Hx, Hy, !cosine_form, Hf, Hc.
  destruct (_ && _); [|reflexivity]. destruct (same_float x y); [|reflexivity]. destruct (same_cols x y); [|reflexivity].
  cbn [bind]. rewrite (H eq_refl). destruct (forallb _ _); [|reflexivity]. cbn [bind].
  rewrite (warped_lengths x y x' y') by assumption. reflexivity.
Qed.

Lemma kl_cells empty b x y x' y' :
  same_float x' y' = same_float x y -> same_cols x' y' = same_cols x y ->
  length (m_rows x') = length (m_rows x) -> length (m_rows y') = length (m_rows y) ->
  (same_cols x y = true -> outer both (m_rows (smooth (normalise x'))) (m_rows (smooth (normalise y')))
                           = outer both (m_rows (smooth (normalise x))) (m_rows (smooth (normalise y)))) ->
  (r <- dtw_kl_distance empty [x'; y'] 0 1 b ;; Ok (snd r)) = (r <- dtw_kl_distance empty [x; y] 0 1 b ;; Ok (snd r)).
Proof.
  intros Hf Hc Hx Hy H. rewrite !kl_form. unfold frames. rewrite Hx, Hy, Hf, Hc.
  destruct (_ && _); [|reflexivity]. destruct (same_float x y); [|reflexivity]. destruct (same_cols x y); [|reflexivity].
  cbn [bind]. rewrite (H eq_refl). rewrite (warped_lengths x y x' y') by assumption. reflexivity.
Qed.

(** ** Scales *)

Definition times (c : R) (r : list num) : list num := map (lift1 (Rmult c)) r.

Lemma nsum_times c r : nsum (times c r) = lift1 (Rmult c) (nsum r).
Proof.
  unfold nsum, times. induction r as [|v r IH]; cbn [map fold_right]; [cbn; f_equal; lra|]. rewrite IH.
  destruct v as [a|], (fold_right (lift2 Rplus) (Some 0) r) as [t|]; cbn; try reflexivity. f_equal. lra.
Qed.

Lemma nrm_times c r : 0 < c -> nrm (times c r) = lift1 (Rmult c) (nrm r).
Proof.
  intros Hc. destruct (finite_frame r) as [M|[f ->]].
  - rewrite (nrm_missing r M). apply nrm_missing. unfold missing, times. apply in_map_iff. exists None. split; [reflexivity|exact M].
  - unfold times. rewrite lift1_map, !nrm_some. cbn [lift1]. f_equal. unfold norm.
    replace (inner (map (Rmult c) f) (map (Rmult c) f)) with ((c * c) * inner f f).
    + rewrite sqrt_mult_alt by nra. rewrite sqrt_square by lra. reflexivity.
    + induction f as [|a f IH]; cbn; [lra|]. rewrite <- IH. lra.
Qed.

Lemma dot_times c c' r s : dot (times c r) (times c' s) = lift1 (Rmult (c * c')) (dot r s).
Proof.
  unfold dot, times. rewrite map2_map. unfold map2. revert s. induction r as [|v r IH]; intros [|w s]; cbn; try (f_equal; lra).
  unfold nsum in *. rewrite IH. destruct (fold_right (lift2 Rplus) (Some 0) (map (fun p => lift2 Rmult (fst p) (snd p)) (combine r s))) as [t|];
    destruct v as [a|], w as [b|]; cbn; try reflexivity. f_equal. lra.
Qed.

Lemma is_zero_times c v : c <> 0 -> is_zero (lift1 (Rmult c) v) = is_zero v.
Proof.
  intros Hc. destruct v as [a|]; [|reflexivity]. cbn. destruct (Req_EM_T (c * a) 0) as [E|N], (Req_EM_T a 0) as [E'|N']; try reflexivity.
  - exfalso. apply Rmult_integral in E. tauto.
  - exfalso. apply N. rewrite E'. lra.
Qed.

Lemma cell_times c c' r s : 0 < c -> 0 < c' -> cell (times c r) (times c' s) = cell r s.
Proof.
  intros Hc Hc'. unfold cell. rewrite !nrm_times, !is_zero_times, dot_times by lra.
  destruct (is_zero (nrm r)) eqn:Zr, (is_zero (nrm s)) eqn:Zs; try reflexivity.
  destruct (nrm r) as [a|]; [|reflexivity]. destruct (nrm s) as [b|]; [|reflexivity]. cbn [andb lift1 lift2].
  cbn in Zr, Zs. destruct (Req_EM_T a 0) as [|Na]; [discriminate|]. destruct (Req_EM_T b 0) as [|Nb]; [discriminate|].
  unfold ndiv. destruct (Req_EM_T (c * a * (c' * b)) 0) as [E|_].
  { exfalso. repeat (apply Rmult_integral in E; destruct E as [E|E]); try lra. }
  destruct (Req_EM_T (a * b) 0) as [E|_]. { exfalso. apply Rmult_integral in E. tauto. }
  destruct (dot r s) as [d|]; [|reflexivity]. cbn. do 3 f_equal. field. repeat split; lra.
Qed.

Lemma rescaled_rows P x x' : rescaled P x x' -> Forall2 (fun r r' => exists c, P c /\ r' = times c r) (m_rows x) (m_rows x').
Proof. intros H. exact (rs_rows P x x' H). Qed.

Lemma same_float_types_eq x y x' y' : m_type x' = m_type x -> m_type y' = m_type y -> same_float x' y' = same_float x y.
Proof. intros Hx Hy. unfold same_float. rewrite Hx, Hy. reflexivity. Qed.

Lemma same_cols_eq x y x' y' : m_cols x' = m_cols x -> m_cols y' = m_cols y -> same_cols x' y' = same_cols x y.
Proof. intros Hx Hy. unfold same_cols. rewrite Hx, Hy. reflexivity. Qed.

Theorem scale_default empty n x y x' y' : rescaled (fun c => 0 < c) x x' -> rescaled (fun c => 0 < c) y y' ->
  call_default empty n x' y' = call_default empty n x y.
Proof.
  intros Hx Hy. rewrite !call_default_form. destruct n as [b|]; [|reflexivity]. pose proof (rescaled_rows _ _ _ Hx) as Rx. pose proof (rescaled_rows _ _ _ Hy) as Ry.
  apply default_cells.
  - apply same_float_types_eq; [apply (rs_type _ _ _ Hx)|apply (rs_type _ _ _ Hy)].
  - apply same_cols_eq; [apply (rs_cols _ _ _ Hx)|apply (rs_cols _ _ _ Hy)].
  - symmetry. apply (Forall2_frames _ _ _ _ _ Rx).
  - symmetry. apply (Forall2_frames _ _ _ _ _ Ry).
  - intros _. apply (outer_related _ _ _ _ _ _ _ Rx _ _ Ry). intros r s r' s' (c & Hc & ->) (c' & Hc' & ->). apply cell_times; assumption.
Qed.

Lemma normalise_times c r : c <> 0 -> normalise_row (times c r) = normalise_row r.
Proof.
  intros Hc. unfold normalise_row. rewrite nsum_times. unfold times. rewrite map_map. apply map_ext. intros v.
  destruct (nsum r) as [t|]; [|destruct v; reflexivity]. cbn [lift1]. unfold ndiv.
  destruct (Req_EM_T (c * t) 0) as [E|N], (Req_EM_T t 0) as [E'|N']; try (destruct v; reflexivity).
  - exfalso. apply Rmult_integral in E. tauto.
  - exfalso. apply N. rewrite E'. lra.
  - destruct v as [a|]; [|reflexivity]. cbn. f_equal. field. tauto.
Qed.

Lemma normalise_rescaled x x' : rescaled (fun c => c <> 0) x x' -> normalise x' = normalise x.
Proof.
  intros H. pose proof (rescaled_rows _ _ _ H) as R. unfold normalise. rewrite (rs_type _ _ _ H), (rs_cols _ _ _ H). f_equal.
  induction R as [|r r' l l' (c & Hc & ->) R IH]; [reflexivity|]. cbn [map]. rewrite (normalise_times c r Hc), IH. reflexivity.
Qed.

Theorem scale_kl empty n x y x' y' : rescaled (fun c => c <> 0) x x' -> rescaled (fun c => c <> 0) y y' ->
  call_kl empty n x' y' = call_kl empty n x y.
Proof.
  intros Hx Hy. rewrite !call_kl_form. pose proof (rescaled_rows _ _ _ Hx) as Rx. pose proof (rescaled_rows _ _ _ Hy) as Ry.
  apply kl_cells.
  - apply same_float_types_eq; [apply (rs_type _ _ _ Hx)|apply (rs_type _ _ _ Hy)].
  - apply same_cols_eq; [apply (rs_cols _ _ _ Hx)|apply (rs_cols _ _ _ Hy)].
  - symmetry. apply (Forall2_frames _ _ _ _ _ Rx).
  - symmetry. apply (Forall2_frames _ _ _ _ _ Ry).
  - intros _. rewrite (normalise_rescaled x x' Hx), (normalise_rescaled y y' Hy). reflexivity.
Qed.

(** ** Orders of the columns *)

Section Order.
Variables (s : list nat) (w : nat).
Hypothesis Hs : Permutation s (seq 0 w).

Definition pick (r : list num) : list num := map (fun j => nth j r None) s.

Lemma pick_all (r : list num) : length r = w -> map (fun j => nth j r None) (seq 0 w) = r.
Proof. intros <-. symmetry. pose proof (map_nth_seq _ _ (fun v : num => v) r None) as H. rewrite map_id in H. exact H. Qed.

Lemma pick_perm (r : list num) : length r = w -> Permutation (pick r) r.
Proof. intros L. rewrite <- (pick_all r L) at 2. apply Permutation_map, Hs. Qed.

Lemma pick_map (g : num -> num) r : g None = None -> map g (pick r) = pick (map g r).
Proof.
  intros Hg. unfold pick. rewrite map_map. apply map_ext. intros j. rewrite <- Hg at 2. symmetry. apply map_nth.
Qed.

Lemma nth_map2 (f : num -> num -> num) (r q : list num) j : length r = length q -> f None None = None ->
  nth j (map2 f r q) None = f (nth j r None) (nth j q None).
Proof.
  intros L Hf. unfold map2. revert q j L. induction r as [|a r IH]; intros [|b q] j L; try discriminate.
  - destruct j; symmetry; exact Hf.
  - destruct j as [|j]; [reflexivity|]. cbn. apply IH. cbn in L. congruence.
Qed.

Lemma pick_map2 (f : num -> num -> num) r q : length r = length q -> f None None = None -> map2 f (pick r) (pick q) = pick (map2 f r q).
Proof.
  intros L Hf. unfold pick. rewrite map2_map, map2_same. apply map_ext. intros j. symmetry. apply nth_map2; assumption.
Qed.

Lemma nsum_perm l l' : Permutation l l' -> nsum l = nsum l'.
Proof.
  unfold nsum. induction 1; cbn; try congruence. destruct x as [a|], y as [b|], (fold_right (lift2 Rplus) (Some 0) l) as [t|]; cbn; try reflexivity.
  f_equal. lra.
Qed.

Lemma nsum_pick r : length r = w -> nsum (pick r) = nsum r.
Proof. intros L. apply nsum_perm, pick_perm, L. Qed.

Lemma nrm_pick r : length r = w -> nrm (pick r) = nrm r.
Proof.
  intros L. unfold nrm. f_equal. rewrite pick_map by reflexivity. apply nsum_pick. rewrite map_length. exact L.
Qed.

Lemma map2_length A B C (f : A -> B -> C) r q : length r = length q -> length (map2 f r q) = length r.
Proof. intros L. unfold map2. rewrite map_length, combine_length, <- L, Nat.min_id. reflexivity. Qed.

Lemma dot_pick r q : length r = w -> length q = w -> dot (pick r) (pick q) = dot r q.
Proof.
  intros L L'. unfold dot. rewrite pick_map2 by (try reflexivity; congruence). apply nsum_pick. rewrite map2_length; congruence.
Qed.

Lemma cell_pick r q : length r = w -> length q = w -> cell (pick r) (pick q) = cell r q.
Proof. intros L L'. unfold cell. rewrite !nrm_pick, dot_pick by assumption. reflexivity. Qed.

Lemma normalise_pick r : length r = w -> normalise_row (pick r) = pick (normalise_row r).
Proof.
  intros L. unfold normalise_row. rewrite (nsum_pick r L). apply pick_map. unfold ndiv. destruct (nsum r) as [t|]; [|reflexivity].
  destruct (Req_EM_T t 0); reflexivity.
Qed.

Lemma normalise_row_length r : length (normalise_row r) = length r.
Proof. apply map_length. Qed.

Definition smooth_row (e : R) (r : list num) : list num := normalise_row (map (lift1 (fun v => v + e)) (normalise_row r)).

Lemma smooth_pick e r : length r = w -> smooth_row e (pick r) = pick (smooth_row e r).
Proof.
  intros L. unfold smooth_row. rewrite (normalise_pick r L), pick_map by reflexivity.
  apply normalise_pick. rewrite map_length, normalise_row_length. exact L.
Qed.

Lemma smooth_row_length e r : length (smooth_row e r) = length r.
Proof. unfold smooth_row. rewrite normalise_row_length, map_length, normalise_row_length. reflexivity. Qed.

Lemma kl_cell_pick r q : length r = w -> length q = w -> kl_cell (pick r) (pick q) = kl_cell r q.
Proof.
  intros L L'. unfold kl_cell. rewrite !pick_map by reflexivity.
  rewrite pick_map2 by (try reflexivity; rewrite map_length; reflexivity).
  rewrite nsum_pick by (rewrite map2_length; [exact L|rewrite map_length; reflexivity]).
  rewrite dot_pick by (try rewrite map_length; assumption). reflexivity.
Qed.

Lemma both_pick r q : length r = w -> length q = w -> both (pick r) (pick q) = both r q.
Proof. intros L L'. unfold both. rewrite !kl_cell_pick by assumption. reflexivity. Qed.

End Order.

Lemma smooth_rows m : m_rows (smooth (normalise m)) = map (smooth_row (eps (m_type m))) (m_rows m).
Proof. unfold smooth, normalise. cbn [m_rows m_type]. rewrite !map_map. reflexivity. Qed.

Theorem order_default empty n s x y x' y' : reordered s x x' -> reordered s y y' ->
  call_default empty n x' y' = call_default empty n x y.
Proof.
  intros Hx Hy. rewrite !call_default_form. destruct n as [b|]; [|reflexivity]. apply default_cells.
  - apply same_float_types_eq; [apply (ro_type _ _ _ Hx)|apply (ro_type _ _ _ Hy)].
  - apply same_cols_eq; [apply (ro_cols _ _ _ Hx)|apply (ro_cols _ _ _ Hy)].
  - rewrite (ro_rows _ _ _ Hx). apply map_length.
  - rewrite (ro_rows _ _ _ Hy). apply map_length.
  - intros E. apply Nat.eqb_eq in E. rewrite (ro_rows _ _ _ Hx), (ro_rows _ _ _ Hy), outer_map. apply outer_ext. intros r q Hr Hq.
    apply (cell_pick s (m_cols x) (ro_order _ _ _ Hx)); [apply (ro_width _ _ _ Hx), Hr|rewrite E; apply (ro_width _ _ _ Hy), Hq].
Qed.

Theorem order_kl empty n s x y x' y' : reordered s x x' -> reordered s y y' ->
  call_kl empty n x' y' = call_kl empty n x y.
Proof.
  intros Hx Hy. rewrite !call_kl_form. apply kl_cells.
  - apply same_float_types_eq; [apply (ro_type _ _ _ Hx)|apply (ro_type _ _ _ Hy)].
  - apply same_cols_eq; [apply (ro_cols _ _ _ Hx)|apply (ro_cols _ _ _ Hy)].
  - rewrite (ro_rows _ _ _ Hx). apply map_length.
  - rewrite (ro_rows _ _ _ Hy). apply map_length.
  - intros E. apply Nat.eqb_eq in E. rewrite !smooth_rows, (ro_type _ _ _ Hx), (ro_type _ _ _ Hy), (ro_rows _ _ _ Hx), (ro_rows _ _ _ Hy), !outer_map.
    apply outer_ext. intros r q Hr Hq. pose proof (ro_width _ _ _ Hx r Hr) as Lr. pose proof (ro_width _ _ _ Hy q Hq) as Lq. rewrite <- E in Lq.
    pose proof (ro_order _ _ _ Hx) as Hs.
    change (both (smooth_row (eps (m_type x)) (pick s r)) (smooth_row (eps (m_type y)) (pick s q))
            = both (smooth_row (eps (m_type x)) r) (smooth_row (eps (m_type y)) q)).
    rewrite !(smooth_pick s (m_cols x) Hs) by assumption.
    apply (both_pick s (m_cols x) Hs); rewrite smooth_row_length; assumption.
Qed.

(** ** The direction of time *)

Definition turned (N M : nat) (p : list (nat * nat)) : list (nat * nat) := rev (map (fun a => (N - fst a, M - snd a)%nat) p).

Lemma turned_from N M a p : alignment a p -> (fst a <= N)%nat -> (snd a <= M)%nat -> forall q,
  alignment (N - fst a, M - snd a)%nat ((N - fst a, M - snd a)%nat :: q) ->
  alignment (N, M) (turned N M (tl p) ++ (N - fst a, M - snd a)%nat :: q).
Proof.
  induction 1 as [|a b p A IH V]; intros Ha Hb q Q.
  - cbn in *. rewrite !Nat.sub_0_r in *. exact Q.
  - cbn [tl]. assert (Ea : exists t, p = a :: t) by (inversion A; subst; eauto). destruct Ea as [t ->]. cbn [tl] in IH.
    unfold turned in *. cbn [map rev]. rewrite <- app_assoc. cbn [app]. apply IH; [inversion V; subst; cbn in *; lia|inversion V; subst; cbn in *; lia|].
    apply (al_move Q). inversion V; subst; cbn [fst snd] in *.
    + replace (N - i)%nat with (S (N - S i)) by lia. apply move_x.
    + replace (M - j)%nat with (S (M - S j)) by lia. apply move_y.
    + replace (N - i)%nat with (S (N - S i)) by lia. replace (M - j)%nat with (S (M - S j)) by lia. apply move_xy.
Qed.

Lemma turned_alignment N M p : alignment (N, M) p -> alignment (N, M) (turned N M p).
Proof.
  intros A. pose proof (turned_from N M (N, M) p A (le_n _) (le_n _) []) as H. cbn [fst snd] in H. rewrite !Nat.sub_diag in H. specialize (H al_first).
  assert (Ea : exists t, p = (N, M) :: t) by (inversion A; subst; eauto). destruct Ea as [t ->]. cbn [tl] in H. unfold turned in *. cbn [map rev fst snd].
  rewrite !Nat.sub_diag. exact H.
Qed.

Definition sum_along (d : nat -> nat -> R) (p : list (nat * nat)) : R := fold_right (fun a s => d (fst a) (snd a) + s) 0 p.

Lemma cost_sum d p : p <> [] -> cost_of Rplus d p = Some (sum_along d p).
Proof.
  induction p as [|[i j] p IH]; [congruence|]. intros _. destruct p as [|b p]; [cbn; f_equal; lra|].
  change (cost_of Rplus d ((i, j) :: b :: p)) with (option_map (Rplus (d i j)) (cost_of Rplus d (b :: p))). rewrite IH by discriminate. reflexivity.
Qed.

Lemma sum_along_perm d p q : Permutation p q -> sum_along d p = sum_along d q.
Proof. unfold sum_along. induction 1; cbn; lra. Qed.

Lemma sum_along_turned (d d' : nat -> nat -> R) N M p : Forall (fun b => (fst b <= N /\ snd b <= M)%nat) p ->
  (forall i j, (i <= N)%nat -> (j <= M)%nat -> d' (N - i)%nat (M - j)%nat = d i j) -> sum_along d' (turned N M p) = sum_along d p.
Proof.
  intros I H. unfold turned. rewrite (sum_along_perm d' _ _ (Permutation_sym (Permutation_rev _))).
  induction I as [|a p [Ha Hb] I IH]; [reflexivity|]. unfold sum_along in *. cbn [map fold_right fst snd]. rewrite IH, H by assumption. reflexivity.
Qed.

Lemma least_value N M (dist : list (list num)) empty : (0 < N)%nat -> (0 < M)%nat -> shape N M dist ->
  (forall i j, (i < N)%nat -> (j < M)%nat -> @Dtw_spec.entry num None dist i j <> None) ->
  exists (v : R) (d : nat -> nat -> R) p, dtw_costs (lift2 Rplus) nle ndivn N M dist false empty = Ok (Some v) /\
    (forall i j, (i < N)%nat -> (j < M)%nat -> @Dtw_spec.entry num None dist i j = Some (d i j)) /\
    optimal Rplus rleb d (N - 1, M - 1)%nat p /\ cost_of Rplus d p = Some v.
Proof.
  intros HN HM Hs H. set (val := fun v : num => match v with Some a => a | None => 0 end).
  set (dr := map (map val) dist).
  assert (Hs' : shape N M dr).
  { destruct Hs as [L W]. split; [unfold dr; rewrite map_length; exact L|]. intros row Hr. apply in_map_iff in Hr as (r & <- & Hr).
    rewrite map_length. apply W, Hr. }
  assert (Hz : forall i j, (i < N)%nat -> (j < M)%nat -> @Dtw_spec.entry num (Some 0) dist i j = Some (Dtw_spec.entry 0 dr i j)).
  { intros i j Hi Hj. specialize (H i j Hi Hj). unfold Dtw_spec.entry in *. unfold dr.
    change (@nil R) with (map val []). rewrite map_nth. change 0 with (val (Some 0)) at 2. rewrite map_nth.
    destruct Hs as [L W]. assert (Lj : (j < length (nth i dist []))%nat) by (rewrite W; [exact Hj|apply nth_In; lia]).
    exact (nth_number 0 (nth i dist []) j Lj H). }
  assert (Hn : forall i j, (i < N)%nat -> (j < M)%nat -> @Dtw_spec.entry num None dist i j = Some (Dtw_spec.entry 0 dr i j)).
  { intros i j Hi Hj. rewrite <- (Hz i j Hi Hj). unfold Dtw_spec.entry. apply nth_indep. destruct Hs as [L W]. rewrite W; [exact Hj|apply nth_In; lia]. }
  assert (Nx : repeat tt N <> []) by (destruct N; [lia|discriminate]). assert (Ny : repeat tt M <> []) by (destruct M; [lia|discriminate]).
  destruct (@dtw_optimal _ Rplus rleb rdivn ordered_R _ (fun _ _ => Ok dr) 0 (repeat tt N) (repeat tt M) dr (fun _ _ => 0) Nx Ny eq_refl
              ltac:(rewrite !repeat_length; exact Hs')) as (v & p & E & O & Ev).
  unfold dtw in E. rewrite !repeat_length in E, O. rewrite !(proj2 (Nat.eqb_neq _ 0)) in E by lia. cbn [orb bind] in E.
  exists v, (Dtw_spec.entry 0 dr), p. split; [|split; [exact Hn|split; [exact O|exact Ev]]].
  rewrite (dtw_costs_hom Rplus rleb rdivn (lift2 Rplus) nle ndivn (@Some R)) with (z := 0) (dist := dr) (empty := fun _ _ => 0); auto.
  - rewrite E. reflexivity.
  - intros a n Hn'. unfold ndivn, ndiv, rdivn. destruct (Req_EM_T (INR n) 0) as [Z|_]; [|reflexivity].
    exfalso. apply not_0_INR in Hn'. contradiction.
Qed.

Lemma turned_le N M d d' p p' v v' : (forall i j, (i <= N)%nat -> (j <= M)%nat -> d' (N - i)%nat (M - j)%nat = d i j) ->
  alignment (N, M) p -> cost_of Rplus d p = Some v -> optimal Rplus rleb d' (N, M) p' -> cost_of Rplus d' p' = Some v' -> v' <= v.
Proof.
  intros H A E [A' O'] E'. apply rleb_true. apply (O' (turned N M p) v' v); [apply turned_alignment, A|exact E'|].
  assert (Np : p <> []) by (inversion A; discriminate). assert (Nt : turned N M p <> []) by (pose proof (turned_alignment N M p A) as B; inversion B; discriminate).
  rewrite cost_sum by exact Nt. rewrite cost_sum in E by exact Np. rewrite (sum_along_turned d d' N M p); [exact E| |exact H].
  pose proof (alignment_inside _ _ A) as I. exact I.
Qed.

Lemma nth_error_rev A (l : list A) i a : nth_error l i = Some a -> nth_error (rev l) (length l - 1 - i) = Some a.
Proof.
  intros H. assert (L : (i < length l)%nat) by (apply nth_error_Some; congruence). destruct l as [|d l0]; [cbn in L; lia|].
  rewrite (nth_error_nth' (rev (d :: l0)) d) by (rewrite rev_length; cbn in *; lia). f_equal.
  rewrite rev_nth by (cbn in *; lia). replace (length (d :: l0) - S (length (d :: l0) - 1 - i))%nat with i by (cbn in *; lia).
  apply nth_error_nth with (1 := H).
Qed.

Lemma forallb_rev A (f : A -> bool) l : forallb f (rev l) = forallb f l.
Proof.
  destruct (forallb f l) eqn:E.
  - rewrite forallb_forall in *. intros x Hx. apply E, in_rev, Hx.
  - apply not_true_is_false. intros F. apply (f_equal negb) in E. cbn in E. rewrite forallb_forall in F.
    assert (forallb f l = true) as G by (apply forallb_forall; intros x Hx; apply F; rewrite <- in_rev; exact Hx). rewrite G in E. discriminate.
Qed.

Lemma outer_rev A B (g : A -> B -> num) xs ys : outer g (rev xs) (rev ys) = rev (map (@rev num) (outer g xs ys)).
Proof. unfold outer. rewrite map_map, <- map_rev. apply map_ext. intros x. apply map_rev. Qed.

Lemma forallb_map A B (f : B -> bool) (g : A -> B) l : forallb f (map g l) = forallb (fun a => f (g a)) l.
Proof. induction l; cbn; congruence. Qed.

Theorem backwards_default empty empty' x y :
  call_default empty (Some false) (backwards x) (backwards y) = call_default empty' (Some false) x y.
Proof.
  rewrite !call_default_form. unfold default_distance, frames. rewrite !cosine_form. cbn [backwards m_rows].
  change (same_float (backwards x) (backwards y)) with (same_float x y). change (same_cols (backwards x) (backwards y)) with (same_cols x y).
  rewrite !rev_length. destruct (_ && _) eqn:En; [|reflexivity]. destruct (same_float x y); [|reflexivity]. destruct (same_cols x y); [|reflexivity]. cbn [bind].
  assert (F : forallb (forallb is_nonneg) (outer cell (rev (m_rows x)) (rev (m_rows y))) = forallb (forallb is_nonneg) (outer cell (m_rows x) (m_rows y))).
  { rewrite outer_rev, forallb_rev, forallb_map. induction (outer cell (m_rows x) (m_rows y)) as [|r l IH]; [reflexivity|].
    cbn. rewrite forallb_rev, IH. reflexivity. }
  rewrite F. destruct (forallb (forallb is_nonneg) (outer cell (m_rows x) (m_rows y))) eqn:G; [|reflexivity]. cbn [bind].
  apply andb_prop in En. destruct En as [Nx Ny]. apply Nat.ltb_lt in Nx, Ny. unfold warped, dtw. cbn [backwards m_rows]. rewrite !rev_length.
  rewrite !(proj2 (Nat.eqb_neq _ 0)) by lia. cbn [orb bind].
  set (N := length (m_rows x)) in *. set (M := length (m_rows y)) in *.
  assert (K : forall r s, In r (m_rows x) -> In s (m_rows y) -> cell r s <> None).
  { intros r s Hr Hs Hn. rewrite forallb_forall in G. assert (I : In (map (fun s => cell r s) (m_rows y)) (outer cell (m_rows x) (m_rows y))) by (apply in_map_iff; eauto).
    apply G in I. rewrite forallb_forall in I. assert (J : In (cell r s) (map (fun s => cell r s) (m_rows y))) by (apply in_map; exact Hs).
    apply I in J. rewrite Hn in J. discriminate. }
  destruct (least_value N M (outer cell (m_rows x) (m_rows y)) empty' Nx Ny (outer_shape _ _ _ _ _)) as (v & d & p & E & Hd & O & Ev).
  { intros i j Hi Hj. destruct (in_nth _ _ i Hi) as (r & Er & Ir). destruct (in_nth _ _ j Hj) as (s & Es & Is).
    rewrite (outer_entry _ _ cell _ _ i j r s Er Es). apply K; assumption. }
  destruct (least_value N M (outer cell (rev (m_rows x)) (rev (m_rows y))) empty Nx Ny) as (v' & d' & p' & E' & Hd' & O' & Ev').
  { pose proof (outer_shape _ _ cell (rev (m_rows x)) (rev (m_rows y))) as S. rewrite !rev_length in S. exact S. }
  { intros i j Hi Hj. unfold N in Hi. unfold M in Hj. rewrite <- (rev_length (m_rows x)) in Hi. rewrite <- (rev_length (m_rows y)) in Hj.
    destruct (in_nth _ _ i Hi) as (r & Er & Ir). destruct (in_nth _ _ j Hj) as (s & Es & Is).
    rewrite (outer_entry _ _ cell _ _ i j r s Er Es). apply K; apply in_rev; assumption. }
  rewrite E, E'. cbn [bind]. do 3 f_equal.
  assert (D : forall i j, (i <= N - 1)%nat -> (j <= M - 1)%nat -> d' (N - 1 - i)%nat (M - 1 - j)%nat = d i j).
  { intros i j Hi Hj. destruct (in_nth _ (m_rows x) i ltac:(lia)) as (r & Er & _). destruct (in_nth _ (m_rows y) j ltac:(lia)) as (s & Es & _).
    pose proof (Hd i j ltac:(lia) ltac:(lia)) as H1. rewrite (outer_entry _ _ cell _ _ i j r s Er Es) in H1.
    pose proof (Hd' (N - 1 - i)%nat (M - 1 - j)%nat ltac:(lia) ltac:(lia)) as H2.
    pose proof (outer_entry _ _ cell _ _ _ _ r s (nth_error_rev _ _ _ _ Er) (nth_error_rev _ _ _ _ Es)) as H3.
    fold N M in H3. rewrite H3 in H2. congruence. }
  assert (D' : forall i j, (i <= N - 1)%nat -> (j <= M - 1)%nat -> d (N - 1 - i)%nat (M - 1 - j)%nat = d' i j).
  { intros i j Hi Hj. rewrite <- D by lia. f_equal; lia. }
  apply Rle_antisym.
  - exact (turned_le _ _ d d' p p' v v' D (proj1 O) Ev O' Ev').
  - exact (turned_le _ _ d' d p' p v' v D' (proj1 O') Ev' O Ev).
Qed.
