From Coq Require Import Reals List Arith Lia Lra Bool.
From Verif Require Import Prelude PyCall Metrics Metrics_spec Metrics_proofs Metrics_cosine Metrics_kl Metrics_heap Metrics_values
  Dtw Dtw_spec Dtw_proofs Dtw_hom DefaultDistance DefaultDistance_spec.
Import ListNotations.
Local Open Scope R_scope.

Definition rleb (a b : R) : bool := if Rle_dec a b then true else false.
Definition rdivn (a : R) (n : nat) : R := a / INR n.

Lemma rleb_true a b : rleb a b = true <-> a <= b.
Proof. unfold rleb. destruct (Rle_dec a b); split; intros; try assumption; try reflexivity; try discriminate; contradiction. Qed.

Lemma ordered_R : ordered Rplus rleb.
Proof.
  constructor.
  - intros a b. rewrite !rleb_true. destruct (Rle_dec a b); [left|right]; lra.
  - intros a b c. rewrite !rleb_true. lra.
  - intros d a b. rewrite !rleb_true. lra.
Qed.

Lemma rleb_antisym a b : rleb a b = true -> rleb b a = true -> a = b.
Proof. rewrite !rleb_true. lra. Qed.

Section Warp.
Variable g : frame -> frame -> R.
Variables xs ys : list frame.
Hypothesis Hx : xs <> [].
Hypothesis Hy : ys <> [].

Local Notation dist := (map (fun x => map (g x) ys) xs).
Local Notation d := (Dtw_spec.entry 0 dist).

Lemma dist_shape {A} (h : frame -> frame -> A) us vs : shape (length us) (length vs) (map (fun x => map (h x) vs) us).
Proof.
  split; [apply map_length|]. intros row Hr. apply in_map_iff in Hr. destruct Hr as (x & <- & _). apply map_length.
Qed.

Lemma entry_dist {A} (z : A) (h : frame -> frame -> A) us vs i j : (i < length us)%nat -> (j < length vs)%nat ->
  Dtw_spec.entry z (map (fun x => map (h x) vs) us) i j = h (nth i us []) (nth j vs []).
Proof.
  intros Hi Hj. unfold Dtw_spec.entry.
  rewrite (nth_indep _ [] (map (h []) vs)) by (rewrite map_length; exact Hi).
  rewrite (map_nth (fun x => map (h x) vs)).
  rewrite (nth_indep _ z (h (nth i us []) [])) by (rewrite map_length; exact Hj).
  apply map_nth.
Qed.

Lemma alignment_inside a p : alignment a p -> Forall (fun b => (fst b <= fst a /\ snd b <= snd a)%nat) p.
Proof.
  induction 1 as [|a b p A IH M]; [repeat constructor; cbn; lia|]. constructor; [lia|].
  eapply Forall_impl; [|exact IH]. intros c. cbn beta. destruct M; cbn [fst snd]; lia.
Qed.

Lemma cost_along_from p : p <> [] -> Forall (fun b => (fst b < length xs /\ snd b < length ys)%nat) p ->
  cost_of Rplus d p = Some (along g xs ys p).
Proof.
  induction p as [|[i j] p IH]; intros N F; [congruence|]. inversion F as [|? ? [Hi Hj] F']; subst. cbn [fst snd] in *.
  cbn [along fold_right fst snd]. rewrite <- entry_dist with (z := 0) by assumption.
  destruct p as [|b p]; [cbn [cost_of fold_right]; f_equal; lra|].
  specialize (IH ltac:(discriminate) F'). erewrite cost_of_cons by exact IH. reflexivity.
Qed.

Lemma cost_along p : whole xs ys p -> cost_of Rplus d p = Some (along g xs ys p).
Proof.
  intros A. apply cost_along_from; [inversion A; discriminate|].
  eapply Forall_impl; [|exact (alignment_inside _ _ A)]. intros b. cbn [fst snd].
  assert (0 < length xs)%nat by (destruct xs; [congruence|cbn; lia]).
  assert (0 < length ys)%nat by (destruct ys; [congruence|cbn; lia]). lia.
Qed.

Lemma optimal_least p : optimal Rplus rleb d (length xs - 1, length ys - 1)%nat p -> least g xs ys p.
Proof.
  intros [A O]. split; [exact A|]. intros q B. apply rleb_true. eapply O; [exact B| |]; apply cost_along; assumption.
Qed.

Lemma warped_least t w t' w' (empty : costs num) :
  exists p, least g xs ys p /\ (length p <= length xs + length ys - 1)%nat /\
    (Nat.max (length xs) (length ys) <= length p)%nat /\
    forall normalized, warped (array t w xs) (array t' w' ys) (all_pairs (fun x y => Some (g x y)) xs ys) normalized empty
      = Ok (Some (if normalized then along g xs ys p / INR (length p) else along g xs ys p)).
Proof.
  assert (Nx : (0 < length xs)%nat) by (destruct xs; [congruence|cbn; lia]).
  assert (Ny : (0 < length ys)%nat) by (destruct ys; [congruence|cbn; lia]).
  destruct (@dtw_normalised _ Rplus rleb rdivn ordered_R _ (fun _ _ => Ok dist) 0 xs ys dist (fun _ _ => 0) Hx Hy eq_refl
              (dist_shape g xs ys)) as (c & p & E1 & E2 & O & L).
  destruct (@dtw_optimal _ Rplus rleb rdivn ordered_R _ (fun _ _ => Ok dist) 0 xs ys dist (fun _ _ => 0) Hx Hy eq_refl
              (dist_shape g xs ys)) as (c' & p' & E1' & O' & C').
  rewrite E1 in E1'. injection E1' as <-.
  assert (Cp : c = along g xs ys p).
  { rewrite (optimal_cost _ Rplus rleb rleb_antisym d _ _ _ O' O) in C'. rewrite cost_along in C' by exact (proj1 O).
    injection C' as <-. reflexivity. }
  subst c. exists p. split; [apply optimal_least; exact O|]. split; [lia|]. split; [lia|].
  assert (H : forall normalized, warped (array t w xs) (array t' w' ys) (all_pairs (fun x y => Some (g x y)) xs ys) normalized empty
    = (c <- dtw Rplus rleb rdivn xs ys (fun _ _ => Ok dist) normalized (fun _ _ => 0) ;; Ok (Some c))).
  { intros normalized. unfold warped, dtw. cbn [array m_rows bind]. rewrite !map_length.
    unfold frame in *. rewrite !(proj2 (Nat.eqb_neq _ 0)) by lia. cbn [orb].
    change (dtw_costs (lift2 Rplus) nle ndivn (length xs) (length ys) (all_pairs (fun x y => Some (g x y)) xs ys) normalized empty
            = bind (dtw_costs Rplus rleb rdivn (length xs) (length ys) dist normalized (fun _ _ => 0)) (fun c => Ok (Some c))).
    apply (dtw_costs_hom Rplus rleb rdivn (lift2 Rplus) nle ndivn (@Some R)) with (z := 0); try assumption.
    - reflexivity.
    - reflexivity.
    - intros a n Hn. unfold ndivn, ndiv, rdivn. destruct (Req_EM_T (INR n) 0) as [Z|_]; [|reflexivity].
      exfalso. apply not_0_INR in Hn. contradiction.
    - apply (dist_shape g xs ys).
    - apply (dist_shape (fun x y => Some (g x y)) xs ys).
    - intros i j Hi Hj. unfold all_pairs. rewrite (entry_dist (Some 0) (fun x y => Some (g x y))), (entry_dist 0 g) by assumption. reflexivity. }
  intros [|]; rewrite H, ?E1, ?E2; reflexivity.
Qed.

End Warp.

(** ** Sums along alignments *)

Definition inside (xs ys : list frame) (p : list (nat * nat)) : Prop :=
  Forall (fun b => (fst b < length xs /\ snd b < length ys)%nat) p.

Lemma whole_inside xs ys p : xs <> [] -> ys <> [] -> whole xs ys p -> inside xs ys p.
Proof.
  intros Hx Hy A. eapply Forall_impl; [|exact (alignment_inside _ _ A)]. intros b. cbn [fst snd].
  assert (0 < length xs)%nat by (destruct xs; [congruence|cbn; lia]).
  assert (0 < length ys)%nat by (destruct ys; [congruence|cbn; lia]). lia.
Qed.

Section Sums.
Variable g : frame -> frame -> R.
Variables xs ys : list frame.

Lemma matched_in (P : frame -> frame -> Prop) p : (forall x y, In x xs -> In y ys -> P x y) -> inside xs ys p ->
  Forall (fun a => P (nth (fst a) xs []) (nth (snd a) ys [])) p.
Proof.
  intros H F. eapply Forall_impl; [|exact F]. intros a [H1 H2]. apply H; apply nth_In; assumption.
Qed.

Lemma along_nonneg p : (forall x y, In x xs -> In y ys -> 0 <= g x y) -> inside xs ys p -> 0 <= along g xs ys p.
Proof.
  intros H F. apply (matched_in _ _ H) in F. induction F as [|a p Ha F IH]; [cbn; lra|]. cbn [along fold_right].
  fold (along g xs ys p). lra.
Qed.

Lemma along_bound p : (forall x y, In x xs -> In y ys -> g x y <= 1) -> inside xs ys p -> along g xs ys p <= INR (length p).
Proof.
  intros H F. apply (matched_in _ _ H) in F. induction F as [|a p Ha F IH]; [cbn; lra|].
  change (length (a :: p)) with (S (length p)). rewrite S_INR. cbn [along fold_right]. fold (along g xs ys p). lra.
Qed.

Lemma along_zero p : (forall x y, In x xs -> In y ys -> 0 <= g x y) -> inside xs ys p ->
  along g xs ys p = 0 <-> matches (fun x y => g x y = 0) xs ys p.
Proof.
  intros H F. unfold matches. induction p as [|a p IH]; [split; [constructor|reflexivity]|]. cbn [along fold_right].
  fold (along g xs ys p). inversion F as [|? ? [H1 H2] F']; subst. specialize (IH F').
  pose proof (H _ _ (nth_In xs [] H1) (nth_In ys [] H2)) as Ha. pose proof (along_nonneg p H F') as Hp. split.
  - intros E. constructor; [lra|]. apply IH. lra.
  - intros K. inversion K as [|? ? E K']; subst. cbn beta in E. apply IH in K'. lra.
Qed.

Lemma least_sum p q : least g xs ys p -> least g xs ys q -> along g xs ys p = along g xs ys q.
Proof. intros [A H] [B K]. specialize (H _ B). specialize (K _ A). lra. Qed.

Lemma matches_iff (P Q : frame -> frame -> Prop) p : (forall x y, In x xs -> In y ys -> (P x y <-> Q x y)) -> inside xs ys p ->
  matches P xs ys p <-> matches Q xs ys p.
Proof.
  intros H F. unfold matches. induction F as [|a p [H1 H2] F IH]; [split; constructor|].
  pose proof (H _ _ (nth_In xs [] H1) (nth_In ys [] H2)) as Ha.
  split; intros K; inversion K; subst; constructor; tauto.
Qed.

Lemma least_zero (r : frame -> frame -> Prop) p : xs <> [] -> ys <> [] ->
  (forall x y, In x xs -> In y ys -> 0 <= g x y /\ (g x y = 0 <-> r x y)) -> least g xs ys p ->
  (along g xs ys p = 0 <-> exists q, whole xs ys q /\ matches r xs ys q).
Proof.
  intros Nx Ny H [A L]. assert (H0 : forall x y, In x xs -> In y ys -> 0 <= g x y) by (intros; apply H; assumption).
  assert (H1 : forall x y, In x xs -> In y ys -> g x y = 0 <-> r x y) by (intros; apply H; assumption).
  pose proof (whole_inside xs ys p Nx Ny A) as I. split.
  - intros E. exists p. split; [exact A|]. apply (matches_iff _ _ p H1 I). apply along_zero; assumption.
  - intros (q & B & Q). pose proof (whole_inside xs ys q Nx Ny B) as J. apply (matches_iff _ _ q H1 J) in Q.
    apply along_zero in Q; try assumption. specialize (L q B). pose proof (along_nonneg p H0 I). lra.
Qed.

End Sums.

Lemma along_flip g xs ys p : (forall x y, g x y = g y x) -> along g ys xs (flip p) = along g xs ys p.
Proof. intros H. induction p as [|a p IH]; [reflexivity|]. cbn [flip map along fold_right fst snd]. fold (flip p). fold (along g ys xs (flip p)). fold (along g xs ys p). rewrite IH, H. reflexivity. Qed.

Lemma flip_whole xs ys p : whole xs ys p -> whole ys xs (flip p).
Proof. intros H. apply (flip_alignment _ _ H). Qed.

Lemma flip_flip p : flip (flip p) = p.
Proof. induction p as [|[i j] p IH]; cbn; [reflexivity|]. unfold flip in IH. rewrite IH. reflexivity. Qed.

Lemma least_flip g xs ys p : (forall x y, g x y = g y x) -> least g xs ys p -> least g ys xs (flip p).
Proof.
  intros H [A L]. split; [apply flip_whole; exact A|]. intros q B. rewrite along_flip by exact H.
  rewrite <- (flip_flip q). rewrite along_flip by exact H. apply L. apply flip_whole. exact B.
Qed.

(** The alignment of a sequence with itself. *)
Fixpoint diagonal (n : nat) : list (nat * nat) :=
  match n with 0%nat => [(0, 0)%nat] | S n' => (n, n) :: diagonal n' end.
Lemma diagonal_alignment n : alignment (n, n) (diagonal n).
Proof. induction n; [constructor|]. cbn [diagonal]. eapply al_move; [exact IHn|constructor]. Qed.
Lemma diagonal_same n : Forall (fun a => fst a = snd a) (diagonal n).
Proof. induction n; constructor; auto. Qed.

Lemma self_zero g xs p : xs <> [] -> (forall x, In x xs -> g x x = 0) -> (forall x y, In x xs -> In y xs -> 0 <= g x y) ->
  least g xs xs p -> along g xs xs p = 0.
Proof.
  intros N H H0 L. apply (least_zero g xs xs (fun x y => g x y = 0) p N N); [|exact L|].
  - intros x y Hx Hy. split; [auto|tauto].
  - exists (diagonal (length xs - 1)). assert (W : whole xs xs (diagonal (length xs - 1))) by apply diagonal_alignment.
    split; [exact W|]. pose proof (whole_inside xs xs _ N N W) as I. unfold matches. unfold inside in I.
    pose proof (diagonal_same (length xs - 1)) as D. rewrite Forall_forall in *. intros a Ha.
    rewrite <- (D a Ha). apply H. apply nth_In. apply (I a Ha).
Qed.

Lemma div_zero a n : (0 < n)%nat -> a / INR n = 0 <-> a = 0.
Proof.
  intros Hn. apply lt_INR in Hn. cbn in Hn. split; [|intros ->; unfold Rdiv; ring].
  intros E. apply Rmult_integral in E. destruct E as [E|E]; [exact E|].
  assert (/ INR n <> 0) by (apply Rinv_neq_0_compat; lra). contradiction.
Qed.

Lemma div_nonneg a n : 0 <= a -> (0 < n)%nat -> 0 <= a / INR n.
Proof. intros Ha Hn. apply lt_INR in Hn. cbn in Hn. unfold Rdiv. apply Rmult_le_pos; [exact Ha|]. apply Rlt_le, Rinv_0_lt_compat, Hn. Qed.

Lemma div_le_1 a n : a <= INR n -> (0 < n)%nat -> a / INR n <= 1.
Proof.
  intros Ha Hn. apply lt_INR in Hn. cbn in Hn. apply (Rmult_le_reg_r (INR n)); [exact Hn|].
  unfold Rdiv. rewrite Rmult_assoc, Rinv_l by lra. lra.
Qed.

Lemma whole_pos xs ys p : whole xs ys p -> (0 < length p)%nat.
Proof. intros H. inversion H; cbn; lia. Qed.

(** ** The default distance *)

Lemma frames_array t w xs : frames (array t w xs) = length xs.
Proof. unfold frames. cbn [array m_rows]. apply map_length. Qed.

Lemma frames_pos t w xs : xs <> [] -> (0 <? frames (array t w xs))%nat = true.
Proof. intros N. rewrite frames_array. apply Nat.ltb_lt. destruct xs; [congruence|cbn; lia]. Qed.

Lemma cosine_between_value : cosine_between cosine_value.
Proof.
  destruct cosine_spec as (f & _ & _).
  assert (Z : forall x, zerob x = true <-> zero_frame x).
  { intros x. pose proof (zerob_spec x) as H. destruct (zerob x); split; intros; try assumption; try reflexivity; try discriminate; contradiction. }
  split; [|split; [|split]].
  - intros x y Hx Hy. unfold cosine_value. rewrite (proj2 (Z x) Hx), (proj2 (Z y) Hy). reflexivity.
  - intros x y Hx Hy. unfold cosine_value. rewrite (proj2 (Z x) Hx). destruct (zerob y) eqn:E; [|reflexivity].
    exfalso. apply Hy. apply Z. exact E.
  - intros x y Hx Hy. unfold cosine_value. rewrite (proj2 (Z y) Hy). destruct (zerob x) eqn:E; [|reflexivity].
    exfalso. apply Hx. apply Z. exact E.
  - apply cosine_value_angle.
Qed.

Lemma default_least t w xs ys empty : is_float t -> xs <> [] -> ys <> [] ->
  exists p, least cosine_value xs ys p /\ (Nat.max (length xs) (length ys) <= length p <= length xs + length ys - 1)%nat /\
  forall normalized, default_distance empty (array t w xs) (array t w ys) normalized
    = Ok (Value (Some (if normalized then along cosine_value xs ys p / INR (length p) else along cosine_value xs ys p))).
Proof.
  intros Ht Nx Ny. destruct (warped_least cosine_value xs ys Nx Ny t w t w empty) as (p & L & H1 & H2 & E).
  exists p. split; [exact L|]. split; [lia|]. intros normalized. unfold default_distance.
  rewrite !frames_pos, cosine_distance_value by assumption. cbn [andb bind]. rewrite E. reflexivity.
Qed.

Lemma default_value : exists f, cosine_between f /\
  forall t w xs ys empty, is_float t -> xs <> [] -> ys <> [] ->
  exists p, least f xs ys p /\ (Nat.max (length xs) (length ys) <= length p <= length xs + length ys - 1)%nat /\
  default_distance empty (array t w xs) (array t w ys) false = Ok (Value (Some (along f xs ys p))) /\
  default_distance empty (array t w xs) (array t w ys) true = Ok (Value (Some (along f xs ys p / INR (length p)))).
Proof.
  exists cosine_value. split; [exact cosine_between_value|]. intros t w xs ys empty Ht Nx Ny.
  destruct (default_least t w xs ys empty Ht Nx Ny) as (p & L & B & E). exists p. repeat split; try apply L; try apply B; apply E.
Qed.

Lemma default_empty empty x y normalized : m_rows x = [] \/ m_rows y = [] ->
  (m_rows x = [] -> m_rows y = [] -> default_distance empty x y normalized = Ok (Value (Some 0))) /\
  (m_rows x <> [] \/ m_rows y <> [] -> default_distance empty x y normalized = Ok Infinite).
Proof.
  unfold default_distance, frames. intros H. split.
  - intros -> ->. reflexivity.
  - destruct (m_rows x) as [|r xr], (m_rows y) as [|s yr]; intros [K|K]; destruct H; try congruence; reflexivity.
Qed.

Lemma same_direction_zero w xs ys x y : frames_of w xs -> frames_of w ys -> In x xs -> In y ys ->
  cosine_value x y = 0 <-> same_direction x y.
Proof.
  intros Wx Wy Ix Iy. unfold frames_of in *. rewrite Forall_forall in *.
  pose proof (Wx x Ix) as Lx. pose proof (Wy y Iy) as Ly.
  destruct (cosine_extremes Float64 w [x] [y] _ (or_introl eq_refl) ltac:(repeat constructor; assumption) ltac:(repeat constructor; assumption)
              (cosine_distance_value Float64 w [x] [y] (or_introl eq_refl)) 0%nat 0%nat x y eq_refl eq_refl) as [H _].
  cbn in H. unfold same_direction. rewrite <- H. split; [intros ->; reflexivity|congruence].
Qed.

Lemma default_laws t w xs ys empty normalized : is_float t -> frames_of w xs -> frames_of w ys -> xs <> [] -> ys <> [] ->
  exists v, default_distance empty (array t w xs) (array t w ys) normalized = Ok (Value (Some v)) /\
    0 <= v /\ (normalized = true -> v <= 1) /\
    (v = 0 <-> exists p, whole xs ys p /\ matches same_direction xs ys p).
Proof.
  intros Ht Wx Wy Nx Ny. destruct (default_least t w xs ys empty Ht Nx Ny) as (p & L & B & E).
  rewrite E. eexists. split; [reflexivity|]. clear E.
  pose proof (whole_pos _ _ _ (proj1 L)) as Pp. pose proof (whole_inside xs ys p Nx Ny (proj1 L)) as I.
  assert (G : 0 <= along cosine_value xs ys p) by (apply along_nonneg; [intros; apply cosine_value_range|exact I]).
  assert (G1 : along cosine_value xs ys p <= INR (length p)) by (apply along_bound; [intros; apply cosine_value_range|exact I]).
  assert (Z : along cosine_value xs ys p = 0 <-> exists q, whole xs ys q /\ matches same_direction xs ys q).
  { apply least_zero; try assumption. intros x y Hx Hy. split; [apply cosine_value_range|]. apply (same_direction_zero w xs ys); assumption. }
  destruct normalized; (split; [|split]).
  - apply div_nonneg; assumption.
  - intros _. apply div_le_1; assumption.
  - rewrite div_zero by assumption. exact Z.
  - exact G.
  - discriminate.
  - exact Z.
Qed.

Lemma default_symmetric t w xs ys empty empty' : is_float t ->
  default_distance empty (array t w xs) (array t w ys) false = default_distance empty' (array t w ys) (array t w xs) false.
Proof.
  intros Ht. destruct xs as [|x xs]; destruct ys as [|y ys]; try reflexivity.
  destruct (default_least t w (x :: xs) (y :: ys) empty Ht ltac:(discriminate) ltac:(discriminate)) as (p & L & _ & E).
  destruct (default_least t w (y :: ys) (x :: xs) empty' Ht ltac:(discriminate) ltac:(discriminate)) as (q & M & _ & F).
  rewrite E, F. cbv iota. do 3 f_equal. apply least_flip in L; [|exact cosine_value_sym].
  rewrite <- (along_flip cosine_value (x :: xs)) by exact cosine_value_sym. apply least_sum; assumption.
Qed.

Lemma cosine_self x : cosine_value x x = 0.
Proof.
  destruct cosine_between_value as (Z & _ & _ & A). pose proof (zerob_spec x) as H. destruct (zerob x).
  - apply Z; exact H.
  - destruct (same_direction_zero (length x) [x] [x] x x) as [_ K]; try (repeat constructor; fail); try (left; reflexivity).
    apply K. right. split; [exact H|]. exists 1. split; [lra|]. unfold scale. clear. induction x as [|a x IH]; [reflexivity|]. cbn [map]. rewrite <- IH. f_equal. ring.
Qed.

Lemma default_self t w xs empty normalized : is_float t ->
  default_distance empty (array t w xs) (array t w xs) normalized = Ok (Value (Some 0)).
Proof.
  intros Ht. destruct xs as [|x xs]; [reflexivity|].
  destruct (default_least t w (x :: xs) (x :: xs) empty Ht ltac:(discriminate) ltac:(discriminate)) as (p & L & _ & E).
  rewrite E. pose proof (self_zero cosine_value (x :: xs) p ltac:(discriminate) (fun x _ => cosine_self x)
    (fun x y _ _ => proj1 (cosine_value_range x y)) L) as Z. rewrite Z.
  destruct normalized; [|reflexivity]. do 3 f_equal. unfold Rdiv. ring.
Qed.

Lemma default_types empty x y normalized : m_rows x <> [] -> m_rows y <> [] ->
  (~ (is_float (m_type x) /\ m_type y = m_type x) -> default_distance empty x y normalized = Err AssertionError) /\
  (is_float (m_type x) -> m_type y = m_type x -> m_cols x <> m_cols y ->
     default_distance empty x y normalized = Err ValueError).
Proof.
  intros Nx Ny. unfold default_distance, frames.
  destruct (m_rows x) as [|r xr] eqn:Ex; [congruence|]. destruct (m_rows y) as [|s yr] eqn:Ey; [congruence|].
  cbn [length Nat.ltb Nat.leb andb]. destruct (cosine_types x y) as [A B]. split.
  - intros H. rewrite A by exact H. reflexivity.
  - intros. rewrite B by assumption. reflexivity.
Qed.

(** ** The distance with the Kullback-Leibler divergence *)

Definition kl_usable (x : frame) : Prop := nonnegative x /\ 0 < total x.

Lemma kl_least t w e xs ys h i j empty : precision t e -> (0 < w)%nat -> frames_of w xs -> frames_of w ys ->
  Forall (usable true) xs -> Forall (usable true) ys ->
  nth_error h i = Some (array t w xs) -> nth_error h j = Some (array t w ys) -> xs <> [] -> ys <> [] ->
  exists p h', least (kl_between e) xs ys p /\ (Nat.max (length xs) (length ys) <= length p <= length xs + length ys - 1)%nat /\
  (exists d, kl_divergence true true true h i j = Ok (h', d)) /\
  forall normalized, dtw_kl_distance empty h i j normalized
    = Ok (h', Value (Some (if normalized then along (kl_between e) xs ys p / INR (length p) else along (kl_between e) xs ys p))).
Proof.
  intros He Hw Wx Wy Ux Uy Hi Hj Nx Ny.
  destruct (warped_least (kl_between e) xs ys Nx Ny t w t w empty) as (p & L & H1 & H2 & E).
  pose proof (kl_value true true true t w e xs ys h i j He Hw Wx Wy Ux Uy Hi Hj) as K. unfold returned in K.
  destruct (kl_divergence true true true h i j) as [[h' d]|x] eqn:D; [|discriminate]. cbn [bind snd] in K. injection K as K. subst d.
  exists p, h'. split; [exact L|]. split; [lia|]. split; [eexists; reflexivity|]. intros normalized. unfold dtw_kl_distance.
  unfold nth_res. rewrite Hi, Hj. cbn [bind]. rewrite !frames_pos by assumption. cbn [andb]. rewrite D. cbn [bind snd fst].
  unfold kl_between, prepared in *. rewrite E. reflexivity.
Qed.

Lemma kl_empty empty h i j x y normalized : nth_error h i = Some x -> nth_error h j = Some y -> m_rows x = [] \/ m_rows y = [] ->
  (m_rows x = [] -> m_rows y = [] -> dtw_kl_distance empty h i j normalized = Ok (h, Value (Some 0))) /\
  (m_rows x <> [] \/ m_rows y <> [] -> dtw_kl_distance empty h i j normalized = Ok (h, Infinite)).
Proof.
  unfold dtw_kl_distance, frames, nth_res. intros -> -> H. cbn [bind]. split.
  - intros -> ->. reflexivity.
  - destruct (m_rows x) as [|r xr], (m_rows y) as [|s yr]; intros [K|K]; destruct H; try congruence; reflexivity.
Qed.

Lemma kl_between_laws w e x y : 0 < e -> (0 < w)%nat -> length x = w -> length y = w -> usable true x -> usable true y ->
  0 <= kl_between e x y /\ (kl_between e x y = 0 <-> prob x = prob y).
Proof.
  intros He Hw Lx Ly Vx Vy.
  set (p := prepared true true e x). set (q := prepared true true e y).
  assert (L : length p = length q) by (unfold p, q; rewrite !prepared_length; congruence).
  assert (Pp : positive p) by (apply prepared_positive; assumption).
  assert (Pq : positive q) by (apply prepared_positive; assumption).
  assert (T : total p = total q).
  { unfold p, q. rewrite (usable_prepared_total w), (usable_prepared_total w); auto. }
  destruct (KL_nonneg p q L Pp Pq T) as [A1 A2].
  destruct (KL_nonneg q p (eq_sym L) Pq Pp (eq_sym T)) as [B1 B2].
  assert (Q : p = q <-> prob x = prob y).
  { split; [|intros E; unfold p, q, prepared; rewrite E; reflexivity]. intros E.
    unfold p, q, prepared in E.
    assert (Tx : total (prob x) = 1) by (apply total_prob; destruct Vx; lra).
    assert (Ty : total (prob y) = 1) by (apply total_prob; destruct Vy; lra).
    assert (TT : forall u, length u = w -> total u = 1 -> total (shift e u) = 1 + INR w * e).
    { clear. intros u <- <-. induction u as [|a u IH]; [cbn; lra|]. change (length (a :: u)) with (S (length u)). rewrite S_INR.
      unfold shift in *. cbn [map total]. rewrite IH. lra. }
    unfold prob at 1 3 in E. rewrite (TT (prob x)), (TT (prob y)) in E by (rewrite ?prob_length; assumption).
    assert (C : 0 < 1 + INR w * e).
    { pose proof (pos_INR w). assert (0 <= INR w * e) by (apply Rmult_le_pos; lra). lra. }
    revert E C. generalize (1 + INR w * e). generalize (prob x) (prob y). clear. intros u. induction u as [|a u IH]; intros [|b v] c E C; cbn in E;
      try discriminate; [reflexivity|]. injection E as E1 E2. f_equal.
    - unfold Rdiv in E1. apply Rmult_eq_reg_r in E1; [lra|]. apply Rinv_neq_0_compat. lra.
    - eapply IH; eassumption. }
  change (kl_between e x y) with (KL_symmetric p q). unfold KL_symmetric.
  split; [lra|]. rewrite <- Q. split; [intros Z; apply A2; lra|].
  intros E. rewrite (proj2 A2 E), (proj2 B2 (eq_sym E)). lra.
Qed.

Lemma kl_between_sym e x y : kl_between e x y = kl_between e y x.
Proof. unfold kl_between, KL_symmetric. lra. Qed.

Lemma frames_laws w e xs ys : 0 < e -> (0 < w)%nat -> frames_of w xs -> frames_of w ys -> Forall (usable true) xs -> Forall (usable true) ys ->
  forall x y, In x xs -> In y ys -> 0 <= kl_between e x y /\ (kl_between e x y = 0 <-> prob x = prob y).
Proof.
  intros He Hw Wx Wy Ux Uy x y Hx Hy. unfold frames_of in *. rewrite Forall_forall in *. eapply kl_between_laws; eauto.
Qed.

Lemma kl_value_item t w e xs ys h i j empty : precision t e -> (0 < w)%nat -> frames_of w xs -> frames_of w ys ->
  Forall (usable true) xs -> Forall (usable true) ys ->
  nth_error h i = Some (array t w xs) -> nth_error h j = Some (array t w ys) -> xs <> [] -> ys <> [] ->
  exists p h', least (kl_between e) xs ys p /\ (Nat.max (length xs) (length ys) <= length p <= length xs + length ys - 1)%nat /\
  dtw_kl_distance empty h i j false = Ok (h', Value (Some (along (kl_between e) xs ys p))) /\
  dtw_kl_distance empty h i j true = Ok (h', Value (Some (along (kl_between e) xs ys p / INR (length p)))) /\
  nth_error h' i = Some (array t w (map prob xs)) /\ nth_error h' j = Some (array t w (map prob ys)) /\
  forall k, k <> i -> k <> j -> nth_error h' k = nth_error h k.
Proof.
  intros He Hw Wx Wy Ux Uy Hi Hj Nx Ny.
  destruct (kl_least t w e xs ys h i j empty) as (p & h' & L & B & (d & D) & E); try assumption.
  exists p, h'. split; [exact L|]. split; [exact B|]. split; [apply E|]. split; [apply E|].
  assert (Ht : is_float t) by (destruct He as [[-> _]|[-> _]]; [left|right]; reflexivity).
  assert (TZ : forall l, Forall (usable true) l -> Forall (fun x => total x <> 0) l)
    by (intros l; apply Forall_impl; intros x [_ H]; lra).
  destruct (effect (KullbackLeibler true true true) h i j h' d t w xs w ys Ht Hi Hj (TZ _ Ux) (TZ _ Uy) D) as [K _].
  apply K. left. reflexivity.
Qed.

Lemma kl_laws_item t w e xs ys h i j empty normalized : precision t e -> (0 < w)%nat -> frames_of w xs -> frames_of w ys ->
  Forall (usable true) xs -> Forall (usable true) ys ->
  nth_error h i = Some (array t w xs) -> nth_error h j = Some (array t w ys) -> xs <> [] -> ys <> [] ->
  exists h' v, dtw_kl_distance empty h i j normalized = Ok (h', Value (Some v)) /\ 0 <= v /\
    (v = 0 <-> exists p, whole xs ys p /\ matches (fun x y => prob x = prob y) xs ys p).
Proof.
  intros He Hw Wx Wy Ux Uy Hi Hj Nx Ny.
  destruct (kl_least t w e xs ys h i j empty) as (p & h' & L & B & _ & E); try assumption.
  destruct (precision_eps t e He) as [_ Pe].
  rewrite E. exists h'. eexists. split; [reflexivity|]. clear E.
  pose proof (whole_pos _ _ _ (proj1 L)) as Pp. pose proof (whole_inside xs ys p Nx Ny (proj1 L)) as I.
  pose proof (frames_laws w e xs ys Pe Hw Wx Wy Ux Uy) as F.
  assert (G : 0 <= along (kl_between e) xs ys p) by (apply along_nonneg; [intros; apply F; assumption|exact I]).
  assert (Z : along (kl_between e) xs ys p = 0 <-> exists q, whole xs ys q /\ matches (fun x y => prob x = prob y) xs ys q)
    by (apply least_zero; assumption).
  destruct normalized; split; try assumption.
  - apply div_nonneg; assumption.
  - rewrite div_zero by assumption. exact Z.
Qed.

Lemma kl_symmetric_item t w e xs ys h i j empty empty' v v' : precision t e -> (0 < w)%nat -> frames_of w xs -> frames_of w ys ->
  Forall (usable true) xs -> Forall (usable true) ys ->
  nth_error h i = Some (array t w xs) -> nth_error h j = Some (array t w ys) ->
  dtw_kl_distance empty h i j false = Ok v -> dtw_kl_distance empty' h j i false = Ok v' -> snd v = snd v'.
Proof.
  intros He Hw Wx Wy Ux Uy Hi Hj E E'. destruct xs as [|x xs].
  - destruct (kl_empty empty h i j _ _ false Hi Hj (or_introl eq_refl)) as [A B].
    destruct (kl_empty empty' h j i _ _ false Hj Hi (or_intror eq_refl)) as [A' B'].
    destruct ys as [|y ys]; [rewrite A in E by reflexivity; rewrite A' in E' by reflexivity|
      rewrite B in E by (right; discriminate); rewrite B' in E' by (left; discriminate)]; injection E as <-; injection E' as <-; reflexivity.
  - destruct ys as [|y ys].
    + destruct (kl_empty empty h i j _ _ false Hi Hj (or_intror eq_refl)) as [_ B].
      destruct (kl_empty empty' h j i _ _ false Hj Hi (or_introl eq_refl)) as [_ B'].
      rewrite B in E by (left; discriminate). rewrite B' in E' by (right; discriminate). injection E as <-. injection E' as <-. reflexivity.
    + destruct (kl_least t w e (x :: xs) (y :: ys) h i j empty) as (p & h' & L & _ & _ & K); try assumption; try discriminate.
      destruct (kl_least t w e (y :: ys) (x :: xs) h j i empty') as (q & h'' & M & _ & _ & K'); try assumption; try discriminate.
      rewrite K in E. rewrite K' in E'. injection E as <-. injection E' as <-. cbn [snd]. do 2 f_equal.
      apply least_flip in L; [|exact (kl_between_sym e)].
      rewrite <- (along_flip (kl_between e) (x :: xs)) by exact (kl_between_sym e). apply least_sum; assumption.
Qed.
