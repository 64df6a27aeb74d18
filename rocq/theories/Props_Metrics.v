(** C45, C46, C47: distances between frames. *)

From Coq Require Import Reals List Bool Arith Lia Lra.
From Verif Require Import Prelude Metrics Metrics_spec Metrics_proofs Metrics_cosine Metrics_kl
  Metrics_heap Metrics_values Metrics_ex Metrics_nan.
Import ListNotations.
Local Open Scope R_scope.

(** The cosine distance of two frames is the angle between them in half turns; 0 between two
    zero frames, 1 between a zero frame and another one. *)
Theorem C45_angle :
  exists f : frame -> frame -> R,
  (forall t w xs ys, is_float t ->
     cosine_distance (array t w xs) (array t w ys) = Ok (all_pairs (fun x y => Some (f x y)) xs ys)) /\
  (forall x y, zero_frame x -> zero_frame y -> f x y = 0) /\
  (forall x y, zero_frame x -> ~ zero_frame y -> f x y = 1) /\
  (forall x y, ~ zero_frame x -> zero_frame y -> f x y = 1) /\
  (forall x y, length x = length y -> ~ zero_frame x -> ~ zero_frame y -> is_angle x y (f x y)).
Proof. exact cosine_spec. Qed.
Print Assumptions C45_angle.

Example C45_angle_ex :
  cosine_distance (array Float64 2 [[1; 0]; [0; 0]]) (array Float64 2 [[0; 2]; [3; 0]; [-1; 0]; [0; 0]])
  = Ok [[Some (1 / 2); Some 0; Some 1; Some 1]; [Some 1; Some 1; Some 1; Some 0]].
Proof. exact cosine_example. Qed.

(** All the distances are in [0, 1]. *)
Theorem C45_range :
  forall t w xs ys d, is_float t ->
  cosine_distance (array t w xs) (array t w ys) = Ok d ->
  forall i j x y, nth_error xs i = Some x -> nth_error ys j = Some y ->
  exists a, entry d i j = Some a /\ 0 <= a <= 1.
Proof. exact cosine_range. Qed.
Print Assumptions C45_range.

Example C45_range_ex :
  exists d, cosine_distance (array Float64 2 [[1; 0]; [0; 0]]) (array Float64 2 [[0; 2]; [3; 0]; [-1; 0]; [0; 0]])
  = Ok d /\ entry d 0 0 = Some (1 / 2).
Proof. eexists; split; [exact cosine_example|reflexivity]. Qed.

(** The distance does not depend on the order of the arrays. *)
Theorem C45_symmetric :
  forall t w xs ys d e, is_float t ->
  cosine_distance (array t w xs) (array t w ys) = Ok d ->
  cosine_distance (array t w ys) (array t w xs) = Ok e ->
  forall i j, (i < length xs)%nat -> (j < length ys)%nat -> entry e j i = entry d i j.
Proof. exact cosine_symmetric. Qed.
Print Assumptions C45_symmetric.

Example C45_symmetric_ex :
  exists d, cosine_distance (array Float64 2 [[1; 0]; [0; 0]]) (array Float64 2 [[0; 2]; [3; 0]; [-1; 0]; [0; 0]])
  = Ok d /\ entry d 1 2 = Some 1.
Proof. eexists; split; [exact cosine_example|reflexivity]. Qed.

(** 0 exactly for two zero frames or the same direction, 1 exactly for one zero frame or opposite
    directions, 1/2 exactly for orthogonal frames. *)
Theorem C45_extremes :
  forall t w xs ys d, is_float t -> frames_of w xs -> frames_of w ys ->
  cosine_distance (array t w xs) (array t w ys) = Ok d ->
  forall i j x y, nth_error xs i = Some x -> nth_error ys j = Some y ->
  (entry d i j = Some 0 <->
     (zero_frame x /\ zero_frame y) \/ (~ zero_frame x /\ exists c, 0 < c /\ y = scale c x)) /\
  (entry d i j = Some 1 <->
     (zero_frame x /\ ~ zero_frame y) \/ (~ zero_frame x /\ zero_frame y) \/
     (~ zero_frame x /\ exists c, c < 0 /\ y = scale c x)) /\
  (~ zero_frame x -> ~ zero_frame y -> (entry d i j = Some (1 / 2) <-> inner x y = 0)).
Proof. exact cosine_extremes. Qed.
Print Assumptions C45_extremes.

Example C45_extremes_ex :
  exists d, cosine_distance (array Float64 2 [[1; 0]; [0; 0]]) (array Float64 2 [[0; 2]; [3; 0]; [-1; 0]; [0; 0]])
  = Ok d /\ entry d 0 1 = Some 0 /\ [3; 0] = scale 3 [1; 0].
Proof.
  eexists; split; [exact cosine_example|]; split; [reflexivity|].
  unfold scale; cbn; repeat f_equal; lra.
Qed.

(** Arrays that are not both of the same floating point type, or have not as many columns, are
    refused. *)
Theorem C45_types :
  forall x y,
  (~ (is_float (m_type x) /\ m_type y = m_type x) -> cosine_distance x y = Err AssertionError) /\
  (is_float (m_type x) -> m_type y = m_type x -> m_cols x <> m_cols y ->
     cosine_distance x y = Err ValueError).
Proof. exact cosine_types. Qed.
Print Assumptions C45_types.

Example C45_types_ex :
  cosine_distance (array Float32 1 [[1]]) (array Float64 1 [[1]]) = Err AssertionError /\
  cosine_distance (array Float32 1 [[1]]) (array Float32 2 [[1; 2]]) = Err ValueError.
Proof. split; reflexivity. Qed.

(** When the frames have positive sums the normalised variant computes the same distances. *)
Theorem C45_normalized :
  forall t w xs ys h i j, is_float t ->
  frames_of w xs -> frames_of w ys ->
  Forall (fun x => 0 < total x) xs -> Forall (fun y => 0 < total y) ys ->
  nth_error h i = Some (array t w xs) -> nth_error h j = Some (array t w ys) ->
  returned (normalize_cosine_distance h i j) = cosine_distance (array t w xs) (array t w ys).
Proof. exact normalized_cosine. Qed.
Print Assumptions C45_normalized.

Example C45_normalized_ex :
  returned (normalize_cosine_distance [array Float64 2 [[1; 1]; [1; 3]]] 0 0) =
  cosine_distance (array Float64 2 [[1; 1]; [1; 3]]) (array Float64 2 [[1; 1]; [1; 3]]).
Proof.
  apply (C45_normalized Float64 2); try reflexivity; try (left; reflexivity); repeat constructor; cbn; lra.
Qed.

(** Two frames with a value that is not a number, none of which is zero, are refused... *)
Theorem C45_not_a_number :
  forall t w xr yr r s, is_float t -> In r xr -> In s yr -> length r = length s ->
  In None r \/ In None s -> ~ Forall (fun v => v = Some 0) r -> ~ Forall (fun v => v = Some 0) s ->
  cosine_distance (mk_mat t w xr) (mk_mat t w yr) = Err AssertionError.
Proof. exact cosine_nan. Qed.
Print Assumptions C45_not_a_number.

Example C45_not_a_number_ex :
  cosine_distance (mk_mat Float32 2 [[Some 1; Some 2]; [Some 1; None]]) (mk_mat Float32 2 [[Some 0; Some 0]; [Some 1; Some 2]])
  = Err AssertionError.
Proof.
  apply (C45_not_a_number _ _ _ _ [Some 1; None] [Some 1; Some 2]); cbn; try tauto; try (right; reflexivity);
    intros H; inversion H as [|? ? E _]; injection E; lra.
Qed.

(** ... so that the normalised variant refuses frames whose sum is zero. *)
Theorem C45_normalized_zero_sum :
  forall t w xs ys h i j, is_float t -> w <> 0%nat ->
  frames_of w xs -> frames_of w ys -> xs <> [] -> ys <> [] ->
  (exists x, In x xs /\ total x = 0) \/ (exists y, In y ys /\ total y = 0) ->
  nth_error h i = Some (array t w xs) -> nth_error h j = Some (array t w ys) ->
  normalize_cosine_distance h i j = Err AssertionError.
Proof. exact normalized_cosine_zero_sum. Qed.
Print Assumptions C45_normalized_zero_sum.

Example C45_normalized_zero_sum_ex :
  normalize_cosine_distance [array Float64 2 [[1; 1]; [1; 3]]; array Float64 2 [[2; -2]]] 0 1 = Err AssertionError.
Proof.
  apply (C45_normalized_zero_sum Float64 2 [[1; 1]; [1; 3]] [[2; -2]]); try reflexivity; try discriminate;
    try (left; reflexivity); try (repeat constructor; fail).
  right; exists [2; -2]; split; [left; reflexivity|cbn; lra].
Qed.

(** The entries are the Kullback-Leibler divergences of the distributions of the frames. With the
    threshold the frames only have to be nonnegative and not zero. *)
Theorem C46_kl_value :
  forall thr sym nrm t w e xs ys h i j, precision t e -> (0 < w)%nat ->
  frames_of w xs -> frames_of w ys -> Forall (usable thr) xs -> Forall (usable thr) ys ->
  nth_error h i = Some (array t w xs) -> nth_error h j = Some (array t w ys) ->
  returned (kl_divergence thr sym nrm h i j)
  = Ok (all_pairs (fun x y => Some ((if sym then KL_symmetric else KL)
                                      (prepared thr nrm e x) (prepared thr nrm e y))) xs ys).
Proof. exact kl_value. Qed.
Print Assumptions C46_kl_value.

Example C46_kl_value_ex :
  (forall sym : bool,
  returned (kl_divergence false sym true [array Float64 2 [[2; 2]]; array Float64 2 [[1; 3]]] 0 1)
  = Ok [[Some (if sym then (KL [/ 2; / 2] [/ 4; 3 / 4] + KL [/ 4; 3 / 4] [/ 2; / 2]) / 2
               else / 2 * ln 2 + / 2 * ln (2 / 3))]]).
Proof. exact kl_example. Qed.

(** They are nonnegative and are 0 exactly for equal distributions. *)
Theorem C46_kl_laws :
  forall thr sym nrm t w e xs ys h i j d, precision t e -> (0 < w)%nat ->
  thr || nrm = true ->
  frames_of w xs -> frames_of w ys -> Forall (usable thr) xs -> Forall (usable thr) ys ->
  nth_error h i = Some (array t w xs) -> nth_error h j = Some (array t w ys) ->
  returned (kl_divergence thr sym nrm h i j) = Ok d ->
  forall k l x y, nth_error xs k = Some x -> nth_error ys l = Some y ->
  exists v, entry d k l = Some v /\ 0 <= v /\
    (v = 0 <-> prepared thr nrm e x = prepared thr nrm e y).
Proof. exact kl_laws. Qed.
Print Assumptions C46_kl_laws.

Example C46_kl_laws_ex :
  exists v,
  returned (kl_divergence true true true [array Float32 2 [[1; 0]]; array Float32 2 [[0; 3]]] 0 1)
  = Ok [[Some v]] /\ 0 < v.
Proof. exact kl_default_example. Qed.

(** The symmetrised divergence is symmetric. *)
Theorem C46_kl_symmetric :
  forall thr nrm t w e xs ys h i j d d', precision t e -> (0 < w)%nat ->
  frames_of w xs -> frames_of w ys -> Forall (usable thr) xs -> Forall (usable thr) ys ->
  nth_error h i = Some (array t w xs) -> nth_error h j = Some (array t w ys) ->
  returned (kl_divergence thr true nrm h i j) = Ok d ->
  returned (kl_divergence thr true nrm h j i) = Ok d' ->
  forall k l, (k < length xs)%nat -> (l < length ys)%nat -> entry d' l k = entry d k l.
Proof. exact kl_symmetric. Qed.
Print Assumptions C46_kl_symmetric.

Example C46_kl_symmetric_ex :
  exists v,
  returned (kl_divergence false true true [array Float64 2 [[2; 2]]; array Float64 2 [[1; 3]]] 0 1) = Ok [[Some v]].
Proof. eexists; exact (kl_example true). Qed.

(** Jensen-Shannon divergence, and its square root. *)
Theorem C46_js_value :
  forall nrm t w xs ys h i j, is_float t -> (0 < w)%nat ->
  frames_of w xs -> frames_of w ys -> Forall positive xs -> Forall positive ys ->
  nth_error h i = Some (array t w xs) -> nth_error h j = Some (array t w ys) ->
  returned (js_divergence nrm h i j)
  = Ok (all_pairs (fun x y => Some (if nrm then JS (prob x) (prob y) else JS x y)) xs ys).
Proof. exact js_value_run. Qed.
Print Assumptions C46_js_value.

Example C46_js_value_ex :
  forall nrm : bool,
  returned (js_divergence nrm [array Float64 1 [[2]; [5]]; array Float64 1 [[2]]] 0 1)
  = Ok [[Some 0]; [Some (if nrm then 0 else (5 * ln (10 / 7) + 2 * ln (4 / 7)) / 2)]].
Proof. exact js_example. Qed.

Theorem C46_sqrt_js_value :
  forall t w xs ys h i j, is_float t -> (0 < w)%nat ->
  frames_of w xs -> frames_of w ys -> Forall positive xs -> Forall positive ys ->
  nth_error h i = Some (array t w xs) -> nth_error h j = Some (array t w ys) ->
  returned (sqrt_js_divergence h i j)
  = Ok (all_pairs (fun x y => Some (sqrt (JS (prob x) (prob y)))) xs ys).
Proof. exact sqrt_js_value_run. Qed.
Print Assumptions C46_sqrt_js_value.

Example C46_sqrt_js_value_ex :
  returned (sqrt_js_divergence [array Float64 2 [[2; 4]]; array Float64 2 [[1; 2]]] 0 1) = Ok [[Some 0]].
Proof. exact sqrt_js_example. Qed.

(** Between 0 and ln 2, symmetric, 0 exactly for equal distributions. *)
Theorem C46_js_laws :
  forall t w xs ys h i j d d', is_float t -> (0 < w)%nat ->
  frames_of w xs -> frames_of w ys -> Forall positive xs -> Forall positive ys ->
  nth_error h i = Some (array t w xs) -> nth_error h j = Some (array t w ys) ->
  returned (js_divergence true h i j) = Ok d ->
  returned (js_divergence true h j i) = Ok d' ->
  forall k l x y, nth_error xs k = Some x -> nth_error ys l = Some y ->
  exists v, entry d k l = Some v /\ entry d' l k = Some v /\ 0 <= v <= ln 2 /\
    (v = 0 <-> prob x = prob y).
Proof. exact js_laws. Qed.
Print Assumptions C46_js_laws.

Example C46_js_laws_ex :
  exists d, returned (js_divergence true [array Float64 1 [[2]; [5]]; array Float64 1 [[2]]] 0 1) = Ok d /\
  entry d 1 0 = Some 0.
Proof. eexists; split; [exact (js_example true)|reflexivity]. Qed.

Theorem C46_sqrt_js_laws :
  forall t w xs ys h i j d d', is_float t -> (0 < w)%nat ->
  frames_of w xs -> frames_of w ys -> Forall positive xs -> Forall positive ys ->
  nth_error h i = Some (array t w xs) -> nth_error h j = Some (array t w ys) ->
  returned (sqrt_js_divergence h i j) = Ok d ->
  returned (sqrt_js_divergence h j i) = Ok d' ->
  forall k l x y, nth_error xs k = Some x -> nth_error ys l = Some y ->
  exists v, entry d k l = Some v /\ entry d' l k = Some v /\ 0 <= v <= sqrt (ln 2) /\
    (v = 0 <-> prob x = prob y).
Proof. exact sqrt_js_laws. Qed.
Print Assumptions C46_sqrt_js_laws.

Example C46_sqrt_js_laws_ex :
  exists d, returned (sqrt_js_divergence [array Float64 2 [[2; 4]]; array Float64 2 [[1; 2]]] 0 1) = Ok d /\
  entry d 0 0 = Some 0.
Proof. eexists; split; [exact sqrt_js_example|reflexivity]. Qed.

(** Hellinger distance. *)
Theorem C46_hellinger_value :
  forall t w xs ys h i j, is_float t ->
  frames_of w xs -> frames_of w ys ->
  Forall (fun x => nonnegative x /\ 0 < total x) xs -> Forall (fun y => nonnegative y /\ 0 < total y) ys ->
  nth_error h i = Some (array t w xs) -> nth_error h j = Some (array t w ys) ->
  returned (hellinger_distance h i j)
  = Ok (all_pairs (fun x y => Some (Hellinger (prob x) (prob y))) xs ys).
Proof. exact hellinger_value. Qed.
Print Assumptions C46_hellinger_value.

Example C46_hellinger_value_ex :
  returned (hellinger_distance [array Float64 2 [[2; 0]]; array Float64 2 [[0; 3]; [5; 0]; [1; 3]]] 0 1)
  = Ok [[Some 1; Some 0; Some (sqrt (/ 2))]].
Proof. exact hellinger_example. Qed.

(** Between 0 and 1, symmetric, 0 exactly for equal distributions, 1 exactly for frames that share
    no dimension. *)
Theorem C46_hellinger_laws :
  forall t w xs ys h i j d d', is_float t ->
  frames_of w xs -> frames_of w ys ->
  Forall (fun x => nonnegative x /\ 0 < total x) xs -> Forall (fun y => nonnegative y /\ 0 < total y) ys ->
  nth_error h i = Some (array t w xs) -> nth_error h j = Some (array t w ys) ->
  returned (hellinger_distance h i j) = Ok d ->
  returned (hellinger_distance h j i) = Ok d' ->
  forall k l x y, nth_error xs k = Some x -> nth_error ys l = Some y ->
  exists v, entry d k l = Some v /\ entry d' l k = Some v /\ 0 <= v <= 1 /\
    (v = 0 <-> prob x = prob y) /\
    (v = 1 <-> forall m a b, nth_error x m = Some a -> nth_error y m = Some b -> a = 0 \/ b = 0).
Proof. exact hellinger_laws. Qed.
Print Assumptions C46_hellinger_laws.

Example C46_hellinger_laws_ex :
  exists d, returned (hellinger_distance [array Float64 2 [[2; 0]]; array Float64 2 [[0; 3]; [5; 0]; [1; 3]]] 0 1) = Ok d /\
  entry d 0 0 = Some 1 /\ entry d 0 1 = Some 0.
Proof. eexists; split; [exact hellinger_example|split; reflexivity]. Qed.

(** The functions on single frames. *)
Theorem C46_kl_points :
  forall x y, positive x -> positive y ->
  kl_ptwise (map Some x) (map Some y) = Some (KL x y).
Proof. exact kl_ptwise_value. Qed.
Print Assumptions C46_kl_points.

Example C46_kl_points_ex :
  kl_ptwise [Some 1] [Some 2] = Some (1 * ln (1 / 2) + 0).
Proof. apply (C46_kl_points [1] [2]); repeat constructor; lra. Qed.

Theorem C46_js_points :
  forall x y, positive x -> positive y ->
  js_ptwise (map Some x) (map Some y) = Some (JS x y).
Proof. exact js_ptwise_value. Qed.
Print Assumptions C46_js_points.

Example C46_js_points_ex :
  js_ptwise [Some 1] [Some 2] = Some (JS [1] [2]).
Proof. apply (C46_js_points [1] [2]); repeat constructor; lra. Qed.

(** Without threshold a zero in a frame gives no number, even against itself. *)
Theorem C46_kl_zero :
  forall (sym nrm : bool) t w xs ys h i j d, is_float t ->
  frames_of w xs -> frames_of w ys ->
  Forall (fun x => 0 < total x) xs -> Forall (fun y => 0 < total y) ys ->
  nth_error h i = Some (array t w xs) -> nth_error h j = Some (array t w ys) ->
  returned (kl_divergence false sym nrm h i j) = Ok d ->
  forall k l x y n, nth_error xs k = Some x -> nth_error ys l = Some y ->
  nth_error x n = Some 0 \/ nth_error y n = Some 0 -> entry d k l = None.
Proof. exact kl_zero. Qed.
Print Assumptions C46_kl_zero.

Example C46_kl_zero_ex : forall d,
  returned (kl_divergence false true true [array Float64 2 [[1; 0]]] 0 0) = Ok d -> entry d 0 0 = None.
Proof.
  intros d E; refine (C46_kl_zero true true Float64 2 [[1; 0]] [[1; 0]] [array Float64 2 [[1; 0]]] 0 0 d
    _ _ _ _ _ _ _ E 0 0 [1; 0] [1; 0] 1 _ _ _); try reflexivity; try (left; reflexivity);
    repeat constructor; cbn; lra.
Qed.

Theorem C46_js_zero :
  forall nrm t w xs ys h i j d, is_float t ->
  frames_of w xs -> frames_of w ys ->
  Forall (fun x => 0 < total x) xs -> Forall (fun y => 0 < total y) ys ->
  nth_error h i = Some (array t w xs) -> nth_error h j = Some (array t w ys) ->
  returned (js_divergence nrm h i j) = Ok d ->
  forall k l x y n, nth_error xs k = Some x -> nth_error ys l = Some y ->
  nth_error x n = Some 0 \/ nth_error y n = Some 0 -> entry d k l = None.
Proof. exact js_zero. Qed.
Print Assumptions C46_js_zero.

Example C46_js_zero_ex :
  returned (js_divergence true [array Float64 2 [[1; 0]]] 0 0) = Ok [[None]].
Proof. exact zero_example. Qed.

(** Refused arguments. *)
Theorem C46_refused_types :
  forall m h i j x y, nth_error h i = Some x -> nth_error h j = Some y ->
  m_type x <> Integer -> m_type y <> Integer ->
  ~ (is_float (m_type x) /\ m_type y = m_type x) -> run m h i j = Err AssertionError.
Proof. exact refused_types. Qed.
Print Assumptions C46_refused_types.

Example C46_refused_types_ex :
  run HellingerMetric [array Float64 1 [[1]]; array Float32 1 [[1]]] 0 1 = Err AssertionError.
Proof. reflexivity. Qed.

Theorem C46_refused_sums :
  forall m h i j t w v xs ys, is_float t ->
  nth_error h i = Some (array t w xs) -> nth_error h j = Some (array t v ys) ->
  (exists n, m = JensenShannon n) \/ m = SqrtJensenShannon \/ m = HellingerMetric ->
  (exists x, In x xs /\ total x = 0) \/ (exists y, In y ys /\ total y = 0) ->
  run m h i j = Err AssertionError.
Proof. exact refused_sums. Qed.
Print Assumptions C46_refused_sums.

Example C46_refused_sums_ex :
  run HellingerMetric [array Float64 1 [[1]; [0]]] 0 0 = Err AssertionError.
Proof.
  apply (C46_refused_sums _ _ 0 0 Float64 1 1 [[1]; [0]] [[1]; [0]]); try reflexivity;
    try (left; reflexivity); [tauto|].
  left; exists [0]; split; [right; left; reflexivity|cbn; lra].
Qed.

Theorem C46_refused_width :
  forall m h i j t w v xs ys, is_float t -> w <> v ->
  nth_error h i = Some (array t w xs) -> nth_error h j = Some (array t v ys) ->
  Forall (fun x => total x <> 0) xs -> Forall (fun y => total y <> 0) ys ->
  run m h i j = Err ValueError.
Proof. exact refused_width. Qed.
Print Assumptions C46_refused_width.

Example C46_refused_width_ex :
  run HellingerMetric [array Float64 1 [[1]]; array Float64 2 [[1; 1]]] 0 1 = Err ValueError.
Proof.
  apply (C46_refused_width _ _ 0 1 Float64 1 2 [[1]] [[1; 1]]); try reflexivity;
    try (left; reflexivity); try discriminate; repeat constructor; cbn; lra.
Qed.

(** The Itakura-Saito distance is not available. *)
Theorem C46_itakura_saito :
  forall t w v xs ys, is_float t ->
  is_distance (array t w xs) (array t v ys) = Err NotImplementedError.
Proof. exact itakura_saito. Qed.
Print Assumptions C46_itakura_saito.

Example C46_itakura_saito_ex :
  is_distance (array Float64 1 [[1]]) (array Float64 1 [[2]]) = Err NotImplementedError.
Proof. reflexivity. Qed.

Theorem C46_itakura_saito_types :
  forall x y, ~ (is_float (m_type x) /\ m_type y = m_type x) -> is_distance x y = Err AssertionError.
Proof. exact itakura_saito_types. Qed.
Print Assumptions C46_itakura_saito_types.

Example C46_itakura_saito_types_ex :
  is_distance (array Float64 1 [[1]]) (array Float32 1 [[2]]) = Err AssertionError.
Proof. reflexivity. Qed.

(** The distance of two arrays is the same after any calls on arrays that include them, with any
    metrics. *)
Theorem C47_history :
  forall calls h h' m i j, Forall proper h -> run_all calls h = Ok h' ->
  normalises m -> returned (run m h' i j) = returned (run m h i j).
Proof. exact history. Qed.
Print Assumptions C47_history.

Example C47_history_ex :
  exists h',
  run_all [(HellingerMetric, 0, 0); (KullbackLeibler true false true, 1, 0)]%nat
    [array Float64 2 [[2; 0]]; array Float64 2 [[0; 3]]] = Ok h' /\
  nth_error h' 0 = Some (array Float64 2 [[1; 0]]) /\
  returned (run HellingerMetric h' 0 1) = Ok [[Some 1]].
Proof. exact history_example. Qed.

(** A call divides the frames of its two arguments by their sums and changes nothing else. *)
Theorem C47_effect :
  forall m h i j h1 d t w xs v ys, is_float t ->
  nth_error h i = Some (array t w xs) -> nth_error h j = Some (array t v ys) ->
  Forall (fun x => total x <> 0) xs -> Forall (fun y => total y <> 0) ys ->
  run m h i j = Ok (h1, d) ->
  (normalises m ->
     nth_error h1 i = Some (array t w (map prob xs)) /\
     nth_error h1 j = Some (array t v (map prob ys)) /\
     forall k, k <> i -> k <> j -> nth_error h1 k = nth_error h k) /\
  (~ normalises m -> forall k, nth_error h1 k = nth_error h k).
Proof. exact effect. Qed.
Print Assumptions C47_effect.

Example C47_effect_ex :
  exists h',
  run_all [(HellingerMetric, 0, 0); (KullbackLeibler true false true, 1, 0)]%nat
    [array Float64 2 [[2; 0]]; array Float64 2 [[0; 3]]] = Ok h' /\
  nth_error h' 0 = Some (array Float64 2 [[1; 0]]) /\
  returned (run HellingerMetric h' 0 1) = Ok [[Some 1]].
Proof. exact history_example. Qed.

