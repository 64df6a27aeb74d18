(** Concrete frames for the examples of [Props_Metrics]. *)

From Coq Require Import Reals List Bool Arith Lia Lra Psatz.
From Verif Require Import Prelude Metrics Metrics_spec Metrics_proofs Metrics_cosine Metrics_kl
  Metrics_heap Metrics_values.
Import ListNotations.
Local Open Scope R_scope.

Lemma not_zero_1 : forall a b, a <> 0 \/ b <> 0 -> ~ zero_frame [a; b].
Proof. intros a b H Z; inversion Z as [|? ? Ea Z']; inversion Z' as [|? ? Eb ?]; subst; lra. Qed.

Lemma zero_00 : zero_frame [0; 0].
Proof. repeat constructor. Qed.

Ltac facts :=
  repeat (first [apply Forall_nil | apply Forall_cons | apply conj | lra | lia | reflexivity]); cbn; try lra.

(** Frames [(1,0)] and [(0,0)] against [(0,2)], [(3,0)], [(-1,0)] and [(0,0)]. *)
Lemma cosine_example :
  cosine_distance (array Float64 2 [[1; 0]; [0; 0]]) (array Float64 2 [[0; 2]; [3; 0]; [-1; 0]; [0; 0]])
  = Ok [[Some (1 / 2); Some 0; Some 1; Some 1]; [Some 1; Some 1; Some 1; Some 0]].
Proof.
  destruct cosine_spec as (f & F & Zz & Zl & Zr & An).
  rewrite F by (left; reflexivity); cbn [all_pairs map].
  assert (A : ~ zero_frame [1; 0]) by (apply not_zero_1; left; lra).
  assert (B : ~ zero_frame [0; 2]) by (apply not_zero_1; right; lra).
  assert (C : ~ zero_frame [3; 0]) by (apply not_zero_1; left; lra).
  assert (D : ~ zero_frame [-1; 0]) by (apply not_zero_1; left; lra).
  pose proof zero_00 as Z.
  rewrite (Zr [1; 0] [0; 0]), (Zl [0; 0] [0; 2]), (Zl [0; 0] [3; 0]), (Zl [0; 0] [-1; 0]), (Zz [0; 0] [0; 0]) by assumption.
  rewrite (is_angle_unique [1; 0] [0; 2] (f [1; 0] [0; 2]) (1 / 2)); auto.
  rewrite (is_angle_unique [1; 0] [3; 0] (f [1; 0] [3; 0]) 0); auto.
  rewrite (is_angle_unique [1; 0] [-1; 0] (f [1; 0] [-1; 0]) 1); auto.
  - apply angle_opposite; auto; exists (-1); split; [lra|unfold scale; cbn; repeat f_equal; lra].
  - apply angle_same_direction; auto; exists 3; split; [lra|unfold scale; cbn; repeat f_equal; lra].
  - apply angle_right; auto; cbn; lra.
Qed.

Lemma positive_2 : forall a b, 0 < a -> 0 < b -> positive [a; b].
Proof. intros; constructor; [assumption|constructor; [assumption|constructor]]. Qed.

Lemma nonnegative_2 : forall a b, 0 <= a -> 0 <= b -> nonnegative [a; b].
Proof. intros; constructor; [assumption|constructor; [assumption|constructor]]. Qed.

(** [kl_divergence] without threshold of [(2,2)] and [(1,3)]. *)
Lemma kl_example : forall sym : bool,
  returned (kl_divergence false sym true [array Float64 2 [[2; 2]]; array Float64 2 [[1; 3]]] 0 1)
  = Ok [[Some (if sym then (KL [/ 2; / 2] [/ 4; 3 / 4] + KL [/ 4; 3 / 4] [/ 2; / 2]) / 2
               else / 2 * ln 2 + / 2 * ln (2 / 3))]].
Proof.
  intros sym.
  rewrite (kl_value false sym true Float64 2 (/ 2 ^ 52) [[2; 2]] [[1; 3]]); try reflexivity.
  - cbn [all_pairs map]; do 4 f_equal; unfold KL_symmetric, prepared, prob; cbn [map total].
    destruct sym; [repeat f_equal; field|].
    cbn [KL]; replace (2 / (2 + (2 + 0))) with (/ 2) by field.
    replace (/ 2 / (1 / (1 + (3 + 0)))) with 2 by field.
    replace (/ 2 / (3 / (1 + (3 + 0)))) with (2 / 3) by field; lra.
  - left; split; reflexivity.
  - lia.
  - repeat constructor.
  - repeat constructor.
  - constructor; [apply positive_2; lra|constructor].
  - constructor; [apply positive_2; lra|constructor].
Qed.

(** By default frames with zeros are accepted: [(1,0)] and [(0,3)]. *)
Lemma kl_default_example : exists v,
  returned (kl_divergence true true true [array Float32 2 [[1; 0]]; array Float32 2 [[0; 3]]] 0 1)
  = Ok [[Some v]] /\ 0 < v.
Proof.
  assert (U1 : Forall (usable true) [[1; 0]]).
  { constructor; [|constructor]; split; [apply nonnegative_2; lra|cbn; lra]. }
  assert (U2 : Forall (usable true) [[0; 3]]).
  { constructor; [|constructor]; split; [apply nonnegative_2; lra|cbn; lra]. }
  assert (P : precision Float32 (/ 2 ^ 23)) by (right; split; reflexivity).
  assert (W1 : frames_of 2 [[1; 0]]) by (repeat constructor).
  assert (W2 : frames_of 2 [[0; 3]]) by (repeat constructor).
  pose proof (kl_value true true true Float32 2 (/ 2 ^ 23) [[1; 0]] [[0; 3]]
                [array Float32 2 [[1; 0]]; array Float32 2 [[0; 3]]] 0 1 P ltac:(lia) W1 W2 U1 U2
                eq_refl eq_refl) as V.
  destruct (kl_laws true true true Float32 2 (/ 2 ^ 23) [[1; 0]] [[0; 3]]
              [array Float32 2 [[1; 0]]; array Float32 2 [[0; 3]]] 0 1 _ P ltac:(lia) eq_refl
              W1 W2 U1 U2 eq_refl eq_refl V 0 0 [1; 0] [0; 3] eq_refl eq_refl) as (v & E & N & Z).
  exists v; split.
  - rewrite V; f_equal; cbn in E |- *; rewrite E; reflexivity.
  - destruct N as [N|N]; [exact N|exfalso].
    symmetry in N; apply Z in N; unfold prepared in N.
    assert (S : forall e, 0 < e -> prob (shift e (prob [1; 0])) = prob (shift e (prob [0; 3])) -> False).
    { clear; intros e He; unfold prob, shift; cbn [map total]; intros [= A B].
      replace (1 / (1 + (0 + 0))) with 1 in A by field.
      replace (0 / (1 + (0 + 0))) with 0 in A by field.
      replace (0 / (0 + (3 + 0))) with 0 in A by field.
      replace (3 / (0 + (3 + 0))) with 1 in A by field.
      replace (0 + e + (1 + e + 0)) with (1 + e + (0 + e + 0)) in A by ring.
      apply Rmult_eq_reg_r in A; [lra|apply Rinv_neq_0_compat; lra]. }
    apply (S (/ 2 ^ 23)); [apply Rinv_0_lt_compat, pow_lt; lra|exact N].
Qed.

Lemma js_example : forall nrm : bool,
  returned (js_divergence nrm [array Float64 1 [[2]; [5]]; array Float64 1 [[2]]] 0 1)
  = Ok [[Some 0]; [Some (if nrm then 0 else (5 * ln (10 / 7) + 2 * ln (4 / 7)) / 2)]].
Proof.
  intros nrm.
  rewrite (js_value_run nrm Float64 1 [[2]; [5]] [[2]]); try reflexivity; try lia;
    try (left; reflexivity); try (facts).
  cbn [all_pairs map]; unfold JS, prob; cbn [map total mean KL].
  assert (D : forall a, a <> 0 -> a / a = 1) by (intros; field; assumption).
  repeat f_equal; destruct nrm.
  - replace (2 / (2 + 0) / ((2 / (2 + 0) + 2 / (2 + 0)) / 2)) with 1 by field; rewrite ln_1; lra.
  - replace (2 / ((2 + 2) / 2)) with 1 by field; rewrite ln_1; lra.
  - replace (5 / (5 + 0) / ((5 / (5 + 0) + 2 / (2 + 0)) / 2)) with 1 by field.
    replace (2 / (2 + 0) / ((5 / (5 + 0) + 2 / (2 + 0)) / 2)) with 1 by field; rewrite ln_1; lra.
  - replace (5 / ((5 + 2) / 2)) with (10 / 7) by field.
    replace (2 / ((5 + 2) / 2)) with (4 / 7) by field; lra.
Qed.

Lemma sqrt_js_example :
  returned (sqrt_js_divergence [array Float64 2 [[2; 4]]; array Float64 2 [[1; 2]]] 0 1) = Ok [[Some 0]].
Proof.
  rewrite (sqrt_js_value_run Float64 2 [[2; 4]] [[1; 2]]); try reflexivity; try lia;
    try (left; reflexivity); try (facts).
  cbn [all_pairs map]; do 4 f_equal.
  unfold JS, prob; cbn [map total mean KL].
  match goal with |- sqrt ?v = 0 => replace v with 0; [apply sqrt_0|] end.
  match goal with |- _ = (?a * ln ?b + (?c * ln ?d + 0) + (?e * ln ?f + (?g * ln ?k + 0))) / 2 =>
    replace b with 1 by field; replace d with 1 by field; replace f with 1 by field;
    replace k with 1 by field end.
  rewrite ln_1; lra.
Qed.

Lemma hellinger_example :
  returned (hellinger_distance [array Float64 2 [[2; 0]]; array Float64 2 [[0; 3]; [5; 0]; [1; 3]]] 0 1)
  = Ok [[Some 1; Some 0; Some (sqrt (/ 2))]].
Proof.
  rewrite (hellinger_value Float64 2 [[2; 0]] [[0; 3]; [5; 0]; [1; 3]]); try reflexivity;
    try (left; reflexivity); try (facts).
  cbn [all_pairs map]; unfold Hellinger, prob; cbn [map total affinity].
  do 2 f_equal; f_equal; [|f_equal; [|f_equal]]; f_equal.
  - replace (2 / (2 + (0 + 0)) * (0 / (0 + (3 + 0)))) with 0 by field.
    replace (0 / (2 + (0 + 0)) * (3 / (0 + (3 + 0)))) with 0 by field.
    rewrite sqrt_0; replace (1 - (0 + (0 + 0))) with 1 by ring; apply sqrt_1.
  - replace (2 / (2 + (0 + 0)) * (5 / (5 + (0 + 0)))) with 1 by field.
    replace (0 / (2 + (0 + 0)) * (0 / (5 + (0 + 0)))) with 0 by field.
    rewrite sqrt_0, sqrt_1; replace (1 - (1 + (0 + 0))) with 0 by ring; apply sqrt_0.
  - replace (2 / (2 + (0 + 0)) * (1 / (1 + (3 + 0)))) with (/ 2 * / 2) by field.
    replace (0 / (2 + (0 + 0)) * (3 / (1 + (3 + 0)))) with 0 by field.
    rewrite sqrt_0, sqrt_square by lra; f_equal; lra.
Qed.

(** Sharing of arrays: the array 0 is compared with itself and with the array 1 first. *)
Lemma history_example : exists h',
  run_all [(HellingerMetric, 0, 0); (KullbackLeibler true false true, 1, 0)]%nat
    [array Float64 2 [[2; 0]]; array Float64 2 [[0; 3]]] = Ok h' /\
  nth_error h' 0 = Some (array Float64 2 [[1; 0]]) /\
  returned (run HellingerMetric h' 0 1) = Ok [[Some 1]].
Proof.
  set (h := [array Float64 2 [[2; 0]]; array Float64 2 [[0; 3]]]).
  assert (S1 : Forall (fun x => nonnegative x /\ 0 < total x) [[2; 0]]) by (facts).
  assert (S2 : Forall (fun x => nonnegative x /\ 0 < total x) [[0; 3]]) by (facts).
  assert (T : forall zs, Forall (fun x => nonnegative x /\ 0 < total x) zs -> Forall (fun x => total x <> 0) zs)
    by (intros zs H; eapply Forall_impl; [|exact H]; cbn; intros z [_ Hz]; lra).
  assert (P : Forall proper h).
  { constructor; [|constructor; [|constructor]]; exists Float64, 2%nat; eexists; repeat split; auto;
      left; reflexivity. }
  assert (W1 : frames_of 2 [[2; 0]]) by (repeat constructor).
  assert (W2 : frames_of 2 [[0; 3]]) by (repeat constructor).
  assert (F : is_float Float64) by (left; reflexivity).
  assert (E0 : exists h0 d0, run HellingerMetric h 0 0 = Ok (h0, d0)).
  { pose proof (hellinger_value Float64 2 _ _ h 0 0 F W1 W1 S1 S1 eq_refl eq_refl) as V.
    cbn [run]; destruct (hellinger_distance h 0 0) as [(h0, d0)|]; [eauto|discriminate]. }
  destruct E0 as (h0 & d0 & E0).
  destruct (effect HellingerMetric h 0 0 h0 d0 Float64 2 [[2; 0]] 2 [[2; 0]] F eq_refl eq_refl (T _ S1) (T _ S1) E0)
    as [A0 _]; destruct (A0 I) as (B0 & _ & C0); specialize (C0 1%nat ltac:(lia) ltac:(lia)); cbn in C0.
  assert (Q : map prob [[2; 0]] = [[1; 0]]).
  { unfold prob; cbn; repeat f_equal; field. }
  rewrite Q in B0.
  assert (U1 : Forall (usable true) [[1; 0]]) by (facts).
  assert (W3 : frames_of 2 [[1; 0]]) by (repeat constructor).
  assert (E1 : exists h1 d1, run (KullbackLeibler true false true) h0 1 0 = Ok (h1, d1)).
  { pose proof (kl_value true false true Float64 2 (/ 2 ^ 52) [[0; 3]] [[1; 0]] h0 1 0 ltac:(left; auto)
                 ltac:(lia) W2 W3 S2 U1 C0 B0) as V.
    cbn [run]; destruct (kl_divergence true false true h0 1 0) as [(h1, d1)|]; [eauto|discriminate]. }
  destruct E1 as (h1 & d1 & E1).
  destruct (effect _ h0 1 0 h1 d1 Float64 2 [[0; 3]] 2 [[1; 0]] F C0 B0 (T _ S2) (T _ U1) E1) as [A1 _].
  destruct (A1 (or_introl eq_refl)) as (_ & B1 & _).
  assert (R : run_all [(HellingerMetric, 0, 0); (KullbackLeibler true false true, 1, 0)]%nat h = Ok h1).
  { cbn [run_all]; rewrite E0; cbn [bind fst]; rewrite E1; reflexivity. }
  exists h1; split; [exact R|]; split.
  - rewrite B1; unfold prob; cbn; repeat f_equal; field.
  - rewrite (history _ h h1 HellingerMetric 0 1 P R I).
    cbn [run]; rewrite (hellinger_value Float64 2 [[2; 0]] [[0; 3]]) by (auto; reflexivity).
    cbn [all_pairs map]; unfold Hellinger, prob; cbn [map total affinity]; do 4 f_equal.
    replace (2 / (2 + (0 + 0)) * (0 / (0 + (3 + 0)))) with 0 by field.
    replace (0 / (2 + (0 + 0)) * (3 / (0 + (3 + 0)))) with 0 by field.
    rewrite sqrt_0; replace (1 - (0 + (0 + 0))) with 1 by ring; apply sqrt_1.
Qed.

Lemma zero_example : returned (js_divergence true [array Float64 2 [[1; 0]]] 0 0) = Ok [[None]].
Proof.
  assert (T : Forall (fun x => total x <> 0) [[1; 0]]) by (facts).
  assert (H : nth_error [array Float64 2 [[1; 0]]] 0 = Some (array Float64 2 [[1; 0]])) by reflexivity.
  destruct (run_guarded (JensenShannon true) _ 0 0 _ _ H H ltac:(discriminate) ltac:(discriminate))
    as (h1 & _ & R).
  change (js_divergence true [array Float64 2 [[1; 0]]] 0 0)
    with (run (JensenShannon true) [array Float64 2 [[1; 0]]] 0 0).
  destruct (returned (run (JensenShannon true) [array Float64 2 [[1; 0]]] 0 0)) as [d|] eqn:E.
  - pose proof E as E'; rewrite R in E.
    unfold guarded in E; rewrite same_float_array, same_cols_array, !sums_array in E
      by (try (left; reflexivity); assumption).
    cbn [bind checks_sums andb normalisesb value] in E; rewrite !normalise_array in E by assumption.
    unfold returned in E; cbn [bind snd] in E; injection E as E.
    assert (Z : entry d 0 0 = None).
    { apply (js_zero true Float64 2 [[1; 0]] [[1; 0]] [array Float64 2 [[1; 0]]] 0 0 d) with
        (x := [1; 0]) (y := [1; 0]) (n := 1%nat); auto; try (facts).
      left; reflexivity. }
    rewrite <- E in Z |- *; cbn in Z |- *; rewrite Z; reflexivity.
  - rewrite R in E; unfold guarded in E; rewrite same_float_array, same_cols_array, !sums_array in E
      by (try (left; reflexivity); assumption); discriminate.
Qed.
