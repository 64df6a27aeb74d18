(** Small errors of the angles can change the length of the alignment, by which the distance is divided. *)
From Coq Require Import Reals List Arith Lia Lra Bool.
From Verif Require Import Prelude Metrics_spec Metrics_proofs Dtw Dtw_proofs DefaultDistance_spec DefaultDistance_proofs.
From Verif Require Metrics DefaultDistance.
From Verif Require Import FloatDistance FloatDistance_spec FloatDistance_proofs FloatDistance_error.
Import ListNotations.
Local Open Scope R_scope.

(** Angles of which those between 0 and a quarter of a turn are too small by [e] half turns. *)
Definition facos_e (e v : R) : R := if Rle_dec v 0 then acos v else if Rle_dec 1 v then acos v else Rmax 0 (acos v - e * PI).

Definition ex_xs : list frame := [[1; 1]; [0; 1]; [1; 1]].
Definition ex_ys : list frame := [[1; 1]; [1; 0]; [1; 1]].
Definition local (e : R) : list (list (option R)) :=
  [[Some 0; Some (1 / 4 - e); Some 0]; [Some (1 / 4 - e); Some (1 / 2); Some (1 / 4 - e)]; [Some 0; Some (1 / 4 - e); Some 0]].

Ltac decide_le := match goal with
  | |- context [Rle_dec ?a ?b] => first [destruct (Rle_dec a b) as [_|?]; [|exfalso; lra] | destruct (Rle_dec a b) as [?|_]; [exfalso; lra|]]
  end.

Lemma nle_some a b : DefaultDistance.nle (Some a) (Some b) = if Rle_dec a b then true else false.
Proof. reflexivity. Qed.

Lemma jump F (x y : list F) e empty : length x = 3%nat -> length y = 3%nat -> 0 <= e < 1 / 4 ->
  dtw (radd (fun a => a)) DefaultDistance.nle (rdivn (fun a => a)) x y (fun _ _ => Ok (local e)) true empty
  = Ok (Some (if Req_EM_T e 0 then 1 / 2 / 3 else (1 / 2 - 2 * e) / 4)).
Proof.
  intros Lx Ly He. unfold dtw. rewrite Lx, Ly. cbn [Nat.eqb orb bind]. unfold dtw_costs.
  destruct (fill_ok _ (radd (fun a => a)) DefaultDistance.nle (rdivn (fun a => a)) None 3 3 (local e) empty) as (c & -> & Hc); [|lia|lia|].
  { split; [reflexivity|]. intros r Hr. cbn in Hr. destruct Hr as [<-|[<-|[<-|[]]]]; reflexivity. }
  cbn [bind Nat.sub].
  assert (S : forall i j, (i < 2)%nat -> (j < 2)%nat -> c (S i) (S j) = radd (fun a => a) (Dtw_spec.entry None (local e) (S i) (S j))
                (min3 DefaultDistance.nle (c i (S j)) (c i j) (c (S i) j))).
  { intros i j Hi Hj. rewrite !Hc by lia. reflexivity. }
  assert (c00 : c 0%nat 0%nat = Some 0) by (rewrite Hc by lia; reflexivity).
  assert (c01 : c 0%nat 1%nat = Some (1 / 4 - e)) by (rewrite Hc by lia; cbn; f_equal; lra).
  assert (c02 : c 0%nat 2%nat = Some (1 / 4 - e)) by (rewrite Hc by lia; cbn; f_equal; lra).
  assert (c10 : c 1%nat 0%nat = Some (1 / 4 - e)) by (rewrite Hc by lia; cbn; f_equal; lra).
  assert (c20 : c 2%nat 0%nat = Some (1 / 4 - e)) by (rewrite Hc by lia; cbn; f_equal; lra).
  clear Hc.
  assert (c11 : c 1%nat 1%nat = Some (1 / 2)).
  { rewrite S by lia. rewrite c00, c01, c10. unfold min3, less. rewrite !nle_some. repeat (decide_le; cbn [andb negb]; rewrite ?nle_some). cbn. f_equal. lra. }
  assert (c12 : c 1%nat 2%nat = Some (1 / 2 - 2 * e)).
  { rewrite S by lia. rewrite c01, c02, c11. unfold min3, less. rewrite !nle_some. repeat (decide_le; cbn [andb negb]; rewrite ?nle_some). cbn. f_equal. lra. }
  assert (c21 : c 2%nat 1%nat = Some (1 / 2 - 2 * e)).
  { rewrite S by lia. rewrite c10, c20, c11. unfold min3, less. rewrite !nle_some. repeat (decide_le; cbn [andb negb]; rewrite ?nle_some). cbn. f_equal. lra. }
  assert (c22 : c 2%nat 2%nat = Some (1 / 2 - 2 * e)).
  { rewrite S by lia. rewrite c11, c12, c21. unfold min3, less. rewrite !nle_some.
    destruct (Req_EM_T e 0) as [-> |N]; repeat (decide_le; cbn [andb negb]; rewrite ?nle_some); cbn; f_equal; lra. }
  clear S. destruct (Req_EM_T e 0) as [-> |N].
  - cbn [trace_back Nat.add]. rewrite c11, c21, c12, c00, c01, c10, !nle_some. repeat (decide_le; cbn [andb]). cbn [bind Nat.eqb]. rewrite c22. cbn. do 2 f_equal. lra.
  - cbn [trace_back Nat.add]. rewrite c11, c21, c12, !nle_some. repeat (decide_le; cbn [andb]). rewrite ?c20, ?c10, ?c11, ?nle_some. repeat (decide_le; cbn [andb]).
    cbn [bind Nat.eqb]. rewrite c22. cbn. do 2 f_equal. lra.
Qed.

Section Angles.
Variable facos : R -> R.
Local Notation A := (rounded (fun a => a) facos (fun a => a / PI) Metrics.nsum Metrics.dot).

Lemma lengths : length_of A [Some 1; Some 1] = Some (sqrt 2) /\ length_of A [Some 0; Some 1] = Some 1 /\ length_of A [Some 1; Some 0] = Some 1.
Proof.
  unfold length_of. cbn. repeat split.
  - destruct (Rle_dec 0 _) as [_|N]; [|exfalso; lra]. do 2 f_equal. lra.
  - destruct (Rle_dec 0 _) as [_|N]; [|exfalso; lra]. f_equal. transitivity (sqrt 1); [f_equal; lra|apply sqrt_1].
  - destruct (Rle_dec 0 _) as [_|N]; [|exfalso; lra]. f_equal. transitivity (sqrt 1); [f_equal; lra|apply sqrt_1].
Qed.

Lemma angle_value x y lx ly c : length_of A (map Some x) = Some lx -> length_of A (map Some y) = Some ly -> 0 < lx -> 0 < ly ->
  Metrics.dot (map Some x) (map Some y) = Some (c * (lx * ly)) -> angle A (map Some x) (map Some y) = Some (facos c / PI).
Proof.
  intros Ex Ey Px Py Ed. unfold angle. rewrite Ex, Ey. cbn [rounded mul div arccos over_pi zero one equal_0 FloatDistance.dot Metrics.lift1 Metrics.lift2 Metrics.is_zero]. rewrite Ed.
  destruct (Req_EM_T lx 0); [lra|]. destruct (Req_EM_T ly 0); [lra|]. cbn [andb].
  assert (P : 0 < lx * ly) by (apply Rmult_lt_0_compat; assumption). destruct (Req_EM_T (lx * ly) 0); [lra|]. cbn [Metrics.lift1 Metrics.lift2].
  do 3 f_equal. field. split; lra.
Qed.

Lemma local_angles e : facos 1 = 0 -> facos 0 = PI / 2 -> facos (1 / sqrt 2) = (1 / 4 - e) * PI -> e < 1 / 4 ->
  cosine_distance A (farray Metrics.Float64 2 ex_xs) (farray Metrics.Float64 2 ex_ys) = Ok (local e).
Proof.
  intros F1 F0 F2 He. pose proof PI_RGT_0 as P. destruct lengths as (L11 & L01 & L10). assert (S2 : 0 < sqrt 2) by (apply sqrt_lt_R0; lra).
  assert (Sq : sqrt 2 * sqrt 2 = 2) by (apply sqrt_sqrt; lra).
  assert (A1 : angle A [Some 1; Some 1] [Some 1; Some 1] = Some 0).
  { etransitivity; [apply (angle_value [1; 1] [1; 1] _ _ 1 L11 L11); (try lra; cbn; f_equal; lra)|]. f_equal. rewrite F1. field. lra. }
  assert (A2 : angle A [Some 1; Some 1] [Some 1; Some 0] = Some (1 / 4 - e)).
  { etransitivity; [apply (angle_value [1; 1] [1; 0] _ _ (1 / sqrt 2) L11 L10); (try lra; cbn; f_equal; field; lra)|]. f_equal. rewrite F2. field. lra. }
  assert (A3 : angle A [Some 0; Some 1] [Some 1; Some 1] = Some (1 / 4 - e)).
  { etransitivity; [apply (angle_value [0; 1] [1; 1] _ _ (1 / sqrt 2) L01 L11); (try lra; cbn; f_equal; field; lra)|]. f_equal. rewrite F2. field. lra. }
  assert (A4 : angle A [Some 0; Some 1] [Some 1; Some 0] = Some (1 / 2)).
  { etransitivity; [apply (angle_value [0; 1] [1; 0] _ _ 0 L01 L10); (try lra; cbn; f_equal; lra)|]. f_equal. rewrite F0. field. lra. }
  unfold cosine_distance. change (same_float (farray Metrics.Float64 2 ex_xs) (farray Metrics.Float64 2 ex_ys)) with true. cbn [farray f_cols f_rows Nat.eqb ex_xs ex_ys map].
  rewrite A1, A2, A3, A4. assert (N : forallb (forallb (at_least_0 A)) (local e) = true).
  { unfold local. cbn [forallb at_least_0 rounded Metrics.is_nonneg]. repeat decide_le. reflexivity. }
  unfold local in *. rewrite N. reflexivity.
Qed.

Lemma machine_jump e empty : facos 1 = 0 -> facos 0 = PI / 2 -> facos (1 / sqrt 2) = (1 / 4 - e) * PI -> 0 <= e < 1 / 4 ->
  machine_distance (fun a => a) (fun a => a) facos (fun a => a / PI) Metrics.nsum Metrics.dot empty (farray Metrics.Float64 2 ex_xs) (farray Metrics.Float64 2 ex_ys) true
  = Ok (Number (Some (if Req_EM_T e 0 then 1 / 2 / 3 else (1 / 2 - 2 * e) / 4))).
Proof.
  intros F1 F0 F2 He. unfold machine_distance, default_distance. rewrite (local_angles e F1 F0 F2) by lra.
  change (length (f_rows (farray Metrics.Float64 2 ex_xs))) with 3%nat. change (length (f_rows (farray Metrics.Float64 2 ex_ys))) with 3%nat. cbn [Nat.ltb Nat.leb andb bind].
  rewrite jump by (try reflexivity; exact He). reflexivity.
Qed.
End Angles.

Lemma acos_root2 : acos (1 / sqrt 2) = PI / 4.
Proof. pose proof PI_RGT_0. rewrite <- cos_PI4. apply acos_cos. lra. Qed.
Lemma acos_at_0 : acos 0 = PI / 2.
Proof. pose proof PI_RGT_0. rewrite <- cos_PI2. apply acos_cos. lra. Qed.
Lemma acos_at_1 : acos 1 = 0.
Proof. pose proof PI_RGT_0. rewrite <- cos_0. apply acos_cos. lra. Qed.

Lemma root2_between : 0 < 1 / sqrt 2 < 1.
Proof.
  assert (H : 1 < sqrt 2) by (rewrite <- sqrt_1 at 1; apply sqrt_lt_1_alt; lra). split.
  - unfold Rdiv. rewrite Rmult_1_l. apply Rinv_0_lt_compat. lra.
  - apply (Rmult_lt_reg_r (sqrt 2)); [lra|]. unfold Rdiv. rewrite Rmult_assoc, Rinv_l; lra.
Qed.

Lemma facos_e_accurate e : 0 <= e -> accurate (facos_e e) (fun a => a / PI) e.
Proof.
  intros He v. pose proof PI_RGT_0 as P. pose proof (acos_half_turns v) as H. unfold facos_e.
  destruct (Rle_dec v 0); [|destruct (Rle_dec 1 v)]; try (split; [apply H|]; replace (acos v / PI - acos v / PI) with 0 by ring; rewrite Rabs_R0; exact He).
  assert (E : acos v - e * PI = (acos v / PI - e) * PI) by (field; lra). rewrite E. unfold Rmax. destruct (Rle_dec 0 _) as [L|L].
  - replace ((acos v / PI - e) * PI / PI) with (acos v / PI - e) by (field; lra). split.
    + apply (Rmult_le_reg_r PI); [lra|]. lra.
    + replace (acos v / PI - e - acos v / PI) with (- e) by ring. rewrite Rabs_Ropp, Rabs_pos_eq; lra.
  - assert (D : acos v / PI - e < 0).
    { destruct (Rlt_le_dec (acos v / PI - e) 0); [assumption|]. exfalso. apply L. apply Rmult_le_pos; lra. }
    replace (0 / PI) with 0 by (field; lra). split; [lra|]. rewrite Rminus_0_l, Rabs_Ropp, Rabs_pos_eq; lra.
Qed.
