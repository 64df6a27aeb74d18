(** Roundings and items for the examples about [FloatDistance], and witnesses with the numbers of the machine. *)
From Coq Require Import Reals List Arith ZArith Lia Lra Bool Permutation.
From Coq Require Import Floats.SpecFloat.
From Verif Require Import Prelude Metrics_spec Metrics_proofs Metrics_cosine Dtw DefaultDistance_spec DefaultDistance_proofs.
From Verif Require Metrics DefaultDistance.
From Verif Require Import FloatDistance FloatDistance_spec FloatDistance_proofs FloatDistance_error FloatDistance_exact FloatDistance_jump Binary64.
Import ListNotations.
Local Open Scope R_scope.

(** ** Sums from the right with a rounding *)
Fixpoint rsum (rnd : R -> R) (l : list (option R)) : option R :=
  match l with [] => Some 0 | [a] => a | a :: l => Metrics.lift2 (fun a b => rnd (a + b)) a (rsum rnd l) end.
Definition rdot (rnd : R -> R) (l l' : list (option R)) : option R :=
  rsum rnd (map (fun p => Metrics.lift2 (fun a b => rnd (a * b)) (fst p) (snd p)) (combine l l')).

Lemma rsum_summed rnd l : exists s, summed rnd l s /\ rsum rnd (map Some l) = Some s.
Proof.
  induction l as [|a l (s & S & E)]; [exists 0; split; [constructor|reflexivity]|]. destruct l as [|b l]; [exists a; split; [constructor|reflexivity]|].
  exists (rnd (a + s)). split.
  - apply (summed_plus rnd _ [a] (b :: l)); [apply Permutation_refl|discriminate|discriminate|constructor|exact S].
  - cbn [map rsum] in E |- *. rewrite E. reflexivity.
Qed.

Lemma rdot_dotted rnd : forall l l', length l = length l' -> exists s, dotted rnd (combine l l') s /\ rdot rnd (map Some l) (map Some l') = Some s.
Proof.
  induction l as [|a l IH]; intros [|b l'] L; try discriminate; [exists 0; split; [constructor|reflexivity]|]. injection L as L. destruct (IH l' L) as (s & S & E).
  destruct l as [|c l], l' as [|c' l']; try discriminate; [exists (rnd (a * b)); split; [constructor|reflexivity]|].
  exists (rnd (rnd (a * b) + s)). split.
  - change (combine (a :: c :: l) (b :: c' :: l')) with ([(a, b)] ++ combine (c :: l) (c' :: l')).
    apply (dotted_plus rnd _ [(a, b)] (combine (c :: l) (c' :: l'))); [apply Permutation_refl|discriminate|discriminate|constructor|exact S].
  - unfold rdot in *. cbn [map combine rsum fst snd Metrics.lift2] in E |- *. rewrite E. reflexivity.
Qed.

Lemma rsums rnd : sums_rounded rnd (rsum rnd) (rdot rnd).
Proof. split; [apply rsum_summed|apply rdot_dotted]. Qed.

Lemma exact_sums : sums_rounded (fun a => a) Metrics.nsum Metrics.dot.
Proof.
  split.
  - intros l. destruct (rsum_summed (fun a => a) l) as (s & S & E). exists s. split; [exact S|]. rewrite <- E. clear. induction l as [|a l IH]; [reflexivity|].
    change (Metrics.nsum (map Some (a :: l))) with (Metrics.lift2 Rplus (Some a) (Metrics.nsum (map Some l))). rewrite IH.
    destruct l as [|b l]; [cbn; f_equal; lra|]. reflexivity.
  - intros l l' L. destruct (rdot_dotted (fun a => a) l l' L) as (s & S & E). exists s. split; [exact S|]. rewrite <- E. clear S E s.
    revert l' L. induction l as [|a l IH]; intros [|b l'] L; try discriminate; [reflexivity|]. injection L as L.
    change (Metrics.dot (map Some (a :: l)) (map Some (b :: l'))) with (Metrics.lift2 Rplus (Some (a * b)) (Metrics.dot (map Some l) (map Some l'))).
    rewrite (IH l' L). destruct l as [|c l], l' as [|c' l']; try discriminate; [cbn; f_equal; lra|]. reflexivity.
Qed.

(** ** Multiples of 1/8 *)
Definition near (a : R) : Z := Int_part (a + 1 / 2).
Definition rnd8 (a : R) : R := IZR (near (8 * a)) / 8.

Lemma near_bounds a : IZR (near a) <= a + 1 / 2 < IZR (near a) + 1.
Proof. unfold near. destruct (base_Int_part (a + 1 / 2)). lra. Qed.
Lemma near_unique a z : IZR z <= a + 1 / 2 < IZR z + 1 -> near a = z.
Proof.
  intros H. pose proof (near_bounds a) as B. apply Z.le_antisymm; apply Z.lt_succ_r, lt_IZR; rewrite succ_IZR; lra.
Qed.
Lemma near_mono a b : a <= b -> (near a <= near b)%Z.
Proof. intros H. pose proof (near_bounds a). pose proof (near_bounds b). apply Z.lt_succ_r, lt_IZR. rewrite succ_IZR. lra. Qed.
Lemma near_Z z : near (IZR z) = z.
Proof. apply near_unique. lra. Qed.

Lemma format8 : format rnd8 (1 / 8).
Proof.
  constructor.
  - lra.
  - intros a b H. unfold rnd8. pose proof (IZR_le _ _ (near_mono (8 * a) (8 * b) ltac:(lra))). lra.
  - intros a. unfold rnd8 at 1 3. f_equal. f_equal. unfold rnd8. replace (8 * (IZR (near (8 * a)) / 8)) with (IZR (near (8 * a))) by field. apply near_Z.
  - intros a E P. unfold rnd8 in E. assert (Q : 0 < IZR (near (8 * a))) by lra. apply lt_IZR in Q. assert (K : IZR 1 <= IZR (near (8 * a))) by (apply IZR_le; lia). lra.
  - unfold rnd8. replace (8 * 0) with (IZR 0) by lra. rewrite near_Z. lra.
  - unfold rnd8. replace (8 * 1) with (IZR 8) by lra. rewrite near_Z. lra.
  - intros a H. unfold rnd8. pose proof (near_bounds (8 * a)) as B. lra.
  - intros a H. unfold rnd8. pose proof (near_bounds (8 * sqrt a)) as B. assert (S : 1 / 4 <= sqrt a).
    { replace (1 / 4) with (sqrt ((1 / 4) * (1 / 4))) by (apply sqrt_square; lra). apply sqrt_le_1_alt. lra. }
    lra.
Qed.

Lemma rnd8_INR n : rnd8 (INR n) = INR n.
Proof. unfold rnd8. rewrite INR_IZR_INZ. replace (8 * IZR (Z.of_nat n)) with (IZR (8 * Z.of_nat n)) by (rewrite mult_IZR; reflexivity). rewrite near_Z, mult_IZR. field. Qed.

(** ** A rounding with a relative error *)
Definition rnd_up (u a : R) : R := a * (1 + u).
Lemma rnd_up_precise u : 0 <= u < 1 -> precise (rnd_up u) u.
Proof.
  intros H. split; [exact H|]. intros a. unfold rnd_up. replace (a * (1 + u) - a) with (u * a) by ring. rewrite Rabs_mult, (Rabs_pos_eq u) by lra. lra.
Qed.
Lemma rnd_up_mono u : 0 <= u < 1 -> forall a b, a <= b -> rnd_up u a <= rnd_up u b.
Proof. intros H a b L. unfold rnd_up. apply Rmult_le_compat_r; lra. Qed.

Lemma acos_accurate : accurate acos (fun a => a / PI) 0.
Proof. intros v. split; [apply acos_half_turns|]. replace (acos v / PI - acos v / PI) with 0 by ring. rewrite Rabs_R0. lra. Qed.

(** The error for the numbers float64 and 13 values in each frame. *)
Lemma float64_cosine_error : cosine_error (/ 2 ^ 53) 13 <= / 2 ^ 48.
Proof.
  unfold cosine_error. set (u := / 2 ^ 53). assert (U : 0 < u) by (apply Rinv_0_lt_compat, pow_lt; lra).
  assert (Eu : / 2 ^ 48 = 32 * u) by (unfold u; cbn [pow]; field). rewrite Eu.
  assert (Us : 2048 * u <= 1) by (unfold u; cbn [pow]; lra).
  assert (Hi : (1 + u) ^ 14 <= 1 + 14 * u + 196 * (u * u)).
  { assert (B : forall n, (n <= 14)%nat -> (1 + u) ^ n <= 1 + INR n * u + INR n * INR n * (u * u)).
    { induction n as [|n IH]; intros L; [cbn; lra|]. cbn [pow]. specialize (IH ltac:(lia)). rewrite S_INR. pose proof (pos_INR n) as Pn. assert (Ln : INR n <= 14) by (replace 14 with (INR 14) by (cbn; lra); apply le_INR; lia).
      apply Rle_trans with ((1 + u) * (1 + INR n * u + INR n * INR n * (u * u))); [apply Rmult_le_compat_l; lra|].
      assert (Q : INR n * INR n * u <= INR n + 1).
      { apply Rle_trans with (INR n * (14 * u)); [rewrite Rmult_assoc; apply Rmult_le_compat_l; [lra|]; apply Rmult_le_compat_r; lra|].
        apply Rle_trans with (INR n * 1); [apply Rmult_le_compat_l; lra|lra]. }
      assert (Q2 : INR n * INR n * u * (u * u) <= (INR n + 1) * (u * u)) by (apply Rmult_le_compat_r; [apply Rmult_le_pos; lra|exact Q]). lra. }
    pose proof (B 14%nat (Nat.le_refl _)) as K. replace (INR 14) with 14 in K by (cbn; lra). lra. }
  assert (Lo : 1 - 16 * u <= (1 - u) ^ 16).
  { assert (B : forall n, 1 - INR n * u <= (1 - u) ^ n /\ 0 <= (1 - u) ^ n <= 1).
    { induction n as [|n [IH1 IH2]]; [cbn; lra|]. cbn [pow]. rewrite S_INR. set (p := (1 - u) ^ n) in *. assert (u * p <= u * 1) by (apply Rmult_le_compat_l; lra). assert (0 <= u * p) by (apply Rmult_le_pos; lra).
      repeat split; try lra. apply Rmult_le_pos; lra. }
    destruct (B 16%nat) as [K _]. replace (INR 16) with 16 in K by (cbn; lra). lra. }
  change (13 + 1)%nat with 14%nat. change (13 + 3)%nat with 16%nat. assert (P16 : 0 < (1 - u) ^ 16) by lra.
  apply (Rplus_le_reg_r 1). replace ((1 + u) ^ 14 / (1 - u) ^ 16 - 1 + 1) with ((1 + u) ^ 14 / (1 - u) ^ 16) by ring.
  apply (Rmult_le_reg_r ((1 - u) ^ 16)); [exact P16|]. unfold Rdiv. rewrite Rmult_assoc, Rinv_l, Rmult_1_r by lra.
  apply Rle_trans with ((32 * u + 1) * (1 - 16 * u)); [|apply Rmult_le_compat_l; lra].
  assert (Q : 2048 * u * u <= 1 * u) by (apply Rmult_le_compat_r; lra). lra.
Qed.

(** ** Items for the examples *)
Definition one_frame : list frame := [[1; 0]].
Definition two_frames : list frame := [[1; 0]; [0; 1]].

Lemma half_turn_range v : 0 <= acos v / PI <= 1.
Proof. apply acos_half_turns. Qed.

(** ** Numbers of the machine *)
Definition item (l : list (list fl)) : frames fl := mk_frames Metrics.Float64 (match l with r :: _ => length r | [] => 0%nat end) l.
Definition below_1 : fl := S754_finite false 9007199254740990 (-53).

Section Witnesses.
Variables arccos over_pi : fl -> fl.
Variables (add : fl -> fl -> fl) (leb : fl -> fl -> bool) (divn : fl -> nat -> fl).
Variable empty : costs fl.
Local Notation A := (binary64 arccos over_pi).
Local Notation distance x y := (default_distance A add leb divn empty (item x) (item y) false).

(** The distance of two items with a frame, which is the angle for the cosine [r]. *)
Lemma single_cosine x y r : length x = length y -> equal_0 A (length_of A x) = false -> equal_0 A (length_of A y) = false ->
  fdiv (fdot x y) (fmul (length_of A x) (length_of A y)) = r ->
  distance [x] [y] = if fge0 (over_pi (arccos r)) then Ok (Number (over_pi (arccos r))) else Err AssertionError.
Proof.
  intros L Zx Zy E. unfold default_distance, cosine_distance. cbn [item f_rows f_cols f_type same_float length Nat.ltb Nat.leb andb]. rewrite L, Nat.eqb_refl. cbn [map].
  assert (Ea : angle A x y = over_pi (arccos r)).
  { unfold angle. rewrite Zx, Zy. cbn [andb]. cbn [binary64 mul div FloatDistance.arccos FloatDistance.over_pi FloatDistance.dot]. rewrite E. reflexivity. }
  rewrite Ea. cbn [forallb at_least_0 binary64]. rewrite !andb_true_r. destruct (fge0 (over_pi (arccos r))); reflexivity.
Qed.

Lemma less_nonneg v : SFltb (fz 0) v = true -> fge0 v = true.
Proof. unfold SFltb, fge0, SFleb. change (fz 0) with (S754_zero false). destruct (SFcompare (S754_zero false) v) as [[]|]; congruence. Qed.

Lemma self_distance : fge0 (over_pi (arccos below_1)) = true -> distance [[fz 1; fz 1]] [[fz 1; fz 1]] = Ok (Number (over_pi (arccos below_1))).
Proof. intros H. rewrite (single_cosine [fz 1; fz 1] [fz 1; fz 1] below_1); [rewrite H; reflexivity|reflexivity|vm_compute; reflexivity..]. Qed.

Lemma other_distance : fge0 (over_pi (arccos (fz 1))) = true ->
  distance [[fz 59999997; fz 59999998]] [[fz 1; fz 1]] = Ok (Number (over_pi (arccos (fz 1)))).
Proof. intros H. rewrite (single_cosine [fz 59999997; fz 59999998] [fz 1; fz 1] (fz 1)); [rewrite H; reflexivity|reflexivity|vm_compute; reflexivity..]. Qed.

Lemma huge_distance : distance [[fz (10 ^ 200)]] [[fz (10 ^ 200)]] = (if fge0 (over_pi (arccos S754_nan)) then Ok (Number (over_pi (arccos S754_nan))) else Err AssertionError) /\
  distance [[fz (10 ^ 200)]] [[fz 1]] = (if fge0 (over_pi (arccos (fz 0))) then Ok (Number (over_pi (arccos (fz 0)))) else Err AssertionError) /\
  distance [[fz 1]] [[fz 1]] = (if fge0 (over_pi (arccos (fz 1))) then Ok (Number (over_pi (arccos (fz 1)))) else Err AssertionError).
Proof. split; [|split]; apply single_cosine; try reflexivity; vm_compute; reflexivity. Qed.

Lemma small_distance : distance [[fdiv (fz 1) (fz (10 ^ 200))]] [[fz 1]] = Ok (Number (fz 1)).
Proof.
  unfold default_distance, cosine_distance. cbn [item f_rows f_cols f_type same_float length Nat.ltb Nat.leb Nat.eqb andb map].
  assert (Ea : angle A [fdiv (fz 1) (fz (10 ^ 200))] [fz 1] = fz 1).
  { unfold angle. assert (Z1 : equal_0 A (length_of A [fdiv (fz 1) (fz (10 ^ 200))]) = true) by (vm_compute; reflexivity).
    assert (Z2 : equal_0 A (length_of A [fz 1]) = false) by (vm_compute; reflexivity). rewrite Z1, Z2. reflexivity. }
  rewrite Ea. reflexivity.
Qed.
End Witnesses.

(** ** Statements *)
Lemma self_refuted : exists x r, SFltb r (fz 1) = true /\ forall arccos over_pi add leb divn empty, SFltb (fz 0) (over_pi (arccos r)) = true ->
  exists v, default_distance (binary64 arccos over_pi) add leb divn empty x x false = Ok (Number v) /\ SFltb (fz 0) v = true.
Proof.
  exists (item [[fz 1; fz 1]]), below_1. split; [vm_compute; reflexivity|]. intros arccos over_pi add leb divn empty H.
  eexists. split; [apply self_distance, less_nonneg, H|exact H].
Qed.

Lemma order_refuted : exists x y r, SFltb r (fz 1) = true /\
  (f_rows x = [[fz 1; fz 1]] /\ f_rows y = [[fz 59999997; fz 59999998]]) /\
  forall arccos over_pi add leb divn empty, fge0 (over_pi (arccos (fz 1))) = true -> SFltb (over_pi (arccos (fz 1))) (over_pi (arccos r)) = true -> fge0 (over_pi (arccos r)) = true ->
  exists v v', default_distance (binary64 arccos over_pi) add leb divn empty x x false = Ok (Number v) /\
    default_distance (binary64 arccos over_pi) add leb divn empty y x false = Ok (Number v') /\ SFltb v' v = true.
Proof.
  exists (item [[fz 1; fz 1]]), (item [[fz 59999997; fz 59999998]]), below_1. split; [vm_compute; reflexivity|]. split; [split; reflexivity|].
  intros arccos over_pi add leb divn empty H1 H2 H3. eexists _, _. split; [apply self_distance, H3|]. split; [apply other_distance, H1|exact H2].
Qed.

Lemma overflow_refuted : exists x y, f_rows x = [[fz (10 ^ 200)]] /\ f_rows y = [[fz 1]] /\
  forall arccos over_pi add leb divn empty, fge0 (over_pi (arccos (fz 0))) = true -> fge0 (over_pi (arccos (fz 1))) = true -> fge0 (over_pi (arccos S754_nan)) = false ->
  default_distance (binary64 arccos over_pi) add leb divn empty y y false = Ok (Number (over_pi (arccos (fz 1)))) /\
  default_distance (binary64 arccos over_pi) add leb divn empty x y false = Ok (Number (over_pi (arccos (fz 0)))) /\
  default_distance (binary64 arccos over_pi) add leb divn empty x x false = Err AssertionError.
Proof.
  exists (item [[fz (10 ^ 200)]]), (item [[fz 1]]). split; [reflexivity|]. split; [reflexivity|]. intros arccos over_pi add leb divn empty H0 H1 Hn.
  destruct (huge_distance arccos over_pi add leb divn empty) as (E1 & E2 & E3). rewrite E1, E2, E3, H0, H1, Hn. repeat split; reflexivity.
Qed.

Lemma underflow_refuted : exists x y, f_rows x = [[fdiv (fz 1) (fz (10 ^ 200))]] /\ f_rows y = [[fz 1]] /\ feq0 (fdiv (fz 1) (fz (10 ^ 200))) = false /\
  forall arccos over_pi add leb divn empty, default_distance (binary64 arccos over_pi) add leb divn empty x y false = Ok (Number (fz 1)).
Proof.
  exists (item [[fdiv (fz 1) (fz (10 ^ 200))]]), (item [[fz 1]]). split; [reflexivity|]. split; [reflexivity|]. split; [vm_compute; reflexivity|].
  intros. apply small_distance.
Qed.

Lemma normalised_refuted ua : 0 < ua -> exists facos fover sum dot xs ys v v', accurate facos fover ua /\ sums_rounded (fun a => a) sum dot /\
  frames_of 2 xs /\ frames_of 2 ys /\
  (forall empty, machine_distance (fun a => a) (fun a => a) facos fover sum dot empty (farray Metrics.Float64 2 xs) (farray Metrics.Float64 2 ys) true = Ok (Number (Some v))) /\
  (forall empty, DefaultDistance.default_distance empty (array Metrics.Float64 2 xs) (array Metrics.Float64 2 ys) true = Ok (DefaultDistance.Value (Some v'))) /\
  v + 1 / 24 <= v'.
Proof.
  intros Hu. set (e := Rmin ua (1 / 8)). assert (He : 0 < e <= 1 / 8 /\ e <= ua) by (unfold e, Rmin; destruct (Rle_dec ua (1 / 8)); lra).
  pose proof PI_RGT_0 as P. pose proof root2_between as R2.
  exists (facos_e e), (fun a => a / PI), Metrics.nsum, Metrics.dot, ex_xs, ex_ys, ((1 / 2 - 2 * e) / 4), (1 / 2 / 3).
  split. { intros v. destruct (facos_e_accurate e ltac:(lra) v). lra. }
  split; [apply exact_sums|]. split; [repeat constructor|]. split; [repeat constructor|]. split; [|split].
  - intros empty. rewrite (machine_jump (facos_e e) e empty).
    + destruct (Req_EM_T e 0); [lra|reflexivity].
    + unfold facos_e. destruct (Rle_dec 1 0); [lra|]. destruct (Rle_dec 1 1); [apply acos_at_1|lra].
    + unfold facos_e. destruct (Rle_dec 0 0); [apply acos_at_0|lra].
    + unfold facos_e. destruct (Rle_dec (1 / sqrt 2) 0); [lra|]. destruct (Rle_dec 1 (1 / sqrt 2)); [lra|]. rewrite acos_root2.
      assert (e * PI <= 1 / 8 * PI) by (apply Rmult_le_compat_r; lra). unfold Rmax. destruct (Rle_dec 0 (PI / 4 - e * PI)); [field|lra].
    + lra.
  - intros empty. pose proof (exact_distance empty Metrics.Float64 2 (map (map Some) ex_xs) Metrics.Float64 2 (map (map Some) ex_ys) true) as E.
    pose proof (machine_jump acos 0 empty acos_at_1 acos_at_0) as J. unfold farray in J. rewrite J in E; [|rewrite acos_root2; field|lra].
    destruct (Req_EM_T 0 0); [|lra]. unfold array. unfold frame in *. destruct (DefaultDistance.default_distance empty _ _ true) as [[v|]|]; try discriminate E.
    injection E as <-. reflexivity.
  - lra.
Qed.

(** ** Values for the examples *)
Lemma single_whole (x y : frame) q : whole [x] [y] q -> q = [(0, 0)%nat].
Proof.
  unfold whole. cbn. intros H. inversion H as [|a b p Hp Hm]; subst; [reflexivity|]. inversion Hm.
Qed.
Lemma single_least f x y : least f [x] [y] [(0, 0)%nat].
Proof. split; [constructor|]. intros q Hq. rewrite (single_whole x y q Hq). lra. Qed.

Lemma right_angle f : cosine_between f -> f [1; 0] [1; 0] = 0 /\ f [0; 1] [1; 0] = 1 / 2.
Proof.
  intros (_ & _ & _ & F). pose proof PI_RGT_0 as P.
  assert (N1 : ~ zero_frame [1; 0]) by (intros H; inversion H; lra). assert (N2 : ~ zero_frame [0; 1]) by (intros H; inversion H as [|? ? ? H2]; inversion H2; lra).
  assert (V1 : norm [1; 0] = 1) by (unfold norm; cbn [inner]; replace (1 * 1 + (0 * 0 + 0)) with 1 by lra; apply sqrt_1).
  assert (V2 : norm [0; 1] = 1) by (unfold norm; cbn [inner]; replace (0 * 0 + (1 * 1 + 0)) with 1 by lra; apply sqrt_1).
  assert (Back : forall a, 0 <= a <= 1 -> a = acos (cos (a * PI)) / PI).
  { intros a Ha. rewrite acos_cos; [field; lra|]. split; [apply Rmult_le_pos; lra|]. rewrite <- (Rmult_1_l PI) at 2. apply Rmult_le_compat_r; lra. }
  split.
  - destruct (F [1; 0] [1; 0] eq_refl N1 N1) as [B I]. rewrite V1 in I. cbn [inner] in I. rewrite (Back _ B). replace (cos (f [1; 0] [1; 0] * PI)) with 1 by lra. rewrite acos_at_1. field. lra.
  - destruct (F [0; 1] [1; 0] eq_refl N2 N1) as [B I]. rewrite V1, V2 in I. cbn [inner] in I. rewrite (Back _ B). replace (cos (f [0; 1] [1; 0] * PI)) with 0 by lra. rewrite acos_at_0. field. lra.
Qed.

Lemma small_error : 0 <= angle_error 0 (1 / 1024) 2 <= 1 / 8.
Proof.
  unfold angle_error. split; [pose proof (sqrt_pos (cosine_error (1 / 1024) 2 / 2)); lra|]. rewrite Rplus_0_l. replace (1 / 8) with (sqrt ((1 / 8) * (1 / 8))) by (apply sqrt_square; lra).
  apply sqrt_le_1_alt. unfold cosine_error. cbn [Nat.add pow]. assert (0 < (1 - 1 / 1024) * ((1 - 1 / 1024) * ((1 - 1 / 1024) * ((1 - 1 / 1024) * ((1 - 1 / 1024) * 1))))) by lra.
  set (b := (1 - 1 / 1024) * ((1 - 1 / 1024) * ((1 - 1 / 1024) * ((1 - 1 / 1024) * ((1 - 1 / 1024) * 1))))) in *.
  set (a := (1 + 1 / 1024) * ((1 + 1 / 1024) * ((1 + 1 / 1024) * 1))). assert (K : a / b <= 33 / 32); [|lra].
  apply (Rmult_le_reg_r b); [assumption|]. unfold Rdiv at 1. rewrite Rmult_assoc, Rinv_l, Rmult_1_r by lra. unfold a, b. lra.
Qed.

Definition ex_memory : costs (option R) := fun _ _ => Some 7.
Lemma error_example : exists f p v, cosine_between f /\ least f one_frame two_frames p /\
  machine_distance (rnd_up (1 / 1024)) (rnd_up (1 / 8)) acos (fun a => a / PI) (rsum (rnd_up (1 / 1024))) (rdot (rnd_up (1 / 1024))) ex_memory
    (farray Metrics.Float32 2 one_frame) (farray Metrics.Float32 2 two_frames) false = Ok (Number (Some v)) /\
  (1 - 1 / 8) ^ 1 * (along f one_frame two_frames p - 2 * angle_error 0 (1 / 1024) 2) <= v <= (1 + 1 / 8) ^ 1 * (along f one_frame two_frames p + 2 * angle_error 0 (1 / 1024) 2).
Proof.
  destruct default_value as (f & Cf & H). destruct (H Metrics.Float32 2%nat one_frame two_frames ex_memory (or_intror eq_refl) ltac:(discriminate) ltac:(discriminate)) as (p & Lp & _).
  destruct (machine_error (rnd_up (1 / 1024)) (rnd_up (1 / 8)) acos (fun a => a / PI) (rsum (rnd_up (1 / 1024))) (rdot (rnd_up (1 / 1024))) (1 / 1024) (1 / 8) 0 f Metrics.Float32 2 one_frame two_frames ex_memory p) as (v & Ev & B);
    try assumption; try (apply rnd_up_precise; lra); try (apply rnd_up_mono; lra); try apply rsums; try apply acos_accurate; try (right; reflexivity); try discriminate; try (repeat constructor).
  exists f, p, v. split; [exact Cf|]. split; [exact Lp|]. split; [exact Ev|]. cbn [one_frame two_frames length Nat.add Nat.sub INR] in B. replace (1 + 1) with 2 in B by lra. exact B.
Qed.

Lemma normalised_example : exists f p v, cosine_between f /\ least f one_frame two_frames p /\
  machine_distance (rnd_up (1 / 1024)) (rnd_up (1 / 8)) acos (fun a => a / PI) (rsum (rnd_up (1 / 1024))) (rdot (rnd_up (1 / 1024))) ex_memory
    (farray Metrics.Float32 2 one_frame) (farray Metrics.Float32 2 two_frames) true = Ok (Number (Some v)) /\
  0 <= v <= (1 + 1 / 8) ^ 2 * (along f one_frame two_frames p + 2 * angle_error 0 (1 / 1024) 2) / 2.
Proof.
  destruct default_value as (f & Cf & H). destruct (H Metrics.Float32 2%nat one_frame two_frames ex_memory (or_intror eq_refl) ltac:(discriminate) ltac:(discriminate)) as (p & Lp & _).
  destruct (machine_error_normalised (rnd_up (1 / 1024)) (rnd_up (1 / 8)) acos (fun a => a / PI) (rsum (rnd_up (1 / 1024))) (rdot (rnd_up (1 / 1024))) (1 / 1024) (1 / 8) 0 f Metrics.Float32 2 one_frame two_frames ex_memory p) as (v & Ev & V & B);
    try assumption; try (apply rnd_up_precise; lra); try (apply rnd_up_mono; lra); try apply rsums; try apply acos_accurate; try (right; reflexivity); try discriminate; try (repeat constructor).
  exists f, p, v. split; [exact Cf|]. split; [exact Lp|]. split; [exact Ev|]. cbn [one_frame two_frames length Nat.add Nat.sub Nat.max INR] in B. replace (1 + 1) with 2 in B by lra. split; [exact V|apply B].
Qed.

Lemma compare_example : exists v v',
  machine_distance (rnd_up (1 / 1024)) (rnd_up (1 / 8)) acos (fun a => a / PI) (rsum (rnd_up (1 / 1024))) (rdot (rnd_up (1 / 1024))) ex_memory
    (farray Metrics.Float32 2 [[1; 0]]) (farray Metrics.Float32 2 [[1; 0]]) false = Ok (Number (Some v)) /\
  machine_distance (rnd_up (1 / 1024)) (rnd_up (1 / 8)) acos (fun a => a / PI) (rsum (rnd_up (1 / 1024))) (rdot (rnd_up (1 / 1024))) ex_memory
    (farray Metrics.Float32 2 [[0; 1]]) (farray Metrics.Float32 2 [[1; 0]]) false = Ok (Number (Some v')) /\ v < v'.
Proof.
  destruct (right_angle _ cosine_between_value) as [Z H]. pose proof small_error as E.
  apply (machine_compare (rnd_up (1 / 1024)) (rnd_up (1 / 8)) acos (fun a => a / PI) (rsum (rnd_up (1 / 1024))) (rdot (rnd_up (1 / 1024))) (1 / 1024) (1 / 8) 0 cosine_value Metrics.Float32 2
           [[1; 0]] [[0; 1]] [[1; 0]] ex_memory ex_memory [(0, 0)%nat] [(0, 0)%nat]);
    try (apply rnd_up_precise; lra); try (apply rnd_up_mono; lra); try apply rsums; try apply acos_accurate; try apply cosine_between_value; try (right; reflexivity); try discriminate; try apply single_least;
    try (repeat constructor; fail).
  cbn [length Nat.add Nat.sub pow INR along fold_right nth fst snd]. rewrite Z, H. lra.
Qed.

Lemma range_example : exists v,
  machine_distance rnd8 rnd8 acos (fun a => a / PI) (rsum rnd8) (rdot rnd8) ex_memory (farray Metrics.Float64 2 one_frame) (farray Metrics.Float64 2 two_frames) true = Ok (Number (Some v)) /\ 0 <= v <= 1.
Proof.
  apply (machine_range rnd8 rnd8 acos (fun a => a / PI) (rsum rnd8) (rdot rnd8) (1 / 8) format8 (rsums rnd8) acos_half_turns Metrics.Float64 2 one_frame two_frames ex_memory true);
    try discriminate; try (repeat constructor; fail); try (left; reflexivity); [apply (fmt_mono _ _ format8)|intros; apply rnd8_INR].
Qed.
