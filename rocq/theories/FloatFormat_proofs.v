(** Proofs about roundings to nearest. *)
From Coq Require Import Reals ZArith List Lia Lra.
From Verif Require Import Prelude Metrics_spec DefaultDistance_spec FloatDistance FloatDistance_spec FloatDistance_proofs FloatFormat_spec.
Import ListNotations.
Local Open Scope R_scope.

(** ** Powers of 2 *)
Notation bpow := (powerRZ 2).

Lemma bpow_pos e : 0 < bpow e.
Proof. apply powerRZ_lt. lra. Qed.
Lemma bpow_plus a b : bpow (a + b) = bpow a * bpow b.
Proof. apply powerRZ_add. lra. Qed.
Lemma bpow_succ a : bpow (a + 1) = 2 * bpow a.
Proof. rewrite bpow_plus, powerRZ_1. ring. Qed.
Lemma bpow_nat n : bpow (Z.of_nat n) = 2 ^ n.
Proof. symmetry. apply pow_powerRZ. Qed.
Lemma bpow_IZR p : (0 <= p)%Z -> bpow p = IZR (2 ^ p).
Proof.
  intros H. rewrite <- (Z2Nat.id p H) at 1. rewrite bpow_nat. rewrite pow_IZR. rewrite Z2Nat.id by exact H. reflexivity.
Qed.
Lemma bpow_ge1 n : 1 <= bpow (Z.of_nat n).
Proof. rewrite bpow_nat. apply pow_R1_Rle. lra. Qed.
Lemma bpow_le a b : (a <= b)%Z -> bpow a <= bpow b.
Proof.
  intros H. replace b with (a + Z.of_nat (Z.to_nat (b - a)))%Z by lia. rewrite bpow_plus.
  pose proof (bpow_ge1 (Z.to_nat (b - a))). pose proof (bpow_pos a). nra.
Qed.
Lemma bpow_lt_inv a b : bpow a < bpow b -> (a < b)%Z.
Proof. intros H. destruct (Z_lt_le_dec a b) as [L|L]; [exact L|]. apply bpow_le in L. lra. Qed.
Lemma bpow_neg a : bpow (- a) * bpow a = 1.
Proof. rewrite <- bpow_plus. replace (- a + a)%Z with 0%Z by lia. reflexivity. Qed.

(** Every number is between two powers. *)
Lemma pow_above x : exists n, x < bpow (Z.of_nat n).
Proof.
  exists (Z.to_nat (up x)). rewrite bpow_nat. pose proof (archimed x) as [A _].
  assert (H : forall n, INR n < 2 ^ n) by (induction n as [|n IH]; [cbn; lra|rewrite S_INR; cbn [pow]; pose proof (pow_R1_Rle 2 n ltac:(lra)); lra]).
  specialize (H (Z.to_nat (up x))). rewrite INR_IZR_INZ in H. destruct (Z_le_gt_dec 0 (up x)) as [L|L].
  - rewrite Z2Nat.id in H by exact L. lra.
  - assert (IZR (up x) < 0) by (apply IZR_lt; lia). pose proof (pow_lt 2 (Z.to_nat (up x)) ltac:(lra)). lra.
Qed.

Lemma exponent x : 0 < x -> exists e, bpow e <= x < bpow (e + 1).
Proof.
  intros P. destruct (pow_above x) as [n Hn]. destruct (pow_above (/ x)) as [k Hk].
  assert (L : bpow (- Z.of_nat k) < x).
  { pose proof (bpow_neg (Z.of_nat k)) as E. pose proof (bpow_pos (Z.of_nat k)) as Pk.
    assert (1 < x * bpow (Z.of_nat k)) by (pose proof (Rinv_r x ltac:(lra)); nra). nra. }
  assert (G : forall d, bpow (- Z.of_nat k) <= x -> x < bpow (- Z.of_nat k + Z.of_nat d) -> exists e, bpow e <= x < bpow (e + 1)).
  { clear - P. intros d. generalize (- Z.of_nat k)%Z. induction d as [|d IH]; intros z Hz Hd.
    - rewrite Z.add_0_r in Hd. lra.
    - destruct (Rlt_le_dec x (bpow (z + 1))) as [H|H]; [exists z; lra|]. apply (IH (z + 1)%Z H). replace (z + 1 + Z.of_nat d)%Z with (z + Z.of_nat (S d))%Z by lia. exact Hd. }
  apply (G (n + k)%nat); [lra|]. replace (- Z.of_nat k + Z.of_nat (n + k))%Z with (Z.of_nat n) by lia. exact Hn.
Qed.

(** The nearest integer. *)
Definition near (x : R) : Z := (up (x - / 2))%Z.
Lemma near_bounds x : Rabs (IZR (near x) - x) <= / 2.
Proof. unfold near. pose proof (archimed (x - / 2)). apply Rabs_le. lra. Qed.

(** ** Points near a number *)

(** With a last digit of weight 2 to the power [k]. *)
Lemma rounded_point p k x : (0 < p)%Z -> Rabs x < bpow (k + p) ->
  exists m e, (Z.abs m < 2 ^ p)%Z /\ (k <= e)%Z /\ IZR (near (x / bpow k)) * bpow k = IZR m * bpow e /\ Rabs (IZR m * bpow e - x) <= bpow k / 2.
Proof.
  intros Hp Hx. set (m := near (x / bpow k)). pose proof (near_bounds (x / bpow k)) as B. fold m in B. pose proof (bpow_pos k) as Pk.
  assert (E : Rabs (IZR m * bpow k - x) <= bpow k / 2).
  { replace (IZR m * bpow k - x) with ((IZR m - x / bpow k) * bpow k) by (field; lra). rewrite Rabs_mult, (Rabs_pos_eq (bpow k)) by lra.
    apply (Rmult_le_compat_r (bpow k)) in B; lra. }
  assert (M : (Z.abs m <= 2 ^ p)%Z).
  { apply le_IZR. rewrite abs_IZR, <- bpow_IZR by lia. rewrite bpow_plus in Hx. rewrite Rmult_comm in Hx.
    assert (Q : Rabs (x / bpow k) < bpow p).
    { unfold Rdiv. rewrite Rabs_mult, Rabs_inv, (Rabs_pos_eq (bpow k)) by lra. apply (Rmult_lt_reg_r (bpow k)); [lra|]. rewrite Rmult_assoc, Rinv_l, Rmult_1_r by lra. exact Hx. }
    apply Rnot_lt_le. intros C. rewrite (bpow_IZR p) in Q, C by lia. rewrite <- abs_IZR in C. apply lt_IZR in C.
    assert (C' : IZR (2 ^ p) + 1 <= IZR (Z.abs m)) by (rewrite <- plus_IZR; apply IZR_le; lia). rewrite abs_IZR in C'.
    pose proof (Rabs_triang (IZR m - x / bpow k) (x / bpow k)) as T. replace (IZR m - x / bpow k + x / bpow k) with (IZR m) in T by ring. lra. }
  destruct (Z.eq_dec (Z.abs m) (2 ^ p)) as [Q|Q].
  - exists (m / 2)%Z, (k + 1)%Z. assert (D : m = (2 * (m / 2))%Z).
    { apply Z_div_exact_full_2; [lia|]. assert (D : (2 | Z.abs m)%Z) by (rewrite Q; exists (2 ^ (p - 1))%Z; rewrite Z.mul_comm, <- Z.pow_succ_r by lia; f_equal; lia).
      apply (proj1 (Z.divide_abs_r 2 m)) in D. apply Z.mod_divide; [lia|exact D]. }
    assert (F : IZR (m / 2) * bpow (k + 1) = IZR m * bpow k) by (rewrite D at 2; rewrite mult_IZR, bpow_succ; ring).
    rewrite F. split; [|split; [lia|split; [reflexivity|exact E]]]. assert (0 < 2 ^ p)%Z by (apply Z.pow_pos_nonneg; lia). lia.
  - exists m, k. split; [lia|]. split; [lia|]. split; [reflexivity|exact E].
Qed.

Lemma point p k x : (0 < p)%Z -> Rabs x < bpow (k + p) ->
  exists m e, (Z.abs m < 2 ^ p)%Z /\ (k <= e)%Z /\ Rabs (IZR m * bpow e - x) <= bpow k / 2.
Proof. intros Hp Hx. destruct (rounded_point p k x Hp Hx) as (m & e & M & Le & _ & B). exists m, e. auto. Qed.

Lemma digits_format p emin x : in_format p emin x -> with_digits p x.
Proof. intros (m & e & M & _ & E). exists m, e. split; assumption. Qed.

Lemma digits_point p x : (0 < p)%Z -> exists g, with_digits p g /\ Rabs (g - x) <= bpow (- p) * Rabs x.
Proof.
  intros Hp. destruct (Req_dec x 0) as [->|N].
  - exists 0. split; [exists 0%Z, 0%Z; split; [cbn; apply Z.pow_pos_nonneg; lia|lra]|]. rewrite Rminus_0_r, Rabs_R0. lra.
  - destruct (exponent (Rabs x) (Rabs_pos_lt x N)) as (e & L & U).
    destruct (point p (e + 1 - p) x Hp) as (m & e' & M & _ & B); [replace (e + 1 - p + p)%Z with (e + 1)%Z by lia; exact U|].
    exists (IZR m * bpow e'). split; [exists m, e'; split; [exact M|reflexivity]|]. replace (e + 1 - p)%Z with (e + - p + 1)%Z in B by lia.
    rewrite bpow_succ, bpow_plus in B. pose proof (bpow_pos (- p)). nra.
Qed.

Lemma format_point p emin x : (0 < p)%Z -> exists g, in_format p emin g /\ (Rabs (g - x) <= bpow emin / 2 \/ Rabs (g - x) <= bpow (- p) * Rabs x).
Proof.
  intros Hp. destruct (Rlt_le_dec (Rabs x) (bpow (emin + p))) as [S|S].
  - destruct (point p emin x Hp S) as (m & e & M & Le & B). exists (IZR m * bpow e). split; [exists m, e; auto|left; exact B].
  - assert (N : 0 < Rabs x) by (pose proof (bpow_pos (emin + p)); lra). destruct (exponent (Rabs x) N) as (e & L & U).
    assert (emin + p < e + 1)%Z by (apply bpow_lt_inv; lra).
    destruct (point p (e + 1 - p) x Hp) as (m & e' & M & Le & B); [replace (e + 1 - p + p)%Z with (e + 1)%Z by lia; exact U|].
    exists (IZR m * bpow e'). split; [exists m, e'; split; [exact M|split; [lia|reflexivity]]|right]. replace (e + 1 - p)%Z with (e + - p + 1)%Z in B by lia.
    rewrite bpow_succ, bpow_plus in B. pose proof (bpow_pos (- p)). nra.
Qed.

(** ** Roundings to nearest *)
Section Nearest.
Variable F : R -> Prop.
Variable rnd : R -> R.
Hypothesis Near : nearest_in F rnd.

Lemma nearest_mono a b : a <= b -> rnd a <= rnd b.
Proof.
  intros [L|<-]; [|lra]. destruct (Near a) as [Fa Na]. destruct (Near b) as [Fb Nb]. specialize (Na _ Fb). specialize (Nb _ Fa).
  apply Rnot_lt_le. intros C. unfold Rabs in *. repeat destruct Rcase_abs; lra.
Qed.

Lemma nearest_keeps a : F a -> rnd a = a.
Proof. intros H. destruct (Near a) as [_ N]. specialize (N a H). replace (a - a) with 0 in N by ring. rewrite Rabs_R0 in N. pose proof (Rabs_pos (rnd a - a)). destruct (Req_dec (rnd a - a) 0) as [E|E]; [lra|]. apply Rabs_pos_lt in E. lra. Qed.

Lemma nearest_fixed a : rnd a = a -> F a.
Proof. intros E. rewrite <- E. apply Near. Qed.
End Nearest.

Lemma format_integer p emin z : (emin <= 0)%Z -> (Z.abs z <= 2 ^ p)%Z -> (0 < p)%Z -> in_format p emin (IZR z).
Proof.
  intros He Hz Hp. destruct (Z.eq_dec (Z.abs z) (2 ^ p)) as [Q|Q].
  - assert (D : (2 ^ p = 2 * 2 ^ (p - 1))%Z) by (rewrite <- Z.pow_succ_r by lia; f_equal; lia). assert (0 < 2 ^ (p - 1))%Z by (apply Z.pow_pos_nonneg; lia).
    exists (Z.sgn z * 2 ^ (p - 1))%Z, 1%Z. split; [rewrite Z.abs_mul; destruct z; cbn [Z.sgn Z.abs] in *; lia|]. split; [lia|].
    replace z with (Z.sgn z * Z.abs z)%Z at 1 by (rewrite Z.mul_comm; apply Z.abs_sgn). rewrite Q, D, !mult_IZR, powerRZ_1. ring.
  - exists z, 0%Z. split; [lia|]. split; [exact He|]. cbn. ring.
Qed.

Lemma nearest_format p emin rnd : (2 <= p)%Z -> (emin <= -2)%Z -> nearest_in (in_format p emin) rnd -> format rnd (bpow emin).
Proof.
  intros Hp He N. pose proof (bpow_pos emin) as P.
  assert (P2 : (2 ^ 2 <= 2 ^ p)%Z) by (apply Z.pow_le_mono_r; lia). change (2 ^ 2)%Z with 4%Z in P2.
  assert (F0 : in_format p emin 0) by (apply (format_integer p emin 0); cbn; lia).
  assert (Ft : in_format p emin (bpow emin)) by (exists 1%Z, emin; split; [cbn; lia|split; [lia|lra]]).
  constructor.
  - exact P.
  - apply (nearest_mono _ _ N).
  - intros a. apply (nearest_keeps _ _ N), N.
  - intros a E A. apply (nearest_fixed _ _ N) in E. destruct E as (m & e & _ & Le & ->). pose proof (bpow_pos e) as Pe.
    assert (0 < IZR m) by (apply Rnot_le_lt; intros C; nra). assert (1 <= IZR m) by (apply (IZR_le 1); apply lt_IZR in H; lia). apply bpow_le in Le. nra.
  - apply (nearest_keeps _ _ N), F0.
  - apply (nearest_keeps _ _ N). apply (format_integer p emin 1); cbn; lia.
  - intros a H. destruct (N a) as [_ B]. specialize (B _ Ft). apply Rnot_le_lt. intros C. unfold Rabs in B. repeat destruct Rcase_abs; lra.
  - intros a H. assert (S : 2 * bpow emin <= sqrt a).
    { rewrite <- (sqrt_pow2 (2 * bpow emin)) by lra. apply sqrt_le_1_alt. replace ((2 * bpow emin) ^ 2) with (4 * bpow emin * bpow emin) by ring.
      assert (Q : bpow emin <= bpow (-2)) by (apply bpow_le; lia). change (bpow (-2)) with (/ (2 * (2 * 1))) in Q. nra. }
    destruct (format_point p emin (sqrt a) ltac:(lia)) as (g & G & D). destruct (N (sqrt a)) as [_ B]. specialize (B g G).
    assert (Q : bpow (- p) <= bpow (-2)) by (apply bpow_le; lia). change (bpow (-2)) with (/ (2 * (2 * 1))) in Q.
    rewrite (Rabs_pos_eq (sqrt a)) in D by lra.
    assert (D' : Rabs (rnd (sqrt a) - sqrt a) <= / 4 * sqrt a) by (destruct D as [D|D]; nra).
    unfold Rabs in D'. destruct Rcase_abs; lra.
Qed.

Lemma nearest_integers p emin rnd n : (0 < p)%Z -> (emin <= 0)%Z -> nearest_in (in_format p emin) rnd -> (Z.of_nat n <= 2 ^ p)%Z -> rnd (INR n) = INR n.
Proof. intros Hp He N H. apply (nearest_keeps _ _ N). rewrite INR_IZR_INZ. apply format_integer; lia. Qed.

Lemma nearest_precise p rnd : (0 < p)%Z -> nearest_in (with_digits p) rnd -> precise rnd (bpow (- p)) /\ forall a b, a <= b -> rnd a <= rnd b.
Proof.
  intros Hp N. split; [|apply (nearest_mono _ _ N)]. split.
  - pose proof (bpow_pos (- p)). assert (Q : bpow (- p) <= bpow (-1)) by (apply bpow_le; lia). change (bpow (-1)) with (/ (2 * 1)) in Q. lra.
  - intros a. destruct (digits_point p a Hp) as (g & G & D). destruct (N a) as [_ B]. specialize (B g G). lra.
Qed.

(** The error of a rounding in a format with subnormal numbers. *)
Lemma nearest_error p emin rnd a : (0 < p)%Z -> nearest_in (in_format p emin) rnd ->
  Rabs (rnd a - a) <= Rmax (bpow emin / 2) (bpow (- p) * Rabs a).
Proof.
  intros Hp N. destruct (format_point p emin a Hp) as (g & G & D). destruct (N a) as [_ B]. specialize (B g G).
  pose proof (Rmax_l (bpow emin / 2) (bpow (- p) * Rabs a)). pose proof (Rmax_r (bpow emin / 2) (bpow (- p) * Rabs a)). lra.
Qed.

(** ** Distances in formats *)
Theorem float_range p emin p' emin' rnd rnd' facos fover sum dot :
  (2 <= p)%Z -> (emin <= -2)%Z -> nearest_in (in_format p emin) rnd -> (0 < p')%Z -> (emin' <= 0)%Z -> nearest_in (in_format p' emin') rnd' ->
  sums_rounded rnd sum dot -> (forall v, 0 <= fover (facos v) <= 1) ->
  forall t w xs ys empty normalized, is_float t -> frames_of w xs -> frames_of w ys -> xs <> [] -> ys <> [] -> (Z.of_nat (length xs + length ys) <= 2 ^ p')%Z ->
  exists v, machine_distance rnd rnd' facos fover sum dot empty (farray t w xs) (farray t w ys) normalized = Ok (Number (Some v)) /\
    0 <= v <= (if normalized then 1 else INR (length xs + length ys - 1)).
Proof.
  intros Hp He N Hp' He' N' S A t w xs ys empty normalized Ht Fx Fy Nx Ny L.
  apply (machine_range rnd rnd' facos fover sum dot (bpow emin) (nearest_format p emin rnd Hp He N) S A t w xs ys empty normalized Ht Fx Fy Nx Ny (nearest_mono _ _ N')).
  intros n Hn. apply (nearest_integers p' emin' rnd' n Hp' He' N'). lia.
Qed.
