(** Proofs for the numbers of a format of floats with overflow. *)
From Coq Require Import Reals ZArith List Permutation Lia Lra Bool.
From Verif Require Import Prelude Metrics_spec DefaultDistance_spec.
From Verif Require Metrics DefaultDistance.
From Verif Require Import FloatDistance FloatDistance_spec FloatDistance_proofs FloatDistance_error FloatDistance_ex FloatFormat_spec FloatFormat_proofs FloatRange_spec.
Import ListNotations.
Local Open Scope R_scope.

(** Multiples of a power of 2. *)
Definition mult (j : Z) (x : R) : Prop := exists z, x = IZR z * bpow j.

Lemma mult_weaken j j' x : (j <= j')%Z -> mult j' x -> mult j x.
Proof.
  intros L [z ->]. exists (z * 2 ^ (j' - j))%Z. rewrite mult_IZR, <- bpow_IZR by lia. rewrite Rmult_assoc, <- bpow_plus. f_equal. f_equal. lia.
Qed.
Lemma mult_plus j x y : mult j x -> mult j y -> mult j (x + y).
Proof. intros [z ->] [z' ->]. exists (z + z')%Z. rewrite plus_IZR. ring. Qed.
Lemma mult_times j j' x y : mult j x -> mult j' y -> mult (j + j') (x * y).
Proof. intros [z ->] [z' ->]. exists (z * z')%Z. rewrite mult_IZR, bpow_plus. ring. Qed.
Lemma mult_0 j : mult j 0.
Proof. exists 0%Z. lra. Qed.
Lemma mult_least j x : mult j x -> x <> 0 -> bpow j <= Rabs x.
Proof.
  intros [z ->] N. rewrite Rabs_mult, (Rabs_pos_eq (bpow j)) by (pose proof (bpow_pos j); lra). rewrite <- abs_IZR.
  assert (Z : (1 <= Z.abs z)%Z) by (destruct (Z.eq_dec z 0) as [->|]; [exfalso; apply N; lra|lia]). apply IZR_le in Z. pose proof (bpow_pos j). nra.
Qed.
Lemma digits_mult p j x : with_digits p x -> bpow (j + p) <= Rabs x -> mult j x.
Proof.
  intros (m & e & M & ->) H. apply (mult_weaken j e); [|exists m; reflexivity].
  rewrite Rabs_mult, (Rabs_pos_eq (bpow e)) in H by (pose proof (bpow_pos e); lra). rewrite <- abs_IZR, bpow_plus in H. pose proof (bpow_pos e) as Pe. pose proof (bpow_pos j) as Pj.
  destruct (Z_lt_le_dec p 0) as [Np|Np]; [rewrite Z.pow_neg_r in M by exact Np; lia|]. apply IZR_lt in M. rewrite <- bpow_IZR in M by exact Np. pose proof (bpow_pos p).
  assert (bpow j < bpow e) by nra. apply bpow_lt_inv in H1. lia.
Qed.

Section Format.
Variables (p emin : Z) (rnd : R -> R).
Hypothesis Hp : (0 < p)%Z.
Hypothesis N : nearest_in (in_format p emin) rnd.
Local Notation u := (bpow (- p)).

Definition good (x : R) : Prop := Rabs (rnd x - x) <= u * Rabs x.

Lemma good_big x : bpow (emin + p) <= Rabs x -> good x.
Proof.
  intros S. assert (P : 0 < Rabs x) by (pose proof (bpow_pos (emin + p)); lra). destruct (exponent (Rabs x) P) as (e & L & U).
  assert (emin + p < e + 1)%Z by (apply bpow_lt_inv; lra).
  destruct (point p (e + 1 - p) x Hp) as (m & e' & M & Le & B); [replace (e + 1 - p + p)%Z with (e + 1)%Z by lia; exact U|].
  assert (G : in_format p emin (IZR m * bpow e')) by (exists m, e'; split; [exact M|split; [lia|reflexivity]]).
  destruct (N x) as [_ Q]. specialize (Q _ G). replace (e + 1 - p)%Z with (e + - p + 1)%Z in B by lia. rewrite bpow_succ, bpow_plus in B.
  unfold good. pose proof (bpow_pos (- p)). nra.
Qed.

Lemma integer_format n c : (emin <= c)%Z -> (Z.abs n <= 2 ^ p)%Z -> in_format p emin (IZR n * bpow c).
Proof.
  intros He Hz. destruct (Z.eq_dec (Z.abs n) (2 ^ p)) as [Q|Q].
  - assert (D : (2 ^ p = 2 * 2 ^ (p - 1))%Z) by (rewrite <- Z.pow_succ_r by lia; f_equal; lia). assert (0 < 2 ^ (p - 1))%Z by (apply Z.pow_pos_nonneg; lia).
    exists (Z.sgn n * 2 ^ (p - 1))%Z, (c + 1)%Z. split; [rewrite Z.abs_mul; destruct n; cbn [Z.sgn Z.abs] in *; lia|]. split; [lia|].
    replace n with (Z.sgn n * Z.abs n)%Z at 1 by (rewrite Z.mul_comm; apply Z.abs_sgn). rewrite Q, D, !mult_IZR, bpow_succ. ring.
  - exists n, c. split; [lia|]. split; [exact He|]. reflexivity.
Qed.

Lemma opp_format x : in_format p emin x -> in_format p emin (- x).
Proof. intros (m & e & M & Le & ->). exists (- m)%Z, e. split; [lia|]. split; [exact Le|]. rewrite opp_IZR. ring. Qed.

Lemma rnd_bound B x : in_format p emin B -> Rabs x <= B -> Rabs (rnd x) <= B.
Proof.
  intros F H. pose proof (nearest_keeps _ _ N _ F) as K. pose proof (nearest_keeps _ _ N _ (opp_format _ F)) as K'.
  assert (H' : - B <= x <= B) by (unfold Rabs in H; destruct Rcase_abs; lra). destruct H' as [H1 H2].
  apply (nearest_mono _ _ N) in H1, H2. rewrite K' in H1. rewrite K in H2. apply Rabs_le. lra.
Qed.

Lemma good_mult j x : (emin <= j)%Z -> mult j x -> good x /\ mult j (rnd x).
Proof.
  intros L M. destruct (Rlt_le_dec (Rabs x) (bpow (j + p))) as [S|S].
  - assert (F : in_format p emin x).
    { destruct M as [z ->]. exists z, j. split; [|split; [exact L|reflexivity]].
      rewrite Rabs_mult, (Rabs_pos_eq (bpow j)) in S by (pose proof (bpow_pos j); lra). rewrite bpow_plus, (bpow_IZR p), <- abs_IZR in S by lia.
      apply lt_IZR. pose proof (bpow_pos j). nra. }
    unfold good. rewrite (nearest_keeps _ _ N _ F). split; [|exact M]. replace (x - x) with 0 by ring. rewrite Rabs_R0. pose proof (bpow_pos (- p)). pose proof (Rabs_pos x). nra.
  - split; [apply good_big; eapply Rle_trans; [apply bpow_le|exact S]; lia|]. apply (digits_mult p); [apply (digits_format p emin), N|].
    destruct (Rle_lt_dec 0 x) as [P|P].
    + rewrite Rabs_pos_eq in S by exact P. assert (F : in_format p emin (bpow (j + p))) by (rewrite <- (Rmult_1_l (bpow (j + p))); apply integer_format; [lia|]; assert (0 < 2 ^ p)%Z by (apply Z.pow_pos_nonneg; lia); lia).
      apply (nearest_mono _ _ N) in S. rewrite (nearest_keeps _ _ N _ F) in S. eapply Rle_trans; [exact S|apply Rle_abs].
    + rewrite Rabs_left in S by exact P. assert (F : in_format p emin (- bpow (j + p))) by (apply opp_format; rewrite <- (Rmult_1_l (bpow (j + p))); apply integer_format; [lia|]; assert (0 < 2 ^ p)%Z by (apply Z.pow_pos_nonneg; lia); lia).
      assert (S' : x <= - bpow (j + p)) by lra. apply (nearest_mono _ _ N) in S'. rewrite (nearest_keeps _ _ N _ F) in S'. rewrite <- Rabs_Ropp. eapply Rle_trans; [|apply Rle_abs]. lra.
Qed.

(** The rounding without underflow. *)
Definition rnds (x : R) : R := if Rle_dec (Rabs (rnd x - x)) (u * Rabs x) then rnd x else x.

Lemma rnds_precise : precise rnds u.
Proof.
  split.
  - pose proof (bpow_pos (- p)). assert (Q : bpow (- p) <= bpow (-1)) by (apply bpow_le; lia). change (bpow (-1)) with (/ (2 * 1)) in Q. lra.
  - intros a. unfold rnds. destruct (Rle_dec _ _) as [G|G]; [exact G|]. replace (a - a) with 0 by ring. rewrite Rabs_R0. pose proof (bpow_pos (- p)). pose proof (Rabs_pos a). nra.
Qed.
Lemma rnds_good x : good x -> rnds x = rnd x.
Proof. intros G. unfold rnds. destruct (Rle_dec _ _) as [|H]; [reflexivity|contradiction]. Qed.

(** ** Sums *)
Variable max : R.

Lemma kept_small B x : in_format p emin B -> B <= max -> Rabs x <= B -> kept rnd max x = Some (rnd x).
Proof. intros F L H. unfold kept. destruct (Rle_dec _ _) as [|C]; [reflexivity|]. exfalso. apply C. eapply Rle_trans; [apply (rnd_bound B x F H)|exact L]. Qed.

Variables (j c : Z) (size : nat).
Hypothesis Hj : (emin <= j)%Z.
Hypothesis Hc : (emin <= c)%Z.
Hypothesis Hsize : (Z.of_nat size <= 2 ^ p)%Z.
Hypothesis Hmax : INR size * bpow c <= max.

Lemma count_format n : (n <= size)%nat -> in_format p emin (INR n * bpow c) /\ INR n * bpow c <= max.
Proof.
  intros H. split.
  - rewrite INR_IZR_INZ. apply integer_format; [exact Hc|lia].
  - eapply Rle_trans; [|exact Hmax]. apply Rmult_le_compat_r; [pose proof (bpow_pos c); lra|apply le_INR, H].
Qed.

Lemma osummed_small : forall l o, osummed rnd max l o -> (forall a, In a l -> mult j a /\ Rabs a <= bpow c) -> (length l <= size)%nat ->
  exists s, o = Some s /\ summed rnds l s /\ mult j s /\ Rabs s <= INR (length l) * bpow c.
Proof.
  induction 1 as [|a|l l1 l2 oa ob P N1 N2 S1 IH1 S2 IH2]; intros H Le.
  - exists 0. split; [reflexivity|]. split; [constructor|]. split; [apply mult_0|]. rewrite Rabs_R0. cbn. lra.
  - exists a. split; [reflexivity|]. split; [constructor|]. destruct (H a (or_introl eq_refl)) as [M B]. split; [exact M|]. cbn. lra.
  - pose proof (Permutation_length P) as L. rewrite app_length in L.
    destruct IH1 as (a & -> & Sa & Ma & Ba); [intros e He; apply H, (Permutation_in _ (Permutation_sym P)), in_or_app; left; exact He|lia|].
    destruct IH2 as (b & -> & Sb & Mb & Bb); [intros e He; apply H, (Permutation_in _ (Permutation_sym P)), in_or_app; right; exact He|lia|].
    assert (B : Rabs (a + b) <= INR (length l) * bpow c) by (eapply Rle_trans; [apply Rabs_triang|]; rewrite L, plus_INR; lra).
    destruct (count_format (length l) Le) as [F Lm]. destruct (good_mult j (a + b) Hj (mult_plus _ _ _ Ma Mb)) as [G M].
    exists (rnd (a + b)). cbn [kept2]. split; [apply (kept_small _ _ F Lm B)|]. split; [|split; [exact M|apply (rnd_bound _ _ F B)]].
    rewrite <- (rnds_good _ G). apply (summed_plus rnds l l1 l2 a b P N1 N2 Sa Sb).
Qed.

Variables (k b : Z).
Hypothesis Hk : j = (k + k)%Z.
Hypothesis Hb : c = (b + b)%Z.

Lemma product_small x y : mult k x /\ Rabs x <= bpow b -> mult k y /\ Rabs y <= bpow b -> mult j (x * y) /\ Rabs (x * y) <= bpow c.
Proof.
  intros [Mx Bx] [My By]. split; [rewrite Hk; apply mult_times; assumption|]. rewrite Rabs_mult, Hb, bpow_plus. apply Rmult_le_compat; try apply Rabs_pos; assumption.
Qed.

Lemma odotted_small : forall l o, odotted rnd max l o -> (forall x y, In (x, y) l -> (mult k x /\ Rabs x <= bpow b) /\ (mult k y /\ Rabs y <= bpow b)) -> (length l <= size)%nat ->
  exists s, o = Some s /\ dotted rnds l s /\ mult j s /\ Rabs s <= INR (length l) * bpow c.
Proof.
  induction 1 as [|x y|l l' x y o P N1 S1 IH1|l l1 l2 oa ob P N1 N2 S1 IH1 S2 IH2]; intros H Le.
  - exists 0. split; [reflexivity|]. split; [constructor|]. split; [apply mult_0|]. rewrite Rabs_R0. cbn. lra.
  - destruct (H x y (or_introl eq_refl)) as [Hx Hy]. destruct (product_small x y Hx Hy) as [M B]. destruct (count_format 1 Le) as [F Lm]. cbn [length] in *. change (INR 1) with 1 in *.
    rewrite Rmult_1_l in F, Lm |- *. destruct (good_mult j (x * y) Hj M) as [G M']. exists (rnd (x * y)). split; [apply (kept_small _ _ F Lm B)|]. split; [|split; [exact M'|apply (rnd_bound _ _ F B)]].
    rewrite <- (rnds_good _ G). constructor.
  - pose proof (Permutation_length P) as L. cbn [length] in L.
    destruct IH1 as (s & -> & Ss & Ms & Bs); [intros e1 e2 He; apply H, (Permutation_in _ (Permutation_sym P)); right; exact He|lia|].
    destruct (H x y) as [Hx Hy]; [apply (Permutation_in _ (Permutation_sym P)); left; reflexivity|]. destruct (product_small x y Hx Hy) as [M B].
    assert (B' : Rabs (x * y + s) <= INR (length l) * bpow c) by (eapply Rle_trans; [apply Rabs_triang|]; rewrite L, S_INR; lra).
    destruct (count_format (length l) Le) as [F Lm]. destruct (good_mult j (x * y + s) Hj (mult_plus _ _ _ M Ms)) as [G M'].
    exists (rnd (x * y + s)). cbn [kept2]. split; [apply (kept_small _ _ F Lm B')|]. split; [|split; [exact M'|apply (rnd_bound _ _ F B')]].
    rewrite <- (rnds_good _ G). apply (dotted_fused rnds l l' x y s P N1 Ss).
  - pose proof (Permutation_length P) as L. rewrite app_length in L.
    destruct IH1 as (s & -> & Sa & Ma & Ba); [intros e1 e2 He; apply H, (Permutation_in _ (Permutation_sym P)), in_or_app; left; exact He|lia|].
    destruct IH2 as (t & -> & Sb & Mb & Bb); [intros e1 e2 He; apply H, (Permutation_in _ (Permutation_sym P)), in_or_app; right; exact He|lia|].
    assert (B : Rabs (s + t) <= INR (length l) * bpow c) by (eapply Rle_trans; [apply Rabs_triang|]; rewrite L, plus_INR; lra).
    destruct (count_format (length l) Le) as [F Lm]. destruct (good_mult j (s + t) Hj (mult_plus _ _ _ Ma Mb)) as [G M].
    exists (rnd (s + t)). cbn [kept2]. split; [apply (kept_small _ _ F Lm B)|]. split; [|split; [exact M|apply (rnd_bound _ _ F B)]].
    rewrite <- (rnds_good _ G). apply (dotted_plus rnds l l1 l2 s t P N1 N2 Sa Sb).
Qed.
End Format.

(** ** The distance *)
Definition multb (j : Z) (x : R) : bool := if Req_EM_T (IZR (Int_part (x / bpow j)) * bpow j) x then true else false.
Lemma multb_mult j x : multb j x = true <-> mult j x.
Proof.
  unfold multb. destruct (Req_EM_T _ _) as [E|E]; split; intros H; try discriminate; try reflexivity.
  - exists (Int_part (x / bpow j)). symmetry. exact E.
  - exfalso. apply E. destruct H as [z ->]. pose proof (bpow_pos j) as P. replace (IZR z * bpow j / bpow j) with (IZR z) by (field; lra).
    assert (I : Int_part (IZR z) = z).
    { destruct (base_Int_part (IZR z)) as [B1 B2]. apply Z.le_antisymm; [apply le_IZR, B1|].
      assert (IZR z < IZR (Int_part (IZR z) + 1)) by (rewrite plus_IZR; lra). apply lt_IZR in H. lia. }
    rewrite I. reflexivity.
Qed.
Definition within (j c : Z) (o : option R) : bool :=
  match o with Some a => multb j a && (if Rle_dec (Rabs a) (bpow c) then true else false) | None => false end.
Lemma within_some j c a : within j c (Some a) = true <-> mult j a /\ Rabs a <= bpow c.
Proof. unfold within. rewrite andb_true_iff, multb_mult. destruct (Rle_dec _ _); intuition discriminate. Qed.
Lemma within_all j c l : forallb (within j c) (map Some l) = true <-> forall a, In a l -> mult j a /\ Rabs a <= bpow c.
Proof.
  rewrite forallb_forall. split.
  - intros H a Ha. apply within_some, H, in_map, Ha.
  - intros H o Ho. apply in_map_iff in Ho. destruct Ho as (a & <- & Ha). apply within_some, H, Ha.
Qed.

Section Distance.
Variables (p emin : Z) (rnd : R -> R) (max : R) (lo hi q : Z) (facos fover : R -> R).
Variable sum : list (option R) -> option R.
Variable dot : list (option R) -> list (option R) -> option R.
Hypothesis N : nearest_in (in_format p emin) rnd.
Hypothesis S : suited p emin max lo hi q.
Hypothesis Sk : sums_kept rnd max sum dot.
Variable w : nat.
Hypothesis Hw : (Z.of_nat w <= 2 ^ q)%Z.

Local Notation k := (lo - p)%Z.
Local Notation j := (k + k)%Z.
Local Notation c := (hi + hi)%Z.
Local Notation rs := (rnds p rnd).

Definition sum' (l : list (option R)) : option R := if forallb (within j c) l && (length l <=? w)%nat then sum l else rsum rs l.
Definition dot' (l l' : list (option R)) : option R :=
  if forallb (within k hi) l && forallb (within k hi) l' && (length l <=? w)%nat then dot l l' else rdot rs l l'.

Lemma Pp : (0 < p)%Z. Proof. destruct S as [(? & _) _]. assumption. Qed.
Lemma Lj : (emin <= j)%Z. Proof. destruct S as [(? & ? & ? & ?) _]. lia. Qed.
Lemma Lc : (emin <= c)%Z. Proof. destruct S as [(? & ? & ? & ?) _]. lia. Qed.
Lemma Lw : (Z.of_nat w <= 2 ^ p)%Z.
Proof. destruct S as [(? & ? & ? & ?) _]. eapply Z.le_trans; [exact Hw|]. apply Z.pow_le_mono_r; lia. Qed.
Lemma Lmax e : (e <= 2 * (hi + q + p - lo))%Z -> bpow e <= max.
Proof. intros H. destruct S as [_ M]. eapply Rle_trans; [apply bpow_le, H|exact M]. Qed.
Lemma Lsize e : INR w * bpow e <= bpow (q + e).
Proof.
  destruct S as [(? & ? & ? & ?) _]. rewrite bpow_plus. apply Rmult_le_compat_r; [pose proof (bpow_pos e); lra|]. rewrite INR_IZR_INZ, (bpow_IZR q) by lia. apply IZR_le, Hw.
Qed.
Lemma Lwmax : INR w * bpow c <= max.
Proof. eapply Rle_trans; [apply Lsize|]. apply Lmax. destruct S as [(? & ? & ? & ?) _]. lia. Qed.
Lemma power_format e : (emin <= e)%Z -> in_format p emin (bpow e).
Proof. intros H. rewrite <- (Rmult_1_l (bpow e)). apply integer_format; [exact Pp|exact H|]. assert (0 < 2 ^ p)%Z by (apply Z.pow_pos_nonneg; pose proof Pp; lia). lia. Qed.

Lemma sum_small l : (forall a, In a l -> mult j a /\ Rabs a <= bpow c) -> (length l <= w)%nat ->
  sum' (map Some l) = sum (map Some l) /\ exists s, sum (map Some l) = Some s /\ summed rs l s /\ mult j s /\ Rabs s <= INR (length l) * bpow c.
Proof.
  intros H L. split.
  - unfold sum'. rewrite (proj2 (within_all j c l) H), map_length, (proj2 (Nat.leb_le _ _) L). reflexivity.
  - exact (osummed_small p emin rnd Pp N max j c w Lj Lc Lw Lwmax l _ (proj1 Sk l) H L).
Qed.

Lemma dot_small l l' : length l = length l' -> (forall a, In a l -> mult k a /\ Rabs a <= bpow hi) -> (forall a, In a l' -> mult k a /\ Rabs a <= bpow hi) -> (length l <= w)%nat ->
  dot' (map Some l) (map Some l') = dot (map Some l) (map Some l') /\
  exists s, dot (map Some l) (map Some l') = Some s /\ dotted rs (combine l l') s /\ mult j s /\ Rabs s <= INR (length l) * bpow c.
Proof.
  intros E H H' L. split.
  - unfold dot'. rewrite (proj2 (within_all k hi l) H), (proj2 (within_all k hi l') H'), map_length, (proj2 (Nat.leb_le _ _) L). reflexivity.
  - destruct (odotted_small p emin rnd Pp N max j c w Lj Lc Lw Lwmax k hi eq_refl eq_refl (combine l l') _ (proj2 Sk l l' E)) as (s & Es & D & M & B).
    + intros x y I. split; [apply H; eapply in_combine_l, I|apply H'; eapply in_combine_r, I].
    + rewrite combine_length. lia.
    + exists s. rewrite combine_length, <- E, Nat.min_id in B. auto.
Qed.

Lemma sums_rounded' : sums_rounded rs sum' dot'.
Proof.
  split.
  - intros l. unfold sum'. destruct (forallb _ _ && _) eqn:E; [|apply rsums]. rewrite andb_true_iff, within_all, map_length, Nat.leb_le in E. destruct E as [H L].
    destruct (sum_small l H L) as [_ (s & E & Hs & _)]. exists s. auto.
  - intros l l' L. unfold dot'. destruct (forallb _ _ && _ && _) eqn:E; [|apply rsums; exact L]. rewrite !andb_true_iff, !within_all, map_length, Nat.leb_le in E. destruct E as [[H H'] Lw'].
    destruct (dot_small l l' L H H' Lw') as [_ (s & E & Hs & _)]. exists s. auto.
Qed.

Local Notation O := (overflowing rnd max facos fover sum dot).
Local Notation A := (rounded rs facos fover sum' dot').

Lemma moderate_within x : moderate p lo hi x -> forall a, In a x -> mult k a /\ Rabs a <= bpow hi.
Proof.
  unfold moderate. rewrite Forall_forall. intros H a Ha. destruct (H a Ha) as [D [-> | [L U]]].
  - split; [apply mult_0|]. rewrite Rabs_R0. pose proof (bpow_pos hi). lra.
  - split; [|exact U]. apply (digits_mult p); [exact D|]. replace (k + p)%Z with lo by lia. exact L.
Qed.

Lemma same_length x : moderate p lo hi x -> length x = w ->
  exists l, length_of O (map Some x) = Some l /\ length_of A (map Some x) = Some l /\ (l = 0 \/ bpow k <= l <= bpow (hi + q)).
Proof.
  intros H L. pose proof (moderate_within x H) as W. destruct S as [(S1 & S2 & S3 & S4) _]. unfold length_of. cbn [overflowing rounded mul root FloatDistance.sum]. rewrite !map_map.
  assert (G : forall v, In v x -> good p rnd (v * v) /\ mult j (rnd (v * v)) /\ Rabs (rnd (v * v)) <= bpow c /\ kept rnd max (v * v) = Some (rnd (v * v))).
  { intros v Hv. destruct (product_small j c k hi eq_refl eq_refl v v (W v Hv) (W v Hv)) as [M B]. destruct (good_mult p emin rnd Pp N j (v * v) Lj M) as [Gd M'].
    split; [exact Gd|]. split; [exact M'|]. split; [apply (rnd_bound p emin rnd Pp N _ _ (power_format c Lc) B)|]. apply (kept_small p emin rnd Pp N max _ _ (power_format c Lc)); [apply Lmax; lia|exact B]. }
  assert (E1 : map (fun v => kept2 rnd max Rmult (Some v) (Some v)) x = map Some (map (fun v => rnd (v * v)) x)).
  { rewrite map_map. apply map_ext_in. intros v Hv. cbn [kept2]. apply G, Hv. }
  assert (E2 : @map R (option R) (fun v => Metrics.lift2 (fun a b => rs (a * b)) (Some v) (Some v)) x = map Some (map (fun v => rnd (v * v)) x)).
  { rewrite map_map. apply map_ext_in. intros v Hv. cbn [Metrics.lift2]. rewrite (rnds_good p rnd); [reflexivity|apply G, Hv]. }
  rewrite E1, E2. set (sq := map (fun v => rnd (v * v)) x).
  assert (Hsq : forall a, In a sq -> mult j a /\ Rabs a <= bpow c) by (intros a Ha; apply in_map_iff in Ha; destruct Ha as (v & <- & Hv); destruct (G v Hv) as (_ & ? & ? & _); auto).
  assert (Lsq : length sq = w) by (unfold sq; rewrite map_length; exact L).
  destruct (sum_small sq Hsq ltac:(lia)) as [-> (s & -> & Ss & Ms & Bs)]. rewrite Lsq in Bs.
  assert (Psq : forall a, In a sq -> 0 <= a).
  { intros a Ha. apply in_map_iff in Ha. destruct Ha as (v & <- & Hv). rewrite <- (nearest_keeps _ _ N 0) at 1.
    - apply (nearest_mono _ _ N). apply Rle_0_sqr.
    - exists 0%Z, emin. split; [apply Z.pow_pos_nonneg; lia|]. split; [lia|lra]. }
  assert (Ps : 0 <= s).
  { destruct (summed_near rs (bpow (- p)) (rnds_precise p rnd Pp) sq s Ss Psq) as [B _]. eapply Rle_trans; [|exact B].
    apply Rmult_le_pos; [apply pow_le; destruct (rnds_precise p rnd Pp); lra|apply total_nonneg, Psq]. }
  rewrite (Rabs_pos_eq s Ps) in Bs. assert (Bs' : s <= bpow (q + c)) by (eapply Rle_trans; [exact Bs|apply Lsize]).
  assert (Rt : sqrt s <= bpow (hi + q)).
  { rewrite <- (sqrt_square (bpow (hi + q))) by (pose proof (bpow_pos (hi + q)); lra). apply sqrt_le_1_alt. eapply Rle_trans; [exact Bs'|]. rewrite <- bpow_plus. apply bpow_le. lia. }
  pose proof (sqrt_pos s) as R0. assert (F : in_format p emin (bpow (hi + q))) by (apply power_format; lia).
  assert (K : kept rnd max (sqrt s) = Some (rnd (sqrt s))) by (apply (kept_small p emin rnd Pp N max _ _ F); [apply Lmax; lia|rewrite Rabs_pos_eq; assumption]).
  assert (Gs : good p rnd (sqrt s) /\ (rnd (sqrt s) = 0 \/ bpow k <= rnd (sqrt s) <= bpow (hi + q))).
  { assert (U : rnd (sqrt s) <= bpow (hi + q)) by (eapply Rle_trans; [apply Rle_abs|]; apply (rnd_bound p emin rnd Pp N _ _ F); rewrite Rabs_pos_eq; assumption).
    destruct (Req_dec s 0) as [E|E].
    - rewrite E, sqrt_0. destruct (good_mult p emin rnd Pp N j 0 Lj (mult_0 j)) as [Gd _]. split; [exact Gd|left].
      apply (nearest_keeps _ _ N). exists 0%Z, emin. split; [apply Z.pow_pos_nonneg; lia|]. split; [lia|lra].
    - assert (B : bpow k <= sqrt s).
      { rewrite <- (sqrt_square (bpow k)) by (pose proof (bpow_pos k); lra). apply sqrt_le_1_alt. rewrite <- bpow_plus. rewrite <- (Rabs_pos_eq s Ps). apply mult_least; assumption. }
      split; [apply (good_big p emin rnd Pp N); rewrite Rabs_pos_eq by exact R0; eapply Rle_trans; [apply bpow_le|exact B]; lia|right; split; [|exact U]].
      rewrite <- (nearest_keeps _ _ N (bpow k)) by (apply power_format; lia). apply (nearest_mono _ _ N), B. }
  destruct Gs as [Gd B]. exists (rnd (sqrt s)). destruct (Rle_dec 0 s) as [_|]; [|contradiction]. split; [exact K|]. split; [rewrite (rnds_good p rnd _ Gd); reflexivity|exact B].
Qed.

Lemma same_angle x y : moderate p lo hi x -> moderate p lo hi y -> length x = w -> length y = w ->
  angle O (map Some x) (map Some y) = angle A (map Some x) (map Some y).
Proof.
  intros Hx Hy Lx Ly. destruct (same_length x Hx Lx) as (a & E1 & E2 & Ba). destruct (same_length y Hy Ly) as (b & E3 & E4 & Bb).
  destruct S as [(S1 & S2 & S3 & S4) _]. unfold angle. rewrite E1, E2, E3, E4. cbn [overflowing rounded mul div arccos over_pi zero one equal_0 FloatDistance.dot kept2 Metrics.lift2 Metrics.is_zero].
  destruct (Req_EM_T a 0) as [Za|Za], (Req_EM_T b 0) as [Zb|Zb]; cbn [andb]; try reflexivity.
  destruct Ba as [|[La Ua]]; [contradiction|]. destruct Bb as [|[Lb Ub]]; [contradiction|].
  destruct (dot_small x y ltac:(lia) (moderate_within x Hx) (moderate_within y Hy) ltac:(lia)) as [-> (s & -> & _ & Ms & Bs)]. rewrite Lx in Bs.
  assert (Bs' : Rabs s <= bpow (q + c)) by (eapply Rle_trans; [exact Bs|apply Lsize]).
  pose proof (bpow_pos k) as Pk. pose proof (bpow_pos (hi + q)) as Ph.
  assert (P1 : bpow j <= a * b) by (rewrite bpow_plus; apply Rmult_le_compat; lra).
  assert (P2 : a * b <= bpow (hi + q + (hi + q))) by (rewrite bpow_plus; apply Rmult_le_compat; lra).
  pose proof (bpow_pos j) as Pj. assert (Aab : Rabs (a * b) = a * b) by (apply Rabs_pos_eq; lra).
  assert (F : in_format p emin (bpow (hi + q + (hi + q)))) by (apply power_format; lia).
  rewrite (kept_small p emin rnd Pp N max _ _ F) by (try (apply Lmax; lia); rewrite Aab; exact P2).
  rewrite (rnds_good p rnd (a * b)) by (apply (good_big p emin rnd Pp N); rewrite Aab; eapply Rle_trans; [apply bpow_le|exact P1]; lia).
  set (d := rnd (a * b)). assert (D1 : bpow j <= d) by (unfold d; rewrite <- (nearest_keeps _ _ N (bpow j)) by (apply power_format; lia); apply (nearest_mono _ _ N), P1).
  assert (D2 : d <= bpow (hi + q + (hi + q))) by (unfold d; rewrite <- (nearest_keeps _ _ N _ F); apply (nearest_mono _ _ N), P2).
  destruct (Req_EM_T d 0) as [|_]; [lra|]. cbn [kept2 Metrics.lift2].
  assert (Q : Rabs (s / d) = Rabs s / d) by (unfold Rdiv; rewrite Rabs_mult, Rabs_inv, (Rabs_pos_eq d) by lra; reflexivity).
  assert (Fq : in_format p emin (bpow (q + c - j))) by (apply power_format; lia).
  assert (Uq : Rabs (s / d) <= bpow (q + c - j)).
  { rewrite Q. apply (Rmult_le_reg_r d); [lra|]. unfold Rdiv. rewrite Rmult_assoc, Rinv_l, Rmult_1_r by lra. eapply Rle_trans; [exact Bs'|].
    replace (q + c)%Z with (q + c - j + j)%Z by lia. rewrite bpow_plus. replace (q + c - j + j - j)%Z with (q + c - j)%Z by lia. apply Rmult_le_compat_l; [pose proof (bpow_pos (q + c - j)); lra|exact D1]. }
  rewrite (kept_small p emin rnd Pp N max _ _ Fq) by (try (apply Lmax; lia); exact Uq).
  rewrite (rnds_good p rnd (s / d)); [reflexivity|]. destruct (Req_dec s 0) as [-> | Ns].
  - unfold Rdiv. rewrite Rmult_0_l. apply (good_mult p emin rnd Pp N j 0 Lj (mult_0 j)).
  - apply (good_big p emin rnd Pp N). rewrite Q. apply (Rmult_le_reg_r d); [lra|]. unfold Rdiv. rewrite Rmult_assoc, Rinv_l, Rmult_1_r by lra.
    eapply Rle_trans; [|apply (mult_least j s Ms Ns)]. eapply Rle_trans; [apply Rmult_le_compat_l; [pose proof (bpow_pos (emin + p)); lra|exact D2]|]. rewrite <- bpow_plus. apply bpow_le. lia.
Qed.

Theorem same_distance rnd' t xs ys empty normalized : frames_of w xs -> frames_of w ys -> Forall (moderate p lo hi) xs -> Forall (moderate p lo hi) ys ->
  float_distance rnd max rnd' facos fover sum dot empty (farray t w xs) (farray t w ys) normalized =
  machine_distance rs rnd' facos fover sum' dot' empty (farray t w xs) (farray t w ys) normalized.
Proof.
  intros Fx Fy Mx My. unfold float_distance, machine_distance, default_distance.
  assert (E : cosine_distance O (farray t w xs) (farray t w ys) = cosine_distance A (farray t w xs) (farray t w ys)).
  { unfold cosine_distance. change (at_least_0 O) with Metrics.is_nonneg. change (at_least_0 A) with Metrics.is_nonneg.
    assert (M : map (fun r => map (angle O r) (f_rows (farray t w ys))) (f_rows (farray t w xs)) = map (fun r => map (angle A r) (f_rows (farray t w ys))) (f_rows (farray t w xs))).
    { cbn [farray f_rows]. apply map_ext_in. intros r Hr. apply in_map_iff in Hr. destruct Hr as (x & <- & Ix). apply map_ext_in. intros r Hr. apply in_map_iff in Hr. destruct Hr as (y & <- & Iy).
      unfold frames_of in *. rewrite Forall_forall in Fx, Fy, Mx, My. apply same_angle; auto. }
    rewrite M. reflexivity. }
  rewrite E. reflexivity.
Qed.
End Distance.
