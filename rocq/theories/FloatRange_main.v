(** The default distance, and evaluations with it, in a format of floats with overflow and underflow. *)
From Coq Require Import String.
From Coq Require Import Reals ZArith List Permutation Lia Lra.
From Verif Require Import Prelude Task Task_spec Task_reg_spec Distances Distances_spec Score_spec Analyze Analyze_spec Pipeline_spec Pipeline_same_spec
  Metrics_spec DefaultDistance_spec.
From Verif Require Metrics DefaultDistance Invariance_spec Pipeline_default Pipeline_same Pipeline_same_main.
From Verif Require Import FloatDistance FloatDistance_spec FloatDistance_proofs FloatDistance_error FloatFormat_spec FloatFormat_proofs FloatRange_spec FloatRange_proofs
  RoundEval_spec RoundEval_lines RoundEval_proofs.
Import ListNotations.
Local Open Scope R_scope.

Section Float.
Variables (p emin : Z) (rnd : R -> R) (max : R) (lo hi q p' : Z) (rnd' facos fover : R -> R).
Variable sum : list (option R) -> option R.
Variable dot : list (option R) -> list (option R) -> option R.
Variables (ua : R) (f : frame -> frame -> R) (t : Metrics.dtype) (w : nat).
Hypothesis N : nearest_in (in_format p emin) rnd.
Hypothesis S : suited p emin max lo hi q.
Hypothesis Sk : sums_kept rnd max sum dot.
Hypothesis Hp' : (0 < p')%Z.
Hypothesis N' : nearest_in (with_digits p') rnd'.
Hypothesis Ang : accurate facos fover ua.
Hypothesis Cf : cosine_between f.
Hypothesis Ht : is_float t.
Hypothesis Hw : (Z.of_nat w <= 2 ^ q)%Z.

Lemma Hp : (0 < p)%Z.
Proof. destruct S as [(H & _) _]. exact H. Qed.

Lemma float_error xs ys empty a : frames_of w xs -> frames_of w ys -> Forall (moderate p lo hi) xs -> Forall (moderate p lo hi) ys -> xs <> [] -> ys <> [] -> least f xs ys a ->
  exists v, float_distance rnd max rnd' facos fover sum dot empty (farray t w xs) (farray t w ys) false = Ok (Number (Some v)) /\
    (1 - powerRZ 2 (- p')) ^ (length xs + length ys - 2) * (along f xs ys a - INR (length xs + length ys - 1) * angle_error ua (powerRZ 2 (- p)) w) <= v
      <= (1 + powerRZ 2 (- p')) ^ (length xs + length ys - 2) * (along f xs ys a + INR (length xs + length ys - 1) * angle_error ua (powerRZ 2 (- p)) w).
Proof.
  intros Fx Fy Mx My Nx Ny L. rewrite (same_distance p emin rnd max lo hi q facos fover sum dot N S Sk w Hw rnd' t xs ys empty false Fx Fy Mx My).
  destruct (nearest_precise p' rnd' Hp' N') as [P' M'].
  exact (machine_error _ rnd' facos fover _ _ (powerRZ 2 (- p)) (powerRZ 2 (- p')) ua f t w xs ys empty a (rnds_precise p rnd Hp) P' M'
    (sums_rounded' p emin rnd max lo hi q facos fover sum dot N S Sk w Hw) Ang Cf Ht Fx Fy Nx Ny L).
Qed.

Lemma float_compare b xs ys zs empty empty' : frames_of w xs -> frames_of w ys -> frames_of w zs ->
  Forall (moderate p lo hi) xs -> Forall (moderate p lo hi) ys -> Forall (moderate p lo hi) zs -> xs <> [] -> ys <> [] -> zs <> [] ->
  surely_less (powerRZ 2 (- p')) (angle_error ua (powerRZ 2 (- p)) w) f b xs ys zs ->
  exists v v', float_distance rnd max rnd' facos fover sum dot empty (farray t w xs) (farray t w zs) b = Ok (Number (Some v)) /\
    float_distance rnd max rnd' facos fover sum dot empty' (farray t w ys) (farray t w zs) b = Ok (Number (Some v')) /\ v < v'.
Proof.
  intros Fx Fy Fz Mx My Mz Nx Ny Nz L. rewrite !(same_distance p emin rnd max lo hi q facos fover sum dot N S Sk w Hw rnd' t) by assumption.
  destruct (nearest_precise p' rnd' Hp' N') as [P' M'].
  exact (machine_surely _ rnd' facos fover _ _ (powerRZ 2 (- p)) (powerRZ 2 (- p')) ua f t w (rnds_precise p rnd Hp) P' M'
    (sums_rounded' p emin rnd max lo hi q facos fover sum dot N S Sk w Hw) Ang Cf Ht b xs ys zs empty empty' Fx Fy Fz Nx Ny Nz L).
Qed.

(** ** Whole evaluations *)
Variables (tm L : Type) (leq : forall x y : L, {x = y} + {x <> y}) (plain : L -> bool) (name : key -> string).
Hypothesis name_inj : forall k k', name k = name k' -> k = k'.

Theorem float_near tle empty empty' T cols db (places : list (Distances.item tm)) (indexes : list (string * list L)) files normalize (doubtful : key -> triplet -> bool) :
    evaluable plain T cols db places indexes files ->
    (forall i m, In i places -> matrix_of tle files i m -> frames_of w m /\ Forall (moderate p lo hi) m) ->
    (forall k a b x pa pb px ma mb mx n, is_wanted T db k (a, b, x) -> doubtful k (a, b, x) = false ->
       place T db places k a pa -> place T db places k b pb -> place T db places k x px ->
       matrix_of tle files pa ma -> matrix_of tle files pb mb -> matrix_of tle files px mx -> meant normalize = Some n ->
       settled (powerRZ 2 (- p')) (angle_error ua (powerRZ 2 (- p)) w) f n ma mb mx) ->
  forall lines lines',
    evaluated leq plain name tle Invariance_spec.below (exact_on t w empty) T cols db places indexes files normalize lines ->
    evaluated leq plain name tle machine_less (float_on rnd max rnd' facos fover sum dot t w empty') T cols db places indexes files normalize lines' ->
    (forall k, Forall2 (line_near T db indexes doubtful k) (of_by (name k) lines) (of_by (name k) lines')) /\
    exists m, Permutation lines m /\ Forall2 (fun ln ln' => exists k, line_near T db indexes doubtful k ln ln') m lines'.
Proof.
  intros E Hm Hs lines lines' R R'. destruct (nearest_precise p' rnd' Hp' N') as [P' M'].
  refine (@answers_near tm L frame frame _ _ leq plain name name_inj tle _ _ _ _ normalize normalize Pipeline_default.below_asym machine_less_asym T cols db places indexes files files
    doubtful E (ev_features E) _ lines lines' R R').
  intros k [[a b] x] s s' W D (pa & pb & px & ma & mb & mx & dax & dbx & Ha & Hb & Hx & Ma & Mb & Mx & Da & Db & V)
    (pa' & pb' & px' & ma' & mb' & mx' & dax' & dbx' & Ha' & Hb' & Hx' & Ma' & Mb' & Mx' & Da' & Db' & V').
  assert (pa' = pa) as -> by (destruct Ha as [_ Ha], Ha' as [_ Ha']; congruence). assert (pb' = pb) as -> by (destruct Hb as [_ Hb], Hb' as [_ Hb']; congruence).
  assert (px' = px) as -> by (destruct Hx as [_ Hx], Hx' as [_ Hx']; congruence).
  rewrite <- (Pipeline_same_main.matrix_fun (ev_features E) Ma Ma') in Da'. rewrite <- (Pipeline_same_main.matrix_fun (ev_features E) Mb Mb') in Db'.
  rewrite <- (Pipeline_same_main.matrix_fun (ev_features E) Mx Mx') in Da', Db'.
  destruct (meant normalize) as [n|] eqn:En; [|discriminate].
  destruct (Hm _ _ (Pipeline_same.place_in Ha) Ma) as [Fa Oa]. destruct (Hm _ _ (Pipeline_same.place_in Hb) Mb) as [Fb Ob]. destruct (Hm _ _ (Pipeline_same.place_in Hx) Mx) as [Fx Ox].
  unfold float_on in Da', Db'. rewrite (same_distance p emin rnd max lo hi q facos fover sum dot N S Sk w Hw rnd' t) in Da', Db' by assumption.
  exact (settled_same _ rnd' facos fover _ _ (powerRZ 2 (- p)) (powerRZ 2 (- p')) ua f t w (rnds_precise p rnd Hp) P' M'
    (sums_rounded' p emin rnd max lo hi q facos fover sum dot N S Sk w Hw) Ang Cf Ht n empty empty' ma mb mx dax dbx dax' dbx' s s'
    Fa Fb Fx (Hs k a b x pa pb px ma mb mx n W D Ha Hb Hx Ma Mb Mx eq_refl) Da Db V Da' Db' V').
Qed.
End Float.

Theorem no_overflow : forall p emin rnd max lo hi q facos fover sum dot,
  nearest_in (in_format p emin) rnd -> suited p emin max lo hi q -> sums_kept rnd max sum dot ->
  forall w, (Z.of_nat w <= 2 ^ q)%Z ->
  exists rnd1 sum1 dot1, precise rnd1 (powerRZ 2 (- p)) /\ sums_rounded rnd1 sum1 dot1 /\
    forall rnd' t xs ys empty normalized, frames_of w xs -> frames_of w ys -> Forall (moderate p lo hi) xs -> Forall (moderate p lo hi) ys ->
    float_distance rnd max rnd' facos fover sum dot empty (farray t w xs) (farray t w ys) normalized =
    machine_distance rnd1 rnd' facos fover sum1 dot1 empty (farray t w xs) (farray t w ys) normalized.
Proof.
  intros p emin rnd max lo hi q facos fover sum dot N S Sk w Hw. exists (rnds p rnd), (sum' p rnd lo hi sum w), (dot' p rnd lo hi dot w).
  split; [apply rnds_precise; destruct S as [(H & _) _]; exact H|]. split; [exact (sums_rounded' p emin rnd max lo hi q facos fover sum dot N S Sk w Hw)|].
  exact (same_distance p emin rnd max lo hi q facos fover sum dot N S Sk w Hw).
Qed.
