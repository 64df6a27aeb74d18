(** Properties of the roundings to nearest in the formats of floats (C84, C85). *)
From Coq Require Import Reals ZArith List Lia Lra.
From Verif Require Import Prelude Metrics_spec Dtw DefaultDistance_spec.
From Verif Require Metrics DefaultDistance.
From Verif Require Import FloatDistance FloatDistance_spec FloatDistance_proofs FloatDistance_error FloatDistance_ex FloatFormat_spec FloatFormat_proofs FloatFormat_ex.
Import ListNotations.
Local Open Scope R_scope.

(** C84: what is assumed of a rounding holds for every rounding to nearest in a format, with subnormal numbers. *)
Theorem C84_formats : forall p emin rnd, (2 <= p)%Z -> (emin <= -2)%Z -> nearest_in (in_format p emin) rnd -> format rnd (powerRZ 2 emin).
Proof. exact nearest_format. Qed.
Example C84_formats_ex : format (float_rnd 53 (-1074)) (powerRZ 2 (-1074)) /\ format (float_rnd 24 (-149)) (powerRZ 2 (-149)).
Proof. split; (apply nearest_format with (p := 53%Z) + apply nearest_format with (p := 24%Z)); try lia; apply float_rnd_nearest; lia. Qed.
Print Assumptions C84_formats.

(** C84: such a rounding keeps the integers up to 2 to the power of the number of digits. *)
Theorem C84_integers : forall p emin rnd n, (0 < p)%Z -> (emin <= 0)%Z -> nearest_in (in_format p emin) rnd -> (Z.of_nat n <= 2 ^ p)%Z -> rnd (INR n) = INR n.
Proof. exact nearest_integers. Qed.
Example C84_integers_ex : float_rnd 24 (-149) (INR 1000) = INR 1000.
Proof. apply (nearest_integers 24 (-149)); [lia|lia|apply float_rnd_nearest; lia|vm_compute; discriminate]. Qed.
Print Assumptions C84_integers.

(** C84: the error of such a rounding. *)
Theorem C84_rounding_error : forall p emin rnd a, (0 < p)%Z -> nearest_in (in_format p emin) rnd ->
  Rabs (rnd a - a) <= Rmax (powerRZ 2 emin / 2) (powerRZ 2 (- p) * Rabs a).
Proof. exact nearest_error. Qed.
Example C84_rounding_error_ex : Rabs (float_rnd 53 (-1074) (1 / 10) - 1 / 10) <= Rmax (powerRZ 2 (-1074) / 2) (powerRZ 2 (-53) * Rabs (1 / 10)).
Proof. apply (nearest_error 53 (-1074)); [lia|apply float_rnd_nearest; lia]. Qed.
Print Assumptions C84_rounding_error.

(** C84: so the distance is in its range in every format of floats, for fewer frames than the integers of the format. *)
Theorem C84_float_range : forall p emin p' emin' rnd rnd' facos fover sum dot,
  (2 <= p)%Z -> (emin <= -2)%Z -> nearest_in (in_format p emin) rnd -> (0 < p')%Z -> (emin' <= 0)%Z -> nearest_in (in_format p' emin') rnd' ->
  sums_rounded rnd sum dot -> (forall v, 0 <= fover (facos v) <= 1) ->
  forall t w xs ys empty normalized, is_float t -> frames_of w xs -> frames_of w ys -> xs <> [] -> ys <> [] -> (Z.of_nat (length xs + length ys) <= 2 ^ p')%Z ->
  exists v, machine_distance rnd rnd' facos fover sum dot empty (farray t w xs) (farray t w ys) normalized = Ok (Number (Some v)) /\
    0 <= v <= (if normalized then 1 else INR (length xs + length ys - 1)).
Proof. exact float_range. Qed.
Example C84_float_range_ex : exists v,
  machine_distance (float_rnd 24 (-149)) (float_rnd 53 (-1074)) acos (fun a => a / PI) (rsum (float_rnd 24 (-149))) (rdot (float_rnd 24 (-149))) ex_memory
    (farray Metrics.Float32 2 one_frame) (farray Metrics.Float32 2 two_frames) true = Ok (Number (Some v)) /\ 0 <= v <= 1.
Proof. exact float_range_example. Qed.
Print Assumptions C84_float_range.

(** C85: a rounding to nearest of numbers with [p] digits, the exponents being free, has a relative error of 2 to the power
    [- p] and respects the order. *)
Theorem C85_formats : forall p rnd, (0 < p)%Z -> nearest_in (with_digits p) rnd -> precise rnd (powerRZ 2 (- p)) /\ forall a b, a <= b -> rnd a <= rnd b.
Proof. exact nearest_precise. Qed.
Example C85_formats_ex : precise (digits_rnd 53) (powerRZ 2 (-53)).
Proof. apply (nearest_precise 53); [lia|apply digits_rnd_nearest; lia]. Qed.
Print Assumptions C85_formats.
