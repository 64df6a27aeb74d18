(** Properties of the default distance in the arithmetic of the machine (C84, C85). *)
From Coq Require Import Reals List Arith ZArith Lia Lra.
From Coq Require Import Floats.SpecFloat.
From Verif Require Import Prelude Metrics_spec Dtw DefaultDistance_spec.
From Verif Require Metrics DefaultDistance.
From Verif Require Import FloatDistance FloatDistance_spec FloatDistance_proofs FloatDistance_error FloatDistance_exact FloatDistance_jump FloatDistance_ex Binary64.
Import ListNotations.
Local Open Scope R_scope.

(** C84: with the roundings of a format of floats, whatever the order of the additions, the distance of items with frames is a
    number, at least 0, at most 1 with normalisation and at most the number of frames less 1 without. *)
Theorem C84_range : forall rnd rnd' facos fover sum dot tiny, format rnd tiny -> sums_rounded rnd sum dot -> (forall v, 0 <= fover (facos v) <= 1) ->
  forall t w xs ys empty normalized, is_float t -> frames_of w xs -> frames_of w ys -> xs <> [] -> ys <> [] ->
  (forall a b, a <= b -> rnd' a <= rnd' b) -> (forall n, (n <= length xs + length ys)%nat -> rnd' (INR n) = INR n) ->
  exists v, machine_distance rnd rnd' facos fover sum dot empty (farray t w xs) (farray t w ys) normalized = Ok (Number (Some v)) /\
    0 <= v <= (if normalized then 1 else INR (length xs + length ys - 1)).
Proof. exact machine_range. Qed.
Example C84_range_ex : format rnd8 (1 / 8) /\ sums_rounded rnd8 (rsum rnd8) (rdot rnd8) /\
  exists v, machine_distance rnd8 rnd8 acos (fun a => a / PI) (rsum rnd8) (rdot rnd8) ex_memory
    (farray Metrics.Float64 2 one_frame) (farray Metrics.Float64 2 two_frames) true = Ok (Number (Some v)) /\ 0 <= v <= 1.
Proof. exact (conj format8 (conj (rsums rnd8) range_example)). Qed.
Print Assumptions C84_range.

(** C84: in any arithmetic, 0 between items without frames and infinity when one of them only has frames. *)
Theorem C84_empty : forall F (A : arithmetic F) add leb divn empty x y normalized,
  (f_rows x = [] -> f_rows y = [] -> default_distance A add leb divn empty x y normalized = Ok (Number (zero A))) /\
  (f_rows x = [] -> f_rows y <> [] -> default_distance A add leb divn empty x y normalized = Ok (Infinity F)) /\
  (f_rows x <> [] -> f_rows y = [] -> default_distance A add leb divn empty x y normalized = Ok (Infinity F)).
Proof. exact float_empty. Qed.
Example C84_empty_ex : default_distance (binary64 (fun v => v) (fun v => v)) fadd SFleb (fun v _ => v) (fun _ _ => fz 7) (item []) (item [[fz 1]]) true = Ok (Infinity fl) /\
  default_distance (binary64 (fun v => v) (fun v => v)) fadd SFleb (fun v _ => v) (fun _ _ => fz 7) (item []) (item []) true = Ok (Number (fz 0)).
Proof. split; vm_compute; reflexivity. Qed.
Print Assumptions C84_empty.

(** C84: between items with frames it fails for other types than the same type of floats. *)
Theorem C84_types : forall F (A : arithmetic F) add leb divn empty x y normalized, f_rows x <> [] -> f_rows y <> [] ->
  ~ (is_float (f_type x) /\ f_type x = f_type y) -> default_distance A add leb divn empty x y normalized = Err AssertionError.
Proof. exact float_types. Qed.
Example C84_types_ex : default_distance (binary64 (fun v => v) (fun v => v)) fadd SFleb (fun v _ => v) (fun _ _ => fz 7)
  (mk_frames Metrics.Float32 1 [[fz 1]]) (mk_frames Metrics.Float64 1 [[fz 1]]) true = Err AssertionError.
Proof. vm_compute. reflexivity. Qed.
Print Assumptions C84_types.

(** C84: and for different numbers of values in the frames. *)
Theorem C84_widths : forall F (A : arithmetic F) add leb divn empty x y normalized, f_rows x <> [] -> f_rows y <> [] ->
  is_float (f_type x) -> f_type x = f_type y -> f_cols x <> f_cols y -> default_distance A add leb divn empty x y normalized = Err ValueError.
Proof. exact float_widths. Qed.
Example C84_widths_ex : default_distance (binary64 (fun v => v) (fun v => v)) fadd SFleb (fun v _ => v) (fun _ _ => fz 7)
  (item [[fz 1; fz 2]]) (item [[fz 1]]) true = Err ValueError.
Proof. vm_compute. reflexivity. Qed.
Print Assumptions C84_widths.

(** C84: and when an angle of two frames is negative or not a number; otherwise there is a distance. *)
Theorem C84_angles : forall F (A : arithmetic F) add leb divn empty x y normalized, f_rows x <> [] -> f_rows y <> [] ->
  is_float (f_type x) -> f_type x = f_type y -> f_cols x = f_cols y ->
  ((exists r s, In r (f_rows x) /\ In s (f_rows y) /\ at_least_0 A (angle A r s) = false) ->
     default_distance A add leb divn empty x y normalized = Err AssertionError) /\
  ((forall r s, In r (f_rows x) -> In s (f_rows y) -> at_least_0 A (angle A r s) = true) ->
     exists v, default_distance A add leb divn empty x y normalized = Ok (Number v)).
Proof. exact float_angles. Qed.
Example C84_angles_ex : default_distance (binary64 (fun v => v) (fun v => v)) fadd SFleb (fun v _ => v) (fun _ _ => fz 7)
    (item [[fz 1]]) (item [[S754_nan]]) true = Err AssertionError /\
  default_distance (binary64 (fun v => v) (fun v => v)) fadd SFleb (fun v _ => v) (fun _ _ => fz 7) (item [[fz 3; fz 4]]) (item [[fz 3; fz 4]]) true = Ok (Number (fz 1)).
Proof. split; vm_compute; reflexivity. Qed.
Print Assumptions C84_angles.

(** C84: without rounding it is the distance with real numbers of which C58 speaks. *)
Theorem C84_exact : forall empty t w xs t' w' ys normalized,
  machine_distance (fun a => a) (fun a => a) acos (fun a => a / PI) Metrics.nsum Metrics.dot empty (mk_frames t w xs) (mk_frames t' w' ys) normalized
  = match DefaultDistance.default_distance empty (Metrics.mk_mat t w xs) (Metrics.mk_mat t' w' ys) normalized with
    | Ok (DefaultDistance.Value v) => Ok (Number v)
    | Ok DefaultDistance.Infinite => Ok (Infinity _)
    | Err e => Err e
    end.
Proof. exact exact_distance. Qed.
Example C84_exact_ex : sums_rounded (fun a => a) Metrics.nsum Metrics.dot /\
  machine_distance (fun a => a) (fun a => a) acos (fun a => a / PI) Metrics.nsum Metrics.dot ex_memory (farray Metrics.Float64 2 ex_xs) (farray Metrics.Float64 2 ex_ys) true
    = Ok (Number (Some (if Req_EM_T 0 0 then 1 / 2 / 3 else (1 / 2 - 2 * 0) / 4))).
Proof.
  exact (conj exact_sums (machine_jump acos 0 ex_memory acos_at_1 acos_at_0 ltac:(rewrite acos_root2; field) ltac:(lra))).
Qed.
Print Assumptions C84_exact.

(** C84: with the numbers float64 the distance of an item with itself need not be 0, as C58 has it with real numbers: for a
    frame with the values 1 and 1 it is the angle of a cosine below 1. *)
Theorem C84_self_refuted : exists x r, SFltb r (fz 1) = true /\ forall arccos over_pi add leb divn empty, SFltb (fz 0) (over_pi (arccos r)) = true ->
  exists v, default_distance (binary64 arccos over_pi) add leb divn empty x x false = Ok (Number v) /\ SFltb (fz 0) v = true.
Proof. exact self_refuted. Qed.
Print Assumptions C84_self_refuted.

(** C84: nor is an item at least as near to itself as to an item with another direction. *)
Theorem C84_nearest_refuted : exists x y r, SFltb r (fz 1) = true /\
  (f_rows x = [[fz 1; fz 1]] /\ f_rows y = [[fz 59999997; fz 59999998]]) /\
  forall arccos over_pi add leb divn empty, fge0 (over_pi (arccos (fz 1))) = true -> SFltb (over_pi (arccos (fz 1))) (over_pi (arccos r)) = true -> fge0 (over_pi (arccos r)) = true ->
  exists v v', default_distance (binary64 arccos over_pi) add leb divn empty x x false = Ok (Number v) /\
    default_distance (binary64 arccos over_pi) add leb divn empty y x false = Ok (Number v') /\ SFltb v' v = true.
Proof. exact order_refuted. Qed.
Print Assumptions C84_nearest_refuted.

(** C84: the scale of the features matters, against C82: for values of which the squares are too large for float64, frames
    with the same direction have the distance of orthogonal frames, or the distance of an item with itself fails. *)
Theorem C84_overflow_refuted : exists x y, f_rows x = [[fz (10 ^ 200)]] /\ f_rows y = [[fz 1]] /\
  forall arccos over_pi add leb divn empty, fge0 (over_pi (arccos (fz 0))) = true -> fge0 (over_pi (arccos (fz 1))) = true -> fge0 (over_pi (arccos S754_nan)) = false ->
  default_distance (binary64 arccos over_pi) add leb divn empty y y false = Ok (Number (over_pi (arccos (fz 1)))) /\
  default_distance (binary64 arccos over_pi) add leb divn empty x y false = Ok (Number (over_pi (arccos (fz 0)))) /\
  default_distance (binary64 arccos over_pi) add leb divn empty x x false = Err AssertionError.
Proof. exact overflow_refuted. Qed.
Print Assumptions C84_overflow_refuted.

(** C84: and when the squares are too small, a frame that is not zero is at distance 1 of all the others. *)
Theorem C84_underflow_refuted : exists x y, f_rows x = [[fdiv (fz 1) (fz (10 ^ 200))]] /\ f_rows y = [[fz 1]] /\ feq0 (fdiv (fz 1) (fz (10 ^ 200))) = false /\
  forall arccos over_pi add leb divn empty, default_distance (binary64 arccos over_pi) add leb divn empty x y false = Ok (Number (fz 1)).
Proof. exact underflow_refuted. Qed.
Print Assumptions C84_underflow_refuted.

(** C85: with operations of relative errors [u] (frames) and [u'] (costs) and angles with the error [ua], the distance without
    normalisation is that of real numbers up to the errors of the angles along an alignment and of its additions. *)
Theorem C85_error : forall rnd rnd' facos fover sum dot u u' ua f t w xs ys empty p,
  precise rnd u -> precise rnd' u' -> (forall a b, a <= b -> rnd' a <= rnd' b) -> sums_rounded rnd sum dot -> accurate facos fover ua ->
  cosine_between f -> is_float t -> frames_of w xs -> frames_of w ys -> xs <> [] -> ys <> [] -> least f xs ys p ->
  exists v, machine_distance rnd rnd' facos fover sum dot empty (farray t w xs) (farray t w ys) false = Ok (Number (Some v)) /\
    (1 - u') ^ (length xs + length ys - 2) * (along f xs ys p - INR (length xs + length ys - 1) * angle_error ua u w) <= v
      <= (1 + u') ^ (length xs + length ys - 2) * (along f xs ys p + INR (length xs + length ys - 1) * angle_error ua u w).
Proof. exact machine_error. Qed.
Example C85_error_ex : exists f p v, cosine_between f /\ least f one_frame two_frames p /\
  machine_distance (rnd_up (1 / 1024)) (rnd_up (1 / 8)) acos (fun a => a / PI) (rsum (rnd_up (1 / 1024))) (rdot (rnd_up (1 / 1024))) ex_memory
    (farray Metrics.Float32 2 one_frame) (farray Metrics.Float32 2 two_frames) false = Ok (Number (Some v)) /\
  (1 - 1 / 8) ^ 1 * (along f one_frame two_frames p - 2 * angle_error 0 (1 / 1024) 2) <= v <= (1 + 1 / 8) ^ 1 * (along f one_frame two_frames p + 2 * angle_error 0 (1 / 1024) 2).
Proof. exact error_example. Qed.
Print Assumptions C85_error.

(** C85: for the precision of float64 and frames of 13 values, the error of the cosine is at most 2 to the power -48. *)
Theorem C85_float64 : cosine_error (/ 2 ^ 53) 13 <= / 2 ^ 48.
Proof. exact float64_cosine_error. Qed.
Example C85_float64_ex : 0 <= angle_error 0 (1 / 1024) 2 <= 1 / 8.
Proof. exact small_error. Qed.
Print Assumptions C85_float64.

(** C85: with normalisation, up to the length of the alignment. *)
Theorem C85_normalised : forall rnd rnd' facos fover sum dot u u' ua f t w xs ys empty p,
  precise rnd u -> precise rnd' u' -> (forall a b, a <= b -> rnd' a <= rnd' b) -> sums_rounded rnd sum dot -> accurate facos fover ua ->
  cosine_between f -> is_float t -> frames_of w xs -> frames_of w ys -> xs <> [] -> ys <> [] -> least f xs ys p ->
  exists v, machine_distance rnd rnd' facos fover sum dot empty (farray t w xs) (farray t w ys) true = Ok (Number (Some v)) /\ 0 <= v /\
    (1 - u') ^ (length xs + length ys - 1) * (along f xs ys p - INR (length xs + length ys - 1) * angle_error ua u w) / INR (length xs + length ys - 1) <= v
      <= (1 + u') ^ (length xs + length ys - 1) * (along f xs ys p + INR (length xs + length ys - 1) * angle_error ua u w) / INR (Nat.max (length xs) (length ys)).
Proof. exact machine_error_normalised. Qed.
Example C85_normalised_ex : exists f p v, cosine_between f /\ least f one_frame two_frames p /\
  machine_distance (rnd_up (1 / 1024)) (rnd_up (1 / 8)) acos (fun a => a / PI) (rsum (rnd_up (1 / 1024))) (rdot (rnd_up (1 / 1024))) ex_memory
    (farray Metrics.Float32 2 one_frame) (farray Metrics.Float32 2 two_frames) true = Ok (Number (Some v)) /\
  0 <= v <= (1 + 1 / 8) ^ 2 * (along f one_frame two_frames p + 2 * angle_error 0 (1 / 1024) 2) / 2.
Proof. exact normalised_example. Qed.
Print Assumptions C85_normalised.

(** C85: items of which the distances with real numbers are far enough are compared as with real numbers. *)
Theorem C85_compare : forall rnd rnd' facos fover sum dot u u' ua f t w xs ys zs empty empty' p q,
  precise rnd u -> precise rnd' u' -> (forall a b, a <= b -> rnd' a <= rnd' b) -> sums_rounded rnd sum dot -> accurate facos fover ua ->
  cosine_between f -> is_float t -> frames_of w xs -> frames_of w ys -> frames_of w zs -> xs <> [] -> ys <> [] -> zs <> [] ->
  least f xs zs p -> least f ys zs q ->
  (1 + u') ^ (length xs + length zs - 2) * (along f xs zs p + INR (length xs + length zs - 1) * angle_error ua u w)
    < (1 - u') ^ (length ys + length zs - 2) * (along f ys zs q - INR (length ys + length zs - 1) * angle_error ua u w) ->
  exists v v', machine_distance rnd rnd' facos fover sum dot empty (farray t w xs) (farray t w zs) false = Ok (Number (Some v)) /\
    machine_distance rnd rnd' facos fover sum dot empty' (farray t w ys) (farray t w zs) false = Ok (Number (Some v')) /\ v < v'.
Proof. exact machine_compare. Qed.
Example C85_compare_ex : exists v v',
  machine_distance (rnd_up (1 / 1024)) (rnd_up (1 / 8)) acos (fun a => a / PI) (rsum (rnd_up (1 / 1024))) (rdot (rnd_up (1 / 1024))) ex_memory
    (farray Metrics.Float32 2 [[1; 0]]) (farray Metrics.Float32 2 [[1; 0]]) false = Ok (Number (Some v)) /\
  machine_distance (rnd_up (1 / 1024)) (rnd_up (1 / 8)) acos (fun a => a / PI) (rsum (rnd_up (1 / 1024))) (rdot (rnd_up (1 / 1024))) ex_memory
    (farray Metrics.Float32 2 [[0; 1]]) (farray Metrics.Float32 2 [[1; 0]]) false = Ok (Number (Some v')) /\ v < v'.
Proof. exact compare_example. Qed.
Print Assumptions C85_compare.

(** C85: with normalisation no accuracy is enough: for any error of the angles, there are items of which the distance
    is less than with real numbers by 1/24 at least, the other operations being exact. *)
Theorem C85_normalised_refuted : forall ua, 0 < ua -> exists facos fover sum dot xs ys v v', accurate facos fover ua /\ sums_rounded (fun a => a) sum dot /\
  frames_of 2 xs /\ frames_of 2 ys /\
  (forall empty, machine_distance (fun a => a) (fun a => a) facos fover sum dot empty (farray Metrics.Float64 2 xs) (farray Metrics.Float64 2 ys) true = Ok (Number (Some v))) /\
  (forall empty, DefaultDistance.default_distance empty (array Metrics.Float64 2 xs) (array Metrics.Float64 2 ys) true = Ok (DefaultDistance.Value (Some v'))) /\
  v + 1 / 24 <= v'.
Proof. exact normalised_refuted. Qed.
Print Assumptions C85_normalised_refuted.
