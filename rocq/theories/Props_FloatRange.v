(** Properties of the default distance in formats of floats with overflow and underflow, for features that are neither too
    large nor too small (C85, C87). *)
From Coq Require Import String.
From Coq Require Import Reals ZArith List Permutation Lia Lra.
From Verif Require Import Prelude Task Task_spec Task_ex Task_reg_ex Task_reg_spec Distances Distances_spec Score Score_spec Score_ex Analyze Analyze_spec Pipeline Pipeline_spec Pipeline_file Pipeline_ex Pipeline_same_spec
  Pipeline_same_ex Metrics_spec DefaultDistance_spec Metrics_cosine.
From Verif Require Metrics DefaultDistance Invariance_spec.
From Verif Require Import FloatDistance FloatDistance_spec FloatDistance_error FloatDistance_ex FloatFormat_spec FloatFormat_proofs FloatFormat_ex RoundEval_spec RoundEval_proofs RoundEval_ex
  FloatRange_spec FloatRange_proofs FloatRange_main FloatRange_ex FloatRange_eval_ex.
Import ListNotations.
Local Open Scope R_scope.

(** C85: the range of the features for double precision (frames of up to 2^50 values) and for single precision (frames of up
    to 1024 values). *)
Theorem C85_ranges : suited 53 (-1074) (powerRZ 2 1023) (-150) 250 50 /\ suited 24 (-149) (powerRZ 2 127) (-12) 16 10.
Proof. exact (conj suited_64 suited_32). Qed.
Example C85_ranges_ex : Forall (moderate 24 (-12) 16) two_frames.
Proof. exact (proj2 (frames_moderate 24 (-12) 16 ltac:(lia) ltac:(lia))). Qed.
Print Assumptions C85_ranges.

(** C85: in a format with [p] digits, underflow and overflow, the distance of items with features in the range is the same as
    in an arithmetic of which each operation has the relative error 2 to the power [- p]. *)
Theorem C85_no_overflow : forall p emin rnd max lo hi q facos fover sum dot,
  nearest_in (in_format p emin) rnd -> suited p emin max lo hi q -> sums_kept rnd max sum dot ->
  forall w, (Z.of_nat w <= 2 ^ q)%Z ->
  exists rnd1 sum1 dot1, precise rnd1 (powerRZ 2 (- p)) /\ sums_rounded rnd1 sum1 dot1 /\
    forall rnd' t xs ys empty normalized, frames_of w xs -> frames_of w ys -> Forall (moderate p lo hi) xs -> Forall (moderate p lo hi) ys ->
    float_distance rnd max rnd' facos fover sum dot empty (farray t w xs) (farray t w ys) normalized =
    machine_distance rnd1 rnd' facos fover sum1 dot1 empty (farray t w xs) (farray t w ys) normalized.
Proof. exact no_overflow. Qed.
Example C85_no_overflow_ex : exists rnd1 sum1 dot1, precise rnd1 (powerRZ 2 (- (53))) /\ sums_rounded rnd1 sum1 dot1 /\
  float64_distance ex_memory (farray Metrics.Float64 2 one_frame) (farray Metrics.Float64 2 two_frames) true =
  machine_distance rnd1 (digits_rnd 53) acos (fun a => a / PI) sum1 dot1 ex_memory (farray Metrics.Float64 2 one_frame) (farray Metrics.Float64 2 two_frames) true.
Proof. exact no_overflow_example. Qed.
Print Assumptions C85_no_overflow.

(** C85: so the distance without normalisation is that of real numbers up to the errors of [p] digits. *)
Theorem C85_float_error : forall p emin rnd max lo hi q p' rnd' facos fover sum dot ua f t w,
  nearest_in (in_format p emin) rnd -> suited p emin max lo hi q -> sums_kept rnd max sum dot -> (0 < p')%Z -> nearest_in (with_digits p') rnd' ->
  accurate facos fover ua -> cosine_between f -> is_float t -> (Z.of_nat w <= 2 ^ q)%Z ->
  forall xs ys empty a, frames_of w xs -> frames_of w ys -> Forall (moderate p lo hi) xs -> Forall (moderate p lo hi) ys -> xs <> [] -> ys <> [] -> least f xs ys a ->
  exists v, float_distance rnd max rnd' facos fover sum dot empty (farray t w xs) (farray t w ys) false = Ok (Number (Some v)) /\
    (1 - powerRZ 2 (- p')) ^ (length xs + length ys - 2) * (along f xs ys a - INR (length xs + length ys - 1) * angle_error ua (powerRZ 2 (- p)) w) <= v
      <= (1 + powerRZ 2 (- p')) ^ (length xs + length ys - 2) * (along f xs ys a + INR (length xs + length ys - 1) * angle_error ua (powerRZ 2 (- p)) w).
Proof. exact float_error. Qed.
Example C85_float_error_ex : exists f p v, cosine_between f /\ least f one_frame two_frames p /\
  float32_distance ex_memory (farray Metrics.Float32 2 one_frame) (farray Metrics.Float32 2 two_frames) false = Ok (Number (Some v)) /\
  (1 - powerRZ 2 (-53)) ^ 1 * (along f one_frame two_frames p - 2 * angle_error 0 (powerRZ 2 (-24)) 2) <= v
    <= (1 + powerRZ 2 (-53)) ^ 1 * (along f one_frame two_frames p + 2 * angle_error 0 (powerRZ 2 (-24)) 2).
Proof. exact float_error_example. Qed.
Print Assumptions C85_float_error.

(** C85: and two distances compare as with real numbers when the sums along all the alignments that are nearly the least are
    far enough, with and without normalisation. *)
Theorem C85_float_compare : forall p emin rnd max lo hi q p' rnd' facos fover sum dot ua f t w,
  nearest_in (in_format p emin) rnd -> suited p emin max lo hi q -> sums_kept rnd max sum dot -> (0 < p')%Z -> nearest_in (with_digits p') rnd' ->
  accurate facos fover ua -> cosine_between f -> is_float t -> (Z.of_nat w <= 2 ^ q)%Z ->
  forall b xs ys zs empty empty', frames_of w xs -> frames_of w ys -> frames_of w zs ->
  Forall (moderate p lo hi) xs -> Forall (moderate p lo hi) ys -> Forall (moderate p lo hi) zs -> xs <> [] -> ys <> [] -> zs <> [] ->
  surely_less (powerRZ 2 (- p')) (angle_error ua (powerRZ 2 (- p)) w) f b xs ys zs ->
  exists v v', float_distance rnd max rnd' facos fover sum dot empty (farray t w xs) (farray t w zs) b = Ok (Number (Some v)) /\
    float_distance rnd max rnd' facos fover sum dot empty' (farray t w ys) (farray t w zs) b = Ok (Number (Some v')) /\ v < v'.
Proof. exact float_compare. Qed.
Example C85_float_compare_ex : surely_less (powerRZ 2 (-53)) (angle_error 0 (powerRZ 2 (-53)) 2) cosine_value true [[1; 0]] [[0; 1]] [[1; 0]] /\ exists v v',
  float64_distance ex_memory (farray Metrics.Float64 2 [[1; 0]]) (farray Metrics.Float64 2 [[1; 0]]) true = Ok (Number (Some v)) /\
  float64_distance ex_memory (farray Metrics.Float64 2 [[0; 1]]) (farray Metrics.Float64 2 [[1; 0]]) true = Ok (Number (Some v')) /\ v < v'.
Proof. exact (conj surely_float float_compare_example). Qed.
Print Assumptions C85_float_compare.

(** C87: the results of an evaluation of features in the range, in a format with underflow and overflow: the lines of the
    evaluation with real numbers, with scores that differ by the proportion of the triplets whose distances are close at most. *)
Theorem C87_float_formats : forall p emin rnd max lo hi q p' rnd' facos fover sum dot ua f t w,
  nearest_in (in_format p emin) rnd -> suited p emin max lo hi q -> sums_kept rnd max sum dot -> (0 < p')%Z -> nearest_in (with_digits p') rnd' ->
  accurate facos fover ua -> cosine_between f -> is_float t -> (Z.of_nat w <= 2 ^ q)%Z ->
  forall (tm L : Type) (leq : forall x y : L, {x = y} + {x <> y}) (plain : L -> bool) (name : key -> string), (forall k k', name k = name k' -> k = k') ->
  forall tle empty empty' T cols db (places : list (Distances.item tm)) (indexes : list (string * list L)) files normalize (doubtful : key -> triplet -> bool),
    evaluable plain T cols db places indexes files ->
    (forall i m, In i places -> matrix_of tle files i m -> frames_of w m /\ Forall (moderate p lo hi) m) ->
    (forall k a b x pa pb px ma mb mx n, is_wanted T db k (a, b, x) -> doubtful k (a, b, x) = false ->
       place T db places k a pa -> place T db places k b pb -> place T db places k x px ->
       matrix_of tle files pa ma -> matrix_of tle files pb mb -> matrix_of tle files px mx -> meant normalize = Some n ->
       settled (powerRZ 2 (- p')) (angle_error ua (powerRZ 2 (- p)) w) f n ma mb mx) ->
  forall lines lines',
    evaluated leq plain name tle Invariance_spec.below (exact_on t w empty) T cols db places indexes files normalize lines ->
    evaluated leq plain name tle machine_less (float_on rnd max rnd' facos fover sum dot t w empty') T cols db places indexes files normalize lines' ->
    (forall k, Forall2 (line_near T db indexes doubtful k) (of_by (name k) lines) (of_by (name k) lines')) /\
    exists m, Permutation lines m /\ Forall2 (fun ln ln' => exists k, line_near T db indexes doubtful k ln ln') m lines'.
Proof. exact float_near. Qed.
Example C87_float_formats_ex : map (r_doubtful 0 [7%Z]) (firstn 9 (x_triplets r_file)) = [false; false; false; false; false; false; false; false; false] /\
  Forall2 (line_near ex_task_reg ex_db pl_indexes (r_doubtful 0) [7%Z]) (of_by (pl_name [7%Z]) (r_lines 0)) (of_by (pl_name [7%Z]) f_lines).
Proof. exact (conj float_doubtful_lines (float_near_example [7%Z])). Qed.
Print Assumptions C87_float_formats.
