(** Sums, items and formats for the examples about features that are neither too large nor too small. *)
From Coq Require Import Reals ZArith List Permutation Lia Lra.
From Verif Require Import Prelude Metrics_spec Dtw DefaultDistance_spec DefaultDistance_proofs Metrics_cosine.
From Verif Require Metrics DefaultDistance.
From Verif Require Import FloatDistance FloatDistance_spec FloatDistance_proofs FloatDistance_error FloatDistance_exact FloatDistance_ex FloatFormat_spec FloatFormat_proofs FloatFormat_ex
  FloatRange_spec FloatRange_proofs RoundEval_spec FloatRange_main.
Import ListNotations.
Local Open Scope R_scope.
Local Notation bpow := (powerRZ 2).

(** Sums from the right. *)
Fixpoint osum (rnd : R -> R) (max : R) (l : list (option R)) : option R :=
  match l with [] => Some 0 | [a] => a | a :: l => kept2 rnd max Rplus a (osum rnd max l) end.
Definition odot (rnd : R -> R) (max : R) (l l' : list (option R)) : option R :=
  osum rnd max (map (fun p => kept2 rnd max Rmult (fst p) (snd p)) (combine l l')).

Lemma osum_osummed rnd max l : osummed rnd max l (osum rnd max (map Some l)).
Proof.
  induction l as [|a l IH]; [constructor|]. destruct l as [|b l]; [constructor|].
  apply (osummed_plus rnd max _ [a] (b :: l)); [apply Permutation_refl|discriminate|discriminate|constructor|exact IH].
Qed.

Lemma odot_odotted rnd max l : forall l', length l = length l' -> odotted rnd max (combine l l') (odot rnd max (map Some l) (map Some l')).
Proof.
  unfold odot. induction l as [|a l IH]; intros [|b l'] E; try discriminate; [constructor|]. injection E as E. specialize (IH l' E).
  destruct l as [|a' l], l' as [|b' l']; try discriminate; [constructor|].
  apply (odotted_plus rnd max _ [(a, b)] (combine (a' :: l) (b' :: l'))); [apply Permutation_refl|discriminate|discriminate|constructor|exact IH].
Qed.

Lemma osums rnd max : sums_kept rnd max (osum rnd max) (odot rnd max).
Proof. split; [apply osum_osummed|intros; apply odot_odotted; assumption]. Qed.

(** Double precision and single precision. *)
Lemma suited_64 : suited 53 (-1074) (bpow 1023) (-150) 250 50.
Proof. split; [lia|]. apply bpow_le. lia. Qed.
Lemma suited_32 : suited 24 (-149) (bpow 127) (-12) 16 10.
Proof. split; [lia|]. apply bpow_le. lia. Qed.

Lemma ones_moderate p lo hi : (0 < p)%Z -> (lo <= 0 <= hi)%Z -> forall x, Forall (fun v => v = 0 \/ v = 1) x -> moderate p lo hi x.
Proof.
  intros Hp [L H] x. apply Forall_impl. intros v [-> | ->].
  - split; [|left; reflexivity]. exists 0%Z, 0%Z. split; [apply Z.pow_pos_nonneg; lia|lra].
  - split; [exists 1%Z, 0%Z; split; [apply Z.pow_gt_1; lia|cbn; lra]|]. right. rewrite Rabs_R1. split; [apply (bpow_le _ 0), L|apply (bpow_le 0), H].
Qed.

Lemma frames_moderate p lo hi : (0 < p)%Z -> (lo <= 0 <= hi)%Z -> Forall (moderate p lo hi) one_frame /\ Forall (moderate p lo hi) two_frames.
Proof.
  intros Hp H. split; unfold one_frame, two_frames; repeat (apply Forall_cons; [apply ones_moderate; [assumption|assumption|apply Forall_cons; [auto|apply Forall_cons; [auto|apply Forall_nil]]]|]); apply Forall_nil.
Qed.

Notation float64_distance := (float_distance (float_rnd 53 (-1074)) (powerRZ 2 1023) (digits_rnd 53) acos (fun a => a / PI)
  (osum (float_rnd 53 (-1074)) (powerRZ 2 1023)) (odot (float_rnd 53 (-1074)) (powerRZ 2 1023))).
Notation float32_distance := (float_distance (float_rnd 24 (-149)) (powerRZ 2 127) (digits_rnd 53) acos (fun a => a / PI)
  (osum (float_rnd 24 (-149)) (powerRZ 2 127)) (odot (float_rnd 24 (-149)) (powerRZ 2 127))).

Lemma float_error_example : exists f p v, cosine_between f /\ least f one_frame two_frames p /\
  float32_distance ex_memory (farray Metrics.Float32 2 one_frame) (farray Metrics.Float32 2 two_frames) false = Ok (Number (Some v)) /\
  (1 - powerRZ 2 (-53)) ^ 1 * (along f one_frame two_frames p - 2 * angle_error 0 (powerRZ 2 (-24)) 2) <= v
    <= (1 + powerRZ 2 (-53)) ^ 1 * (along f one_frame two_frames p + 2 * angle_error 0 (powerRZ 2 (-24)) 2).
Proof.
  destruct default_value as (f & Cf & H). destruct (H Metrics.Float32 2%nat one_frame two_frames ex_memory (or_intror eq_refl) ltac:(discriminate) ltac:(discriminate)) as (p & Lp & _).
  destruct (frames_moderate 24 (-12) 16 ltac:(lia) ltac:(lia)) as [M1 M2].
  destruct (float_error 24 (-149) (float_rnd 24 (-149)) (bpow 127) (-12) 16 10 53 (digits_rnd 53) acos (fun a => a / PI) (osum (float_rnd 24 (-149)) (bpow 127))
    (odot (float_rnd 24 (-149)) (bpow 127)) 0 f Metrics.Float32 2 (float_rnd_nearest 24 (-149) ltac:(lia)) suited_32 (osums _ _) ltac:(lia) (digits_rnd_nearest 53 ltac:(lia))
    acos_accurate Cf (or_intror eq_refl) ltac:(cbn; lia) one_frame two_frames ex_memory p) as (v & Ev & B); try assumption; try discriminate; try (repeat constructor).
  exists f, p, v. split; [exact Cf|]. split; [exact Lp|]. split; [exact Ev|]. cbn [one_frame two_frames length Nat.add Nat.sub INR] in B. replace (1 + 1) with 2 in B by lra. exact B.
Qed.

(** ** Small errors *)
Lemma tiny p : (16 <= p)%Z -> 0 < bpow (- p) <= 1 / 65536.
Proof.
  intros H. split; [apply bpow_pos|]. replace (1 / 65536) with (bpow (-16)); [apply bpow_le; lia|]. change (bpow (-16)) with (/ (2 ^ 16)). replace (2 ^ 16) with 65536 by (cbn [pow]; lra). lra.
Qed.

Lemma tiny_error p : (16 <= p)%Z -> 0 <= angle_error 0 (bpow (- p)) 2 <= 1 / 32.
Proof.
  intros H. pose proof (tiny p H) as T. set (u := bpow (- p)) in *. clearbody u. unfold angle_error. split; [pose proof (sqrt_pos (cosine_error u 2 / 2)); lra|].
  rewrite Rplus_0_l. replace (1 / 32) with (sqrt ((1 / 32) * (1 / 32))) by (apply sqrt_square; lra). apply sqrt_le_1_alt. unfold cosine_error. cbn [Nat.add].
  assert (A : (1 + u) ^ 3 <= (1 + 1 / 65536) ^ 3) by (apply pow_incr; lra). assert (B : (1 - 1 / 65536) ^ 5 <= (1 - u) ^ 5) by (apply pow_incr; lra).
  assert (P : 0 < (1 - u) ^ 5) by (apply pow_lt; lra). assert (K : (1 + u) ^ 3 / (1 - u) ^ 5 <= 513 / 512); [|lra].
  apply (Rmult_le_reg_r ((1 - u) ^ 5)); [exact P|]. unfold Rdiv at 1. rewrite Rmult_assoc, Rinv_l, Rmult_1_r by lra. cbn [pow] in A, B |- *. lra.
Qed.

Lemma surely_float : surely_less (powerRZ 2 (-53)) (angle_error 0 (powerRZ 2 (-53)) 2) cosine_value true [[1; 0]] [[0; 1]] [[1; 0]].
Proof.
  destruct (FloatDistance_ex.right_angle _ cosine_between_value) as [Z H]. pose proof (tiny_error 53 ltac:(lia)) as E. pose proof (tiny 53 ltac:(lia)) as T.
  change (bpow (- (53))) with (bpow (-53)) in *. intros p q [[P _] [Q _]].
  rewrite (single_whole _ _ _ P), (single_whole _ _ _ Q). unfold highest, lowest.
  cbn [List.length Nat.add Nat.sub pow INR along fold_right nth fst snd]. rewrite Z, H. set (e := angle_error _ _ _) in *. set (u := bpow (-53)) in *. clearbody e u.
  nra.
Qed.

Lemma float_compare_example : exists v v',
  float64_distance ex_memory (farray Metrics.Float64 2 [[1; 0]]) (farray Metrics.Float64 2 [[1; 0]]) true = Ok (Number (Some v)) /\
  float64_distance ex_memory (farray Metrics.Float64 2 [[0; 1]]) (farray Metrics.Float64 2 [[1; 0]]) true = Ok (Number (Some v')) /\ v < v'.
Proof.
  assert (M : forall x, Forall (fun v => v = 0 \/ v = 1) x -> Forall (moderate 53 (-150) 250) [x]).
  { intros x Hx. apply Forall_cons; [apply ones_moderate; [lia|lia|exact Hx]|apply Forall_nil]. }
  apply (float_compare 53 (-1074) (float_rnd 53 (-1074)) (bpow 1023) (-150) 250 50 53 (digits_rnd 53) acos (fun a => a / PI) (osum (float_rnd 53 (-1074)) (bpow 1023))
    (odot (float_rnd 53 (-1074)) (bpow 1023)) 0 cosine_value Metrics.Float64 2 (float_rnd_nearest 53 (-1074) ltac:(lia)) suited_64 (osums _ _) ltac:(lia) (digits_rnd_nearest 53 ltac:(lia))
    acos_accurate cosine_between_value (or_introl eq_refl) ltac:(cbn; lia) true); try discriminate; try (apply M; repeat (apply Forall_cons; auto); fail); try exact surely_float;
    try (repeat constructor; fail).
Qed.

Lemma no_overflow_example : exists rnd1 sum1 dot1, precise rnd1 (powerRZ 2 (- (53))) /\ sums_rounded rnd1 sum1 dot1 /\
  float64_distance ex_memory (farray Metrics.Float64 2 one_frame) (farray Metrics.Float64 2 two_frames) true =
  machine_distance rnd1 (digits_rnd 53) acos (fun a => a / PI) sum1 dot1 ex_memory (farray Metrics.Float64 2 one_frame) (farray Metrics.Float64 2 two_frames) true.
Proof.
  destruct (frames_moderate 53 (-150) 250 ltac:(lia) ltac:(lia)) as [M1 M2].
  destruct (no_overflow 53 (-1074) (float_rnd 53 (-1074)) (bpow 1023) (-150) 250 50 acos (fun a => a / PI) (osum (float_rnd 53 (-1074)) (bpow 1023))
    (odot (float_rnd 53 (-1074)) (bpow 1023)) (float_rnd_nearest 53 (-1074) ltac:(lia)) suited_64 (osums _ _) 2 ltac:(cbn; lia)) as (r & s & d & P & S & H).
  exists r, s, d. split; [exact P|]. split; [exact S|]. apply H; try assumption; repeat constructor.
Qed.
