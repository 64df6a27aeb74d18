(** A whole evaluation in double precision, for the example of Props_FloatRange.v. *)
From Coq Require Import Ascii String.
From Coq Require Import List ZArith QArith Qreals Reals Lra Lia Permutation Bool.
From Verif Require Import Prelude ListFacts TypeFitting Sampler Sampler_proofs Task Task_spec Task_sort Task_proofs Task_main Task_ex Task_reg_ex
  Task_reg_spec Task_align Pairs Pairs_spec Distances Distances_spec
  Score Score_spec Score_ex Analyze Analyze_spec Rounding H5io H5io_spec H5io_use H5io_ex Pipeline Pipeline_spec Pipeline_file Pipeline_proofs
  Pipeline_ex Pipeline_same_spec Pipeline_same Pipeline_same_main Pipeline_same_ex Pipeline_map_spec Pipeline_map
  Metrics_spec Metrics Metrics_cosine Dtw Dtw_spec Dtw_hom DefaultDistance_spec DefaultDistance DefaultDistance_proofs Invariance_spec Invariance_proofs Invariance_ex Pipeline_default Pipeline_default_ex.
From Verif Require FloatDistance.
From Verif Require Import FloatDistance_spec FloatDistance_ex FloatDistance_error FloatDistance_exact RoundEval_spec RoundEval_lines RoundEval_proofs RoundEval_ex
  FloatFormat_spec FloatFormat_proofs FloatFormat_ex FloatRange_spec FloatRange_proofs FloatRange_main FloatRange_ex.
Import ListNotations.
Local Open Scope Z_scope.
Local Open Scope string_scope.
Local Open Scope list_scope.

Local Notation rnd := (float_rnd 53 (-1074)).
Local Notation max := (powerRZ 2 1023).
Notation float64_on := (float_on (float_rnd 53 (-1074)) (powerRZ 2 1023) (digits_rnd 53) acos (fun a => a / PI)%R
  (osum (float_rnd 53 (-1074)) (powerRZ 2 1023)) (odot (float_rnd 53 (-1074)) (powerRZ 2 1023)) Float64 2).

(** ** The angles *)
Lemma kept_0 v : v = 0%R -> kept rnd max v = Some 0%R.
Proof.
  intros ->. unfold kept. rewrite (nearest_keeps (in_format 53 (-1074)) rnd (float_rnd_nearest 53 (-1074) ltac:(lia))).
  - destruct (Rle_dec _ _) as [|N]; [reflexivity|]. exfalso. apply N. rewrite Rabs_R0. pose proof (bpow_pos 1023). lra.
  - exists 0, 0. split; [reflexivity|]. split; [lia|lra].
Qed.
Lemma kept_1 v : v = 1%R -> kept rnd max v = Some 1%R.
Proof.
  intros ->. unfold kept. rewrite (nearest_keeps (in_format 53 (-1074)) rnd (float_rnd_nearest 53 (-1074) ltac:(lia))).
  - destruct (Rle_dec _ _) as [|N]; [reflexivity|]. exfalso. apply N. rewrite Rabs_R1. apply (bpow_le 0 1023). lia.
  - exists 1, 0. split; [reflexivity|]. split; [lia|cbn; lra].
Qed.

Local Notation A := (overflowing rnd max acos (fun a => a / PI)%R (osum rnd max) (odot rnd max)).
Ltac keep := repeat (cbn [kept2 fst snd combine map osum]; first [rewrite kept_0 by lra | rewrite kept_1 by lra]); cbn [kept2].

Lemma float_length z : FloatDistance.length_of A (map Some (r_frame z)) = Some 1%R.
Proof.
  unfold FloatDistance.length_of, r_frame. cbn [FloatDistance.sum FloatDistance.root FloatDistance.mul overflowing].
  destruct (Z.even z); cbn [map osum]; keep; (destruct (Rle_dec 0 _) as [_|N]; [|exfalso; apply N; lra]); apply kept_1, sqrt_1.
Qed.

Lemma float_angle z z' : FloatDistance.angle A (map Some (r_frame z)) (map Some (r_frame z')) = Some (if Bool.eqb (Z.even z) (Z.even z') then 0 else 1 / 2)%R.
Proof.
  unfold FloatDistance.angle. rewrite !float_length. cbn [FloatDistance.equal_0 FloatDistance.dot FloatDistance.div FloatDistance.mul FloatDistance.arccos FloatDistance.over_pi overflowing kept2 lift1].
  rewrite one_not_zero. cbn [andb]. rewrite (kept_1 (1 * 1)) by lra. destruct (Req_EM_T 1 0); [lra|].
  assert (D : odot rnd max (map Some (r_frame z)) (map Some (r_frame z')) = Some (if Bool.eqb (Z.even z) (Z.even z') then 1 else 0)%R).
  { unfold odot, r_frame. destruct (Z.even z), (Z.even z'); cbn [map combine osum fst snd]; keep; reflexivity. }
  rewrite D. cbn [kept2]. destruct (Bool.eqb (Z.even z) (Z.even z')).
  - rewrite kept_1 by field. cbn [lift1]. rewrite Invariance_ex.no_angle. reflexivity.
  - rewrite kept_0 by field. cbn [lift1]. rewrite Invariance_ex.right_angle. reflexivity.
Qed.

(** ** The sums of halves *)
Definition half (k : Z) : option R := Some (IZR k / 2)%R.
Lemma half_add a b : Z.abs (a + b) <= 1000 -> radd (digits_rnd 53) (half a) (half b) = half (a + b).
Proof.
  intros H. unfold radd, half. cbn [lift2]. f_equal. rewrite (nearest_keeps (with_digits 53) (digits_rnd 53) (digits_rnd_nearest 53 ltac:(lia))).
  - rewrite plus_IZR. lra.
  - exists (a + b), (-1). split; [lia|]. rewrite plus_IZR. change (powerRZ 2 (-1)) with (/ (2 * 1))%R. field.
Qed.
Lemma half_le a b : nle (half a) (half b) = (a <=? b)%Z.
Proof.
  unfold nle, half. destruct (Rle_dec _ _) as [H|H]; destruct (Z.leb_spec a b) as [L|L]; try reflexivity; exfalso.
  - apply IZR_lt in L. lra.
  - apply IZR_le in L. lra.
Qed.

Definition bit (b : bool) : Z := if b then 0 else 1.
Lemma half_dtw a b c d empty :
  dtw_costs (radd (digits_rnd 53)) nle (rdivn (digits_rnd 53)) 2 2 [[half (bit a); half (bit b)]; [half (bit c); half (bit d)]] false empty =
  Ok (half (bit d + Z.min (Z.min (bit b + bit a) (bit a)) (bit c + bit a))).
Proof.
  destruct a, b, c, d; cbn -[radd nle half rdivn bit Z.add Z.min]; cbn [bit]; unfold min3, less;
    repeat (first [rewrite half_add by (vm_compute; discriminate) | rewrite half_le]; cbn -[radd nle half rdivn]); reflexivity.
Qed.

Lemma float_frames empty a b c d :
  float64_on empty (Some false) (map r_frame [a; b]) (map r_frame [c; d]) = on_result m_value (z_distance (Some false) [a; b] [c; d]).
Proof.
  unfold float_on, float_distance, FloatDistance.default_distance, farray. cbn [FloatDistance.f_rows map length Nat.ltb Nat.leb andb].
  unfold FloatDistance.cosine_distance. cbn [FloatDistance.same_float FloatDistance.f_type FloatDistance.f_cols FloatDistance.f_rows Nat.eqb map].
  rewrite !float_angle.
  assert (E : forall z z', Some (if Bool.eqb (Z.even z) (Z.even z') then 0 else 1 / 2)%R = half (bit (Bool.eqb (Z.even z) (Z.even z')))).
  { intros z z'. destruct (Bool.eqb _ _); unfold half, bit; f_equal; lra. }
  rewrite !E.
  assert (P : forall x, FloatDistance.at_least_0 A (half (bit x)) = true).
  { intros x. cbn. destruct (Rle_dec 0 _) as [|N]; [reflexivity|]. exfalso. apply N. destruct x; cbn; lra. }
  cbn [forallb]. rewrite !P. cbn [andb bind]. unfold dtw. cbn [length Nat.eqb orb bind]. rewrite half_dtw.
  unfold z_distance. cbn [map]. destruct (Z.even a), (Z.even b), (Z.even c), (Z.even d); vm_compute (qdist _ _ _); cbn [on_result m_value bind]; unfold half; cbn; do 3 f_equal; unfold Q2R; cbn; lra.
Qed.

(** ** The evaluation *)

(** The distances of two items of two frames are rational; the other ones are not needed. *)
Definition mixed : Type := (option Q + FloatDistance.value (option R))%type.
Definition mixed_value (d : mixed) : FloatDistance.value (option R) := match d with inl q => m_value q | inr v => v end.
Definition mixed_less (d d' : mixed) : bool := match d, d' with inl q, inl q' => qlt q q' | _, _ => machine_less (mixed_value d) (mixed_value d') end.
Definition mixed_distance (n : option bool) (m m' : list Z) : res mixed :=
  match n, m, m' with
  | Some false, [_; _], [_; _] => on_result inl (z_distance n m m')
  | _, _, _ => on_result inr (float64_on ex_memory n (map r_frame m) (map r_frame m'))
  end.

Lemma mixed_less_ok d d' : machine_less (mixed_value d) (mixed_value d') = mixed_less d d'.
Proof. destruct d as [q|v], d' as [q'|v']; try reflexivity. apply m_less. Qed.

Lemma on_inr (r : res (FloatDistance.value (option R))) : r = on_result mixed_value (on_result inr r).
Proof. destruct r; reflexivity. Qed.
Lemma on_inl (r : res (option Q)) : on_result m_value r = on_result mixed_value (on_result inl r).
Proof. destruct r; reflexivity. Qed.

Lemma mixed_frames n m m' : float64_on ex_memory n (map r_frame m) (map r_frame m') = on_result mixed_value (mixed_distance n m m').
Proof.
  unfold mixed_distance. destruct n as [[|]|]; try apply on_inr.
  destruct m as [|a [|b [|]]]; try apply on_inr. destruct m' as [|c [|d [|]]]; try apply on_inr. rewrite <- on_inl. apply float_frames.
Qed.

Definition f_lines := Eval vm_compute in got (pe_run mixed (inl None) mixed_less mixed_distance r_file (r_files 0) (Some 0) 2 turns).
Lemma f_run : pe_run mixed (inl None) mixed_less mixed_distance r_file (r_files 0) (Some 0) 2 turns = Some f_lines.
Proof. vm_compute. reflexivity. Qed.

Lemma f_evaluated : evaluated string_dec plain_text pl_name Z.leb machine_less (float64_on ex_memory)
    ex_task_reg ex_cols ex_db r_places pl_indexes (with_frames r_frame (r_files 0)) (Some 0) f_lines.
Proof.
  eapply evaluated_map; [exact mixed_less_ok|intros; apply mixed_frames|].
  apply (pe_evaluated mixed (inl None) mixed_less mixed_distance (@rev _) 1000 ex_db r_places r_file (r_files 0) (Some 0) 2 turns); try exact f_run.
  - exact rev_order.
  - vm_compute. reflexivity.
  - vm_compute. discriminate.
  - vm_compute. discriminate.
  - lia.
Qed.

(** ** What is settled *)
Local Notation u := (powerRZ 2 (- (53))).
Lemma far_sure m m' z : far2 m m' z = true -> surely_less u (angle_error 0 u 2) cosine_value false (map r_frame m) (map r_frame m') (map r_frame z).
Proof.
  unfold far2. destruct (z_distance (Some false) m z) as [[d|]|] eqn:E; try discriminate. destruct (z_distance (Some false) m' z) as [[d'|]|] eqn:E'; try discriminate.
  rewrite !andb_true_iff, !Nat.eqb_eq. intros ((((H & H1) & L1) & L2) & L3) p q [P Q].
  assert (Nm : m <> []) by (destruct m; discriminate). assert (Nm' : m' <> []) by (destruct m'; discriminate). assert (Nz : z <> []) by (destruct z; discriminate).
  unfold highest, lowest. rewrite !map_length, L1, L2, L3, (least_rational _ _ _ _ Nm Nz P E), (least_rational _ _ _ _ Nm' Nz Q E').
  apply Qle_bool_iff, Qle_Rle in H. apply Qle_bool_iff, Qle_Rle in H1. rewrite Q2R_plus in H. unfold Q2R at 2 in H. unfold Q2R at 2 in H1. cbn in H, H1. cbn [Nat.add Nat.sub INR pow].
  assert (D : (0 <= Q2R d)%R).
  { rewrite <- (least_rational _ _ _ _ Nm Nz P E). destruct P as [W _]. apply (along_nonneg cosine_value cosine_between_value 2); try exact W;
      try (destruct m; [congruence|discriminate]); try (destruct z; [congruence|discriminate]);
      (apply Forall_forall; intros x Hx; apply in_map_iff in Hx; destruct Hx as (y & <- & _); unfold r_frame; destruct (Z.even y); reflexivity). }
  pose proof (tiny 53 ltac:(lia)) as T. pose proof (tiny_error 53 ltac:(lia)) as B. set (e := angle_error 0 u 2) in *. set (v := u) in *. clearbody e v.
  assert (G : ((1 + v) * ((1 + v) * 1) <= 17 / 16)%R) by nra. assert (G' : (15 / 16 <= (1 - v) * ((1 - v) * 1))%R) by nra.
  set (g := ((1 + v) * ((1 + v) * 1))%R) in *. set (g' := ((1 - v) * ((1 - v) * 1))%R) in *. clearbody g g'.
  apply Rle_lt_trans with (17 / 16 * (Q2R d + (1 + 1 + 1) * e))%R; [apply Rmult_le_compat_r; lra|].
  apply Rlt_le_trans with (15 / 16 * (Q2R d' - (1 + 1 + 1) * e))%R; [lra|apply Rmult_le_compat_r; lra].
Qed.

Lemma settled_float m m' z n : n = false -> settled2 m m' z = true -> settled u (angle_error 0 u 2) cosine_value n (map r_frame m) (map r_frame m') (map r_frame z).
Proof.
  intros ->. unfold settled2. rewrite !orb_true_iff. intros [[H|H]|H]; right; right; right.
  - left. destruct (list_eq_dec _ _ _) as [E|]; [|discriminate]. unfold r_frame.
    assert (K : forall l, map (fun z => if Z.even z then [1%R; 0%R] else [0%R; 1%R]) l = map (fun b : bool => if b then [1%R; 0%R] else [0%R; 1%R]) (map Z.even l)) by (intros l; rewrite map_map; reflexivity).
    rewrite !K, E. reflexivity.
  - right. left. apply far_sure, H.
  - right. right. apply far_sure, H.
Qed.

Lemma float_settled k a b x pa pb px ma mb mx n : is_wanted ex_task_reg ex_db k (a, b, x) -> r_doubtful 0 k (a, b, x) = false ->
    place ex_task_reg ex_db r_places k a pa -> place ex_task_reg ex_db r_places k b pb -> place ex_task_reg ex_db r_places k x px ->
    matrix_of Z.leb (with_frames r_frame (r_files 0)) pa ma -> matrix_of Z.leb (with_frames r_frame (r_files 0)) pb mb ->
    matrix_of Z.leb (with_frames r_frame (r_files 0)) px mx -> meant (Some 0) = Some n ->
    settled u (angle_error 0 u 2) cosine_value n ma mb mx.
Proof.
  intros W S Pa Pb Px Ma Mb Mx Hn. rewrite (r_matrix 0 pa ma Ma), (r_matrix 0 pb mb Mb), (r_matrix 0 px mx Mx).
  apply settled_float; [injection Hn as <-; reflexivity|]. unfold r_doubtful in S. rewrite (r_at_place _ _ _ Pa), (r_at_place _ _ _ Pb), (r_at_place _ _ _ Px) in S.
  rewrite negb_false_iff in S. exact S.
Qed.

Lemma float_widths p m : In p r_places -> matrix_of Z.leb (with_frames r_frame (r_files 0)) p m -> frames_of 2 m /\ Forall (moderate 53 (-150) 250) m.
Proof.
  intros I H. split; [exact (r_widths 0 p m I H)|]. rewrite (r_matrix 0 p m H). generalize (r_item 0 p). clear. intros l. induction l as [|z l IH]; [constructor|]. cbn [map]. constructor; [|exact IH].
  apply ones_moderate; [lia|lia|]. unfold r_frame. destruct (Z.even z); repeat (apply Forall_cons; auto).
Qed.

Lemma float_doubtful_lines : map (r_doubtful 0 [7]) (firstn 9 (x_triplets r_file)) = [false; false; false; false; false; false; false; false; false].
Proof. vm_compute. reflexivity. Qed.

Lemma float_near_example k : Forall2 (line_near ex_task_reg ex_db pl_indexes (r_doubtful 0) k) (of_by (pl_name k) (r_lines 0)) (of_by (pl_name k) f_lines).
Proof.
  apply (float_near 53 (-1074) rnd max (-150) 250 50 53 (digits_rnd 53) acos (fun a => a / PI)%R (osum rnd max) (odot rnd max) 0 cosine_value Float64 2
    (float_rnd_nearest 53 (-1074) ltac:(lia)) suited_64 (osums _ _) ltac:(lia) (digits_rnd_nearest 53 ltac:(lia)) acos_accurate cosine_between_value (or_introl eq_refl) ltac:(cbn; lia)
    Z string string_dec plain_text pl_name pl_name_inj Z.leb ex_memory ex_memory ex_task_reg ex_cols ex_db r_places pl_indexes
    (with_frames r_frame (r_files 0)) (Some 0) (r_doubtful 0) (r_evaluable 0) float_widths float_settled).
  - exact (r_evaluated 0 r_run_0 _).
  - exact f_evaluated.
Qed.
