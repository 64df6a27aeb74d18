(** The distances of the machine for which rounding does not matter. *)
From Coq Require Import String.
From Coq Require Import Reals List Arith ZArith Lia Lra Permutation.
From Verif Require Import Prelude Task Task_spec Task_reg_spec Distances_spec Score_spec Pipeline_spec Pipeline_same_spec Pipeline_same_main
  Metrics_spec Metrics_proofs Dtw Dtw_spec Dtw_proofs DefaultDistance_spec DefaultDistance_proofs.
From Verif Require Metrics DefaultDistance Invariance_spec Invariance_proofs Pipeline_default Distances.
From Verif Require Import FloatDistance FloatDistance_spec FloatDistance_proofs FloatDistance_error FloatDistance_exact FloatDistance_ex
  RoundEval_spec RoundEval_lines.
Import ListNotations.
Local Open Scope R_scope.

(** ** The alignment of the machine *)
Lemma machine_near rnd rnd' facos fover sum dot u u' ua f t w xs ys empty :
  precise rnd u -> precise rnd' u' -> (forall a b, a <= b -> rnd' a <= rnd' b) -> sums_rounded rnd sum dot -> accurate facos fover ua ->
  cosine_between f -> is_float t -> frames_of w xs -> frames_of w ys -> xs <> [] -> ys <> [] ->
  exists q c v, nearly_least u' (angle_error ua u w) f xs ys q /\
    lowest u' (angle_error ua u w) f false xs ys q <= c <= highest u' (angle_error ua u w) f false xs ys q /\
    (forall p, whole xs ys p -> c <= highest u' (angle_error ua u w) f false xs ys p) /\
    lowest u' (angle_error ua u w) f true xs ys q <= v <= highest u' (angle_error ua u w) f true xs ys q /\
    forall b, machine_distance rnd rnd' facos fover sum dot empty (farray t w xs) (farray t w ys) b = Ok (Number (Some (if b then v else c))).
Proof.
  intros Pr Pr' M Sm Ang Cf Ht Fx Fy Nx Ny.
  assert (B : forall x y, In x xs -> In y ys -> exists v, angle (rounded rnd facos fover sum dot) (map Some x) (map Some y) = Some v /\ 0 <= v /\ Rabs (v - f x y) <= angle_error ua u w).
  { intros x y Ix Iy. unfold frames_of in *. rewrite Forall_forall in Fx, Fy. unfold FloatDistance_spec.angle_error. rewrite <- (Fx x Ix).
    apply (angle_off rnd u Pr facos fover sum dot Sm ua Ang f x y Cf). rewrite (Fx x Ix), (Fy y Iy). reflexivity. }
  destruct (machine_value rnd rnd' facos fover sum dot t w xs ys empty M Ht Nx Ny) as (q & c & W & L & C & O & E).
  { intros x y Ix Iy. destruct (B x y Ix Iy) as (v & Ev & V & _). exists v. split; [exact Ev|exact V]. }
  set (g := machine_angle rnd facos fover sum dot) in *. set (e := angle_error ua u w) in *.
  assert (G : forall x y, In x xs -> In y ys -> 0 <= g x y /\ Rabs (g x y - f x y) <= e).
  { intros x y Ix Iy. destruct (B x y Ix Iy) as (v & Ev & V & D). unfold g, machine_angle. rewrite Ev. split; assumption. }
  assert (E0 : 0 <= e).
  { destruct xs as [|x ?]; [congruence|]. destruct ys as [|y ?]; [congruence|]. destruct (G x y (or_introl eq_refl) (or_introl eq_refl)) as [_ K]. pose proof (Rabs_pos (g x y - f x y)). lra. }
  set (n := (length xs + length ys - 1)%nat) in *.
  assert (Bound : forall r, whole xs ys r -> (length r <= n)%nat /\ inside xs ys r /\ r <> []).
  { intros r Wr. split; [|split].
    - pose proof (alignment_length _ _ Wr) as K. cbn [fst snd] in K. unfold n. destruct xs; [congruence|]. destruct ys; [congruence|]. cbn [length] in *. lia.
    - apply whole_inside; assumption.
    - pose proof (whole_pos _ _ _ Wr). destruct r; [cbn in *; lia|discriminate]. }
  assert (Near : forall r c', whole xs ys r -> cost_of (plus rnd') (Dtw_spec.entry 0 (map (fun x => map (g x) ys) xs)) r = Some c' ->
    0 <= c' /\ lowest u' e f false xs ys r <= c' <= highest u' e f false xs ys r).
  { intros r c' Wr Cr. destruct (Bound r Wr) as (Lr & Ir & Nr).
    destruct (cost_near rnd' u' Pr' g xs ys (fun x y Ix Iy => proj1 (G x y Ix Iy)) r c' Ir Nr Cr) as [[C1 C2] A0].
    pose proof (along_near f g xs ys e (fun x y Ix Iy => proj2 (G x y Ix Iy)) r Ir) as K.
    assert (Kl : INR (length r) * e <= INR n * e) by (apply Rmult_le_compat_r; [exact E0|apply le_INR; exact Lr]).
    pose proof (Rle_abs (along g xs ys r - along f xs ys r)) as K1. rewrite Rabs_minus_sym in K.
    pose proof (Rle_abs (along f xs ys r - along g xs ys r)) as K2. rewrite Rabs_minus_sym in K1. split; [|split].
    - eapply Rle_trans; [|exact C1]. apply Rmult_le_pos; [apply Rlt_le, (down_pos rnd' u' Pr')|exact A0].
    - unfold lowest. fold n. eapply Rle_trans; [|exact C1]. apply Rle_trans with ((1 - u') ^ (n - 1) * along g xs ys r).
      + apply Rmult_le_compat_l; [apply Rlt_le, (down_pos rnd' u' Pr')|lra].
      + apply Rmult_le_compat_r; [exact A0|]. apply (down_mono rnd' u' Pr'). lia.
    - unfold highest. fold n. eapply Rle_trans; [exact C2|]. apply Rle_trans with ((1 + u') ^ (n - 1) * along g xs ys r).
      + apply Rmult_le_compat_r; [exact A0|]. apply (up_mono rnd' u' Pr'). lia.
      + apply Rmult_le_compat_l; [pose proof (up_pos rnd' u' Pr' (n - 1)); lra|lra]. }
  assert (Over : forall p, whole xs ys p -> c <= highest u' e f false xs ys p).
  { intros p Wp. destruct (cost_exists rnd' g xs ys p Wp) as (c' & C'). eapply Rle_trans; [apply (O p c' Wp C')|]. apply (Near p c' Wp C'). }
  destruct (Near q c W C) as (C0 & C1 & C2). exists q, c, (rnd' (c / INR (length q))).
  split; [split; [exact W|]; intros p Wp; eapply Rle_trans; [exact C1|apply Over, Wp]|]. split; [split; assumption|]. split; [exact Over|]. split; [|exact E].
  assert (Lq : (0 < length q)%nat) by (apply (whole_pos xs ys); exact W). assert (Pq : 0 < / INR (length q)) by (apply Rinv_0_lt_compat, (lt_INR 0); lia).
  assert (n1 : n = S (n - 1)) by (unfold n; destruct xs; [congruence|]; destruct ys; [congruence|]; cbn [length]; lia).
  assert (Q0 : 0 <= c / INR (length q)) by (unfold Rdiv; apply Rmult_le_pos; lra).
  pose proof (rnd_nonneg rnd' u' Pr' _ Q0) as [R1 R2]. pose proof (u_bounds rnd' u' Pr') as U.
  unfold lowest, highest in *. fold n in C1, C2 |- *. rewrite n1 at 1 3. cbn [pow]. split.
  - eapply Rle_trans; [|exact R1]. unfold Rdiv. rewrite !Rmult_assoc. apply Rmult_le_compat_l; [lra|]. rewrite <- Rmult_assoc. apply Rmult_le_compat_r; lra.
  - eapply Rle_trans; [exact R2|]. unfold Rdiv. rewrite !Rmult_assoc. apply Rmult_le_compat_l; [lra|]. rewrite <- Rmult_assoc. apply Rmult_le_compat_r; lra.
Qed.

(** ** With real numbers *)
Lemma id_precise : precise (fun a => a) 0.
Proof. split; [lra|]. intros a. rewrite Rminus_diag_eq by reflexivity. rewrite Rabs_R0. lra. Qed.

Lemma no_error w : angle_error 0 0 w = 0.
Proof.
  unfold FloatDistance_spec.angle_error, cosine_error. rewrite Rplus_0_r, Rminus_0_r, !pow1. replace ((1 / 1 - 1) / 2) with 0 by field. rewrite sqrt_0. ring.
Qed.

Section Exact.
Variable f : frame -> frame -> R.
Hypothesis Cf : cosine_between f.

Lemma least_exists t w xs ys : is_float t -> frames_of w xs -> frames_of w ys -> xs <> [] -> ys <> [] -> exists p, least f xs ys p.
Proof.
  intros Ht Fx Fy Nx Ny.
  destruct (machine_near (fun a => a) (fun a => a) acos (fun a => a / PI) Metrics.nsum Metrics.dot 0 0 0 f t w xs ys (fun _ _ => None)
    id_precise id_precise ltac:(auto) exact_sums acos_accurate Cf Ht Fx Fy Nx Ny) as (q & c & v & [W N] & _).
  rewrite no_error in N. exists q. split; [exact W|]. intros p Wp. specialize (N p Wp). unfold lowest, highest in N. rewrite Rminus_0_r, Rplus_0_r, !pow1, Rmult_0_r in N. lra.
Qed.

Lemma along_nonneg w xs ys p : frames_of w xs -> frames_of w ys -> xs <> [] -> ys <> [] -> whole xs ys p -> 0 <= along f xs ys p.
Proof.
  intros Fx Fy Nx Ny W. pose proof (whole_inside xs ys p Nx Ny W) as I. unfold frames_of in *. rewrite Forall_forall in Fx, Fy. clear W.
  induction p as [|[i j] p IH]; [cbn; lra|]. inversion I as [|? ? [Hi Hj] I']; subst. cbn [fst snd] in *.
  change (along f xs ys ((i, j) :: p)) with (f (nth i xs []) (nth j ys []) + along f xs ys p). specialize (IH I').
  assert (0 <= f (nth i xs []) (nth j ys [])); [|lra]. clear - Cf Fx Fy Hi Hj. pose proof (nth_In xs [] Hi) as Ix. pose proof (nth_In ys [] Hj) as Iy.
  set (x := nth i xs []) in *. set (y := nth j ys []) in *. destruct Cf as (F1 & F2 & F3 & F4).
  destruct (Forall_dec _ (fun v => Req_EM_T v 0) x) as [Zx|Zx], (Forall_dec _ (fun v => Req_EM_T v 0) y) as [Zy|Zy].
  - rewrite F1 by assumption. lra.
  - rewrite F2 by assumption. lra.
  - rewrite F3 by assumption. lra.
  - destruct (F4 x y) as [B _]; try assumption; [|apply B]. rewrite (Fx x Ix), (Fy y Iy). reflexivity.
Qed.
End Exact.

(** ** Bounds for larger errors are weaker *)
Section Larger.
Variables (u e : R) (f : frame -> frame -> R).
Hypothesis U : 0 <= u < 1.
Hypothesis E0 : 0 <= e.

Lemma lowest_below b xs ys p : 0 <= along f xs ys p -> (0 < length p)%nat -> lowest u e f b xs ys p <= lowest 0 0 f b xs ys p.
Proof.
  intros A L. unfold lowest. set (n := (length xs + length ys - 1)%nat). rewrite !Rminus_0_r, !pow1, Rmult_0_r, !Rminus_0_r, Rmult_1_l.
  assert (Kn : 0 <= INR n * e) by (apply Rmult_le_pos; [apply pos_INR|exact E0]).
  assert (H : forall k, (1 - u) ^ k * (along f xs ys p - INR n * e) <= along f xs ys p).
  { intros k. assert (D : 0 <= (1 - u) ^ k <= 1) by (split; [apply pow_le; lra|]; apply Rle_trans with (1 ^ k); [apply pow_incr; lra|rewrite pow1; lra]).
    apply Rle_trans with ((1 - u) ^ k * along f xs ys p); [apply Rmult_le_compat_l; lra|]. rewrite <- (Rmult_1_l (along f xs ys p)) at 2. apply Rmult_le_compat_r; lra. }
  destruct b; [|apply H]. unfold Rdiv. apply Rmult_le_compat_r; [|apply H]. apply Rlt_le, Rinv_0_lt_compat, (lt_INR 0), L.
Qed.

Lemma highest_above b xs ys p : 0 <= along f xs ys p -> (0 < length p)%nat -> highest 0 0 f b xs ys p <= highest u e f b xs ys p.
Proof.
  intros A L. unfold highest. set (n := (length xs + length ys - 1)%nat). rewrite !Rplus_0_r, !pow1, Rmult_0_r, !Rplus_0_r, Rmult_1_l.
  assert (Kn : 0 <= INR n * e) by (apply Rmult_le_pos; [apply pos_INR|exact E0]).
  assert (H : forall k, along f xs ys p <= (1 + u) ^ k * (along f xs ys p + INR n * e)).
  { intros k. assert (D : 1 <= (1 + u) ^ k) by (apply pow_R1_Rle; lra).
    apply Rle_trans with (1 * (along f xs ys p + INR n * e)); [lra|]. apply Rmult_le_compat_r; lra. }
  destruct b; [|apply H]. unfold Rdiv. apply Rmult_le_compat_r; [|apply H]. apply Rlt_le, Rinv_0_lt_compat, (lt_INR 0), L.
Qed.

Lemma nearly_larger w xs ys p : cosine_between f -> frames_of w xs -> frames_of w ys -> xs <> [] -> ys <> [] ->
  nearly_least 0 0 f xs ys p -> nearly_least u e f xs ys p.
Proof.
  intros Cf Fx Fy Nx Ny [W N]. split; [exact W|]. intros q Wq.
  pose proof (along_nonneg f Cf w xs ys) as P. pose proof (whole_pos xs ys) as K.
  eapply Rle_trans; [apply lowest_below; [apply P; assumption|apply K; assumption]|]. eapply Rle_trans; [apply N, Wq|].
  apply highest_above; [apply P; assumption|apply K; assumption].
Qed.

Lemma surely_larger w b xs ys zs : cosine_between f -> frames_of w xs -> frames_of w ys -> frames_of w zs -> xs <> [] -> ys <> [] -> zs <> [] ->
  surely_less u e f b xs ys zs -> surely_less 0 0 f b xs ys zs.
Proof.
  intros Cf Fx Fy Fz Nx Ny Nz H p q Hpq.
  assert (W : whole xs zs p /\ whole ys zs q) by (destruct b; destruct Hpq as [[W _] [W' _]]; split; assumption). destruct W as [W W'].
  eapply Rle_lt_trans; [apply highest_above; [apply (along_nonneg f Cf w); assumption|apply (whole_pos xs zs); assumption]|].
  eapply Rlt_le_trans; [|apply lowest_below; [apply (along_nonneg f Cf w); assumption|apply (whole_pos ys zs); assumption]].
  apply H. destruct b; [|exact Hpq]. destruct Hpq. split; apply (nearly_larger w); assumption.
Qed.
End Larger.

(** ** Comparisons *)
Section Compare.
Variables (rnd rnd' facos fover : R -> R) (sum : list (option R) -> option R) (dot : list (option R) -> list (option R) -> option R).
Variables (u u' ua : R) (f : frame -> frame -> R) (t : Metrics.dtype) (w : nat).
Hypothesis Pr : precise rnd u.
Hypothesis Pr' : precise rnd' u'.
Hypothesis M : forall a b, a <= b -> rnd' a <= rnd' b.
Hypothesis Sm : sums_rounded rnd sum dot.
Hypothesis Ang : accurate facos fover ua.
Hypothesis Cf : cosine_between f.
Hypothesis Ht : is_float t.

Lemma error_nonneg : 0 <= angle_error ua u w.
Proof.
  unfold FloatDistance_spec.angle_error. pose proof (sqrt_pos (cosine_error u w / 2)). pose proof (Ang 0) as [_ K]. pose proof (Rabs_pos (fover (facos 0) - acos 0 / PI)). lra.
Qed.

Lemma machine_surely b xs ys zs empty empty' : frames_of w xs -> frames_of w ys -> frames_of w zs -> xs <> [] -> ys <> [] -> zs <> [] ->
  surely_less u' (angle_error ua u w) f b xs ys zs ->
  exists v v', machine_distance rnd rnd' facos fover sum dot empty (farray t w xs) (farray t w zs) b = Ok (Number (Some v)) /\
    machine_distance rnd rnd' facos fover sum dot empty' (farray t w ys) (farray t w zs) b = Ok (Number (Some v')) /\ v < v'.
Proof.
  intros Fx Fy Fz Nx Ny Nz H.
  destruct (machine_near rnd rnd' facos fover sum dot u u' ua f t w xs zs empty Pr Pr' M Sm Ang Cf Ht Fx Fz Nx Nz) as (p & c & v & Np & Bc & _ & Bv & Ev).
  destruct (machine_near rnd rnd' facos fover sum dot u u' ua f t w ys zs empty' Pr Pr' M Sm Ang Cf Ht Fy Fz Ny Nz) as (q & c' & v' & Nq & Bc' & _ & Bv' & Ev').
  rewrite Ev, Ev'. destruct b.
  - exists v, v'. specialize (H p q (conj Np Nq)). repeat split; lra.
  - destruct (least_exists f Cf t w xs zs) as [p0 P0]; try assumption. destruct (least_exists f Cf t w ys zs) as [q0 Q0]; try assumption.
    specialize (H p0 q0 (conj P0 Q0)). unfold highest, lowest in H.
    destruct (machine_error rnd rnd' facos fover sum dot u u' ua f t w xs zs empty p0) as (d & Ed & Bd); try assumption.
    destruct (machine_error rnd rnd' facos fover sum dot u u' ua f t w ys zs empty' q0) as (d' & Ed' & Bd'); try assumption.
    rewrite Ev in Ed. rewrite Ev' in Ed'. injection Ed as <-. injection Ed' as <-. exists c, c'. repeat split; try reflexivity.
    replace (length xs + length zs - 1 - 1)%nat with (length xs + length zs - 2)%nat in H by lia.
    replace (length ys + length zs - 1 - 1)%nat with (length ys + length zs - 2)%nat in H by lia. lra.
Qed.

Lemma exact_array empty xs ys b : DefaultDistance.default_distance empty (array t w xs) (array t w ys) b =
  match machine_distance (fun a => a) (fun a => a) acos (fun a => a / PI) Metrics.nsum Metrics.dot empty (farray t w xs) (farray t w ys) b with
  | Ok (Number v) => Ok (DefaultDistance.Value v)
  | Ok (Infinity _) => Ok DefaultDistance.Infinite
  | Err e => Err e
  end.
Proof.
  unfold farray. rewrite exact_distance. unfold array. destruct (DefaultDistance.default_distance _ _ _ _) as [[v|]|e]; reflexivity.
Qed.

(** Exact and machine distances are of the same kind. *)
Lemma kinds empty empty' xs ys b : frames_of w xs -> frames_of w ys ->
  exact_on t w empty (Some b) xs ys = DefaultDistance.default_distance empty (array t w xs) (array t w ys) b /\
  ((xs <> [] /\ ys <> [] /\ exists v v', exact_on t w empty (Some b) xs ys = Ok (DefaultDistance.Value (Some v)) /\
      machine_on rnd rnd' facos fover sum dot t w empty' (Some b) xs ys = Ok (Number (Some v'))) \/
   (xs = [] /\ ys = [] /\ exact_on t w empty (Some b) xs ys = Ok (DefaultDistance.Value (Some 0)) /\
      machine_on rnd rnd' facos fover sum dot t w empty' (Some b) xs ys = Ok (Number (Some 0))) \/
   ((xs = [] /\ ys <> [] \/ xs <> [] /\ ys = []) /\ exact_on t w empty (Some b) xs ys = Ok DefaultDistance.Infinite /\
      machine_on rnd rnd' facos fover sum dot t w empty' (Some b) xs ys = Ok (Infinity (option R)))).
Proof.
  intros Fx Fy.
  assert (E : exact_on t w empty (Some b) xs ys = DefaultDistance.default_distance empty (array t w xs) (array t w ys) b).
  { unfold exact_on, Invariance_spec.default_on. rewrite Invariance_proofs.call_default_form. reflexivity. }
  split; [exact E|]. rewrite E. destruct xs as [|x xs], ys as [|y ys].
  - right. left. repeat split.
  - right. right. split; [left; split; [reflexivity|discriminate]|]. split; reflexivity.
  - right. right. split; [right; split; [discriminate|reflexivity]|]. split; reflexivity.
  - left. split; [discriminate|]. split; [discriminate|].
    destruct (machine_near rnd rnd' facos fover sum dot u u' ua f t w (x :: xs) (y :: ys) empty' Pr Pr' M Sm Ang Cf Ht Fx Fy ltac:(discriminate) ltac:(discriminate)) as (q & c & v & _ & _ & _ & _ & Ev).
    destruct (machine_near (fun a => a) (fun a => a) acos (fun a => a / PI) Metrics.nsum Metrics.dot 0 0 0 f t w (x :: xs) (y :: ys) empty
      id_precise id_precise ltac:(auto) exact_sums acos_accurate Cf Ht Fx Fy ltac:(discriminate) ltac:(discriminate)) as (q' & c' & v' & _ & _ & _ & _ & Ev').
    rewrite exact_array, Ev'. unfold machine_on. rewrite Ev. eauto.
Qed.

Lemma exact_surely b xs ys zs empty : frames_of w xs -> frames_of w ys -> frames_of w zs -> xs <> [] -> ys <> [] -> zs <> [] ->
  surely_less u' (angle_error ua u w) f b xs ys zs ->
  exists v v', exact_on t w empty (Some b) xs zs = Ok (DefaultDistance.Value (Some v)) /\
    exact_on t w empty (Some b) ys zs = Ok (DefaultDistance.Value (Some v')) /\ v < v'.
Proof.
  intros Fx Fy Fz Nx Ny Nz H. pose proof error_nonneg as E0. pose proof (u_bounds rnd' u' Pr') as U.
  apply (surely_larger u' _ f U E0 w b xs ys zs Cf Fx Fy Fz Nx Ny Nz) in H.
  assert (H0 : surely_less 0 (angle_error 0 0 w) f b xs ys zs) by (rewrite no_error; exact H). clear H. rename H0 into H.
  destruct (machine_near (fun a => a) (fun a => a) acos (fun a => a / PI) Metrics.nsum Metrics.dot 0 0 0 f t w xs zs empty
    id_precise id_precise ltac:(auto) exact_sums acos_accurate Cf Ht Fx Fz Nx Nz) as (p & c & v & Np & Bc & _ & Bv & Ev).
  destruct (machine_near (fun a => a) (fun a => a) acos (fun a => a / PI) Metrics.nsum Metrics.dot 0 0 0 f t w ys zs empty
    id_precise id_precise ltac:(auto) exact_sums acos_accurate Cf Ht Fy Fz Ny Nz) as (q & c' & v' & Nq & Bc' & _ & Bv' & Ev').
  assert (Lp : forall xs ys p, nearly_least 0 (angle_error 0 0 w) f xs ys p -> least f xs ys p).
  { clear. intros xs ys p [W N]. split; [exact W|]. intros q Wq. specialize (N q Wq). rewrite no_error in N. unfold lowest, highest in N.
    rewrite Rminus_0_r, Rplus_0_r, !pow1, Rmult_0_r in N. lra. }
  rewrite (proj1 (kinds empty empty xs zs b Fx Fz)), (proj1 (kinds empty empty ys zs b Fy Fz)), !exact_array, Ev, Ev'.
  destruct b.
  - exists v, v'. specialize (H p q (conj Np Nq)). repeat split; lra.
  - exists c, c'. specialize (H p q (conj (Lp _ _ _ Np) (Lp _ _ _ Nq))). repeat split; lra.
Qed.

Lemma machine_less_asym : asymmetric machine_less.
Proof.
  intros [[a|]|] [[b|]|]; cbn; try discriminate; try reflexivity. destruct (Rlt_dec a b), (Rlt_dec b a); try discriminate; try reflexivity. lra.
Qed.

Lemma irreflexive (V : Type) (vlt : V -> V -> bool) d s : asymmetric vlt -> verdict vlt d d s -> s = 0%Z.
Proof. intros A [[H _]|[[H _]|(_ & _ & H)]]; [pose proof (A _ _ H); congruence|pose proof (A _ _ H); congruence|exact H]. Qed.

Lemma settled_same b empty empty' ma mb mx dax dbx dax' dbx' s s' : frames_of w ma -> frames_of w mb -> frames_of w mx ->
  settled u' (angle_error ua u w) f b ma mb mx ->
  exact_on t w empty (Some b) ma mx = Ok dax -> exact_on t w empty (Some b) mb mx = Ok dbx -> verdict Invariance_spec.below dax dbx s ->
  machine_on rnd rnd' facos fover sum dot t w empty' (Some b) ma mx = Ok dax' ->
  machine_on rnd rnd' facos fover sum dot t w empty' (Some b) mb mx = Ok dbx' -> verdict machine_less dax' dbx' s' -> s = s'.
Proof.
  intros Fa Fb Fx S Ea Eb V Ea' Eb' V'.
  assert (Empties : ma = [] \/ mb = [] \/ mx = [] -> s = s').
  { intros O. destruct (kinds empty empty' ma mx b Fa Fx) as [_ Ka]. destruct (kinds empty empty' mb mx b Fb Fx) as [_ Kb].
    rewrite Ea, Ea' in Ka. rewrite Eb, Eb' in Kb. clear - Ka Kb V V' O.
    destruct Ka as [(A1 & A2 & v & v' & [= ->] & [= ->])|[(A1 & A2 & [= ->] & [= ->])|(A1 & [= ->] & [= ->])]];
      destruct Kb as [(B1 & B2 & z & z' & [= ->] & [= ->])|[(B1 & B2 & [= ->] & [= ->])|(B1 & [= ->] & [= ->])]];
      try (exfalso; tauto); unfold verdict in V, V'; cbn in V, V'; try (intuition congruence).
    destruct (Rlt_dec 0 0); [lra|]. intuition congruence. }
  destruct S as [H|[H|[H|[<-|H]]]]; [tauto|tauto|tauto| |].
  - assert (dbx = dax) as -> by congruence. assert (dbx' = dax') as -> by congruence.
    rewrite (irreflexive _ _ _ _ Pipeline_default.below_asym V), (irreflexive _ _ _ _ machine_less_asym V'). reflexivity.
  - destruct ma as [|x ma]; [tauto|]. destruct mb as [|y mb]; [tauto|]. destruct mx as [|z mx]; [tauto|].
    assert (Nx : x :: ma <> []) by discriminate. assert (Ny : y :: mb <> []) by discriminate. assert (Nz : z :: mx <> []) by discriminate.
    set (ma' := x :: ma) in *. set (mb' := y :: mb) in *. set (mx' := z :: mx) in *. clearbody ma' mb' mx'.
    destruct H as [H|H].
    + destruct (exact_surely b ma' mb' mx' empty Fa Fb Fx Nx Ny Nz H) as (v & v' & E1 & E2 & L).
      destruct (machine_surely b ma' mb' mx' empty' empty' Fa Fb Fx Nx Ny Nz H) as (c & c' & E3 & E4 & L').
      rewrite Ea in E1. rewrite Eb in E2. unfold machine_on in Ea', Eb'. rewrite Ea' in E3. rewrite Eb' in E4.
      injection E1 as ->. injection E2 as ->. injection E3 as ->. injection E4 as ->. unfold verdict in V, V'. cbn in V, V'.
      destruct (Rlt_dec v v'); [|lra]. destruct (Rlt_dec v' v); [lra|]. destruct (Rlt_dec c c'); [|lra]. destruct (Rlt_dec c' c); [lra|].
      intuition congruence.
    + destruct (exact_surely b mb' ma' mx' empty Fb Fa Fx Ny Nx Nz H) as (v & v' & E1 & E2 & L).
      destruct (machine_surely b mb' ma' mx' empty' empty' Fb Fa Fx Ny Nx Nz H) as (c & c' & E3 & E4 & L').
      rewrite Eb in E1. rewrite Ea in E2. unfold machine_on in Ea', Eb'. rewrite Eb' in E3. rewrite Ea' in E4.
      injection E1 as ->. injection E2 as ->. injection E3 as ->. injection E4 as ->. unfold verdict in V, V'. cbn in V, V'.
      destruct (Rlt_dec v v'); [|lra]. destruct (Rlt_dec v' v); [lra|]. destruct (Rlt_dec c c'); [|lra]. destruct (Rlt_dec c' c); [lra|].
      intuition congruence.
Qed.

End Compare.

(** ** Whole evaluations *)
Theorem rounded_near :
  forall (tm L : Type) (leq : forall x y : L, {x = y} + {x <> y}) (plain : L -> bool) (name : key -> string),
    (forall k k', name k = name k' -> k = k') ->
  forall rnd rnd' facos fover sum dot u u' ua f t w, precise rnd u -> precise rnd' u' -> (forall a b, a <= b -> rnd' a <= rnd' b) ->
    sums_rounded rnd sum dot -> accurate facos fover ua -> cosine_between f -> is_float t ->
  forall tle empty empty' T cols db (places : list (Distances.item tm)) (indexes : list (string * list L)) files normalize (doubtful : key -> triplet -> bool),
    evaluable plain T cols db places indexes files ->
    (forall p m, In p places -> matrix_of tle files p m -> frames_of w m) ->
    (forall k a b x pa pb px ma mb mx n, is_wanted T db k (a, b, x) -> doubtful k (a, b, x) = false ->
       place T db places k a pa -> place T db places k b pb -> place T db places k x px ->
       matrix_of tle files pa ma -> matrix_of tle files pb mb -> matrix_of tle files px mx -> meant normalize = Some n ->
       settled u' (angle_error ua u w) f n ma mb mx) ->
  forall lines lines',
    evaluated leq plain name tle Invariance_spec.below (exact_on t w empty) T cols db places indexes files normalize lines ->
    evaluated leq plain name tle machine_less (machine_on rnd rnd' facos fover sum dot t w empty') T cols db places indexes files normalize lines' ->
    (forall k, Forall2 (line_near T db indexes doubtful k) (of_by (name k) lines) (of_by (name k) lines')) /\
    exists m, Permutation lines m /\ Forall2 (fun ln ln' => exists k, line_near T db indexes doubtful k ln ln') m lines'.
Proof.
  intros tm L leq plain name name_inj rnd rnd' facos fover sum dot u u' ua f t w Pr Pr' M Sm Ang Cf Ht tle empty empty' T cols db places indexes files
    normalize doubtful E Hw Hs lines lines' R R'.
  refine (@answers_near tm L frame frame _ _ leq plain name name_inj tle _ _ _ _ normalize normalize Pipeline_default.below_asym machine_less_asym T cols db places indexes files files
    doubtful E (ev_features E) _ lines lines' R R').
  intros k [[a b] x] s s' W D (pa & pb & px & ma & mb & mx & dax & dbx & Ha & Hb & Hx & Ma & Mb & Mx & Da & Db & V)
    (pa' & pb' & px' & ma' & mb' & mx' & dax' & dbx' & Ha' & Hb' & Hx' & Ma' & Mb' & Mx' & Da' & Db' & V').
  assert (pa' = pa) as -> by (destruct Ha as [_ Ha], Ha' as [_ Ha']; congruence). assert (pb' = pb) as -> by (destruct Hb as [_ Hb], Hb' as [_ Hb']; congruence).
  assert (px' = px) as -> by (destruct Hx as [_ Hx], Hx' as [_ Hx']; congruence).
  rewrite <- (matrix_fun (ev_features E) Ma Ma') in Da'. rewrite <- (matrix_fun (ev_features E) Mb Mb') in Db'. rewrite <- (matrix_fun (ev_features E) Mx Mx') in Da', Db'.
  destruct (meant normalize) as [n|] eqn:En; [|discriminate].
  pose proof (Pipeline_same.place_in Ha) as Ia. pose proof (Pipeline_same.place_in Hb) as Ib. pose proof (Pipeline_same.place_in Hx) as Ix.
  exact (settled_same rnd rnd' facos fover sum dot u u' ua f t w Pr Pr' M Sm Ang Cf Ht n empty empty' ma mb mx dax dbx dax' dbx' s s'
    (Hw _ _ Ia Ma) (Hw _ _ Ib Mb) (Hw _ _ Ix Mx) (Hs k a b x pa pb px ma mb mx n W D Ha Hb Hx Ma Mb Mx eq_refl) Da Db V Da' Db' V').
Qed.

Theorem rounded_same :
  forall (tm L : Type) (leq : forall x y : L, {x = y} + {x <> y}) (plain : L -> bool) (name : key -> string),
    (forall k k', name k = name k' -> k = k') ->
  forall rnd rnd' facos fover sum dot u u' ua f t w, precise rnd u -> precise rnd' u' -> (forall a b, a <= b -> rnd' a <= rnd' b) ->
    sums_rounded rnd sum dot -> accurate facos fover ua -> cosine_between f -> is_float t ->
  forall tle empty empty' T cols db (places : list (Distances.item tm)) (indexes : list (string * list L)) files normalize,
    evaluable plain T cols db places indexes files ->
    (forall p m, In p places -> matrix_of tle files p m -> frames_of w m) ->
    (forall k a b x pa pb px ma mb mx n, is_wanted T db k (a, b, x) ->
       place T db places k a pa -> place T db places k b pb -> place T db places k x px ->
       matrix_of tle files pa ma -> matrix_of tle files pb mb -> matrix_of tle files px mx -> meant normalize = Some n ->
       settled u' (angle_error ua u w) f n ma mb mx) ->
  forall lines lines',
    evaluated leq plain name tle Invariance_spec.below (exact_on t w empty) T cols db places indexes files normalize lines ->
    evaluated leq plain name tle machine_less (machine_on rnd rnd' facos fover sum dot t w empty') T cols db places indexes files normalize lines' ->
    same_lines lines lines' /\ forall k, Forall2 (@line_same L) (of_by (name k) lines) (of_by (name k) lines').
Proof.
  intros tm L leq plain name name_inj rnd rnd' facos fover sum dot u u' ua f t w Pr Pr' M Sm Ang Cf Ht tle empty empty' T cols db places indexes files
    normalize E Hw Hs lines lines' R R'.
  destruct (@rounded_near tm L leq plain name name_inj rnd rnd' facos fover sum dot u u' ua f t w Pr Pr' M Sm Ang Cf Ht tle empty empty' T cols db places indexes files
    normalize (fun _ _ => false) E Hw (fun k a b x pa pb px ma mb mx n W _ => Hs k a b x pa pb px ma mb mx n W) lines lines' R R') as [B (m & P & W)].
  split.
  - exists m. split; [exact P|]. clear - W. induction W as [|? ? ? ? [k H] W IH]; constructor; [eapply none_doubtful, H|exact IH].
  - intros k. specialize (B k). clear - B. induction B; constructor; [eapply none_doubtful; eassumption|assumption].
Qed.
