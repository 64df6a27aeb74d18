(** Without rounding, the default distance is that of the model with real numbers. *)
From Coq Require Import Reals List Arith Lia Lra Bool.
From Verif Require Import Prelude Metrics Metrics_spec Dtw Dtw_proofs DefaultDistance DefaultDistance_spec NotFinite_proofs Invariance_proofs.
From Verif Require Import FloatDistance FloatDistance_spec.
Import ListNotations.
Local Open Scope R_scope.

Lemma trace_longer C leb (cost : costs C) : forall fuel i j n r, trace_back leb fuel cost i j n = Ok r -> (n <= snd r)%nat.
Proof.
  induction fuel as [|fuel IH]; intros [|i] [|j] n r E; cbn [trace_back] in E; try (injection E as <-; cbn; lia); try discriminate.
  destruct (leb (cost i j) (cost (S i) j) && leb (cost i j) (cost i (S j))); [apply IH in E; lia|].
  destruct (leb (cost (S i) j) (cost i (S j))); apply IH in E; lia.
Qed.

Lemma dtw_divn C F (add : C -> C -> C) leb divn divn' (x y : list F) metric normalized empty :
  (forall c n, (0 < n)%nat -> divn c n = divn' c n) ->
  dtw add leb divn x y metric normalized empty = dtw add leb divn' x y metric normalized empty.
Proof.
  intros H. unfold dtw. destruct ((length x =? 0)%nat || (length y =? 0)%nat); [reflexivity|]. destruct (metric x y) as [d|]; [|reflexivity]. cbn [bind].
  unfold dtw_costs. destruct (fill add leb (length x) (length y) d empty) as [c|]; [|reflexivity]. cbn [bind]. destruct normalized; [|reflexivity].
  destruct (trace_back leb (length x + length y) c (length x - 1) (length y - 1) 1) as [[[i j] n]|] eqn:E; [|reflexivity].
  apply trace_longer in E. cbn [snd] in E. cbn [bind]. rewrite H; [reflexivity|]. destruct (i =? 0)%nat, (j =? 0)%nat; lia.
Qed.

Section Exact.
Local Notation A := (rounded (fun a => a) acos (fun a => a / PI) nsum Metrics.dot).

Lemma exact_length r : length_of A r = nrm r.
Proof.
  transitivity (nsqrt (nsum (map (fun v => lift2 (fun a b => a * b) v v) r))); [reflexivity|].
  assert (E : map (fun v => lift2 (fun a b => a * b) v v) r = map (lift1 (fun v => v ^ 2)) r).
  { apply map_ext. intros [v|]; [|reflexivity]. cbn [lift1 lift2]. f_equal. ring. }
  rewrite E. reflexivity.
Qed.

Lemma exact_angle r s : angle A r s = cell r s.
Proof.
  unfold angle, cell. rewrite !exact_length. cbn [rounded mul div arccos over_pi zero one equal_0 FloatDistance.dot].
  change (lift2 (fun a b => a * b) (nrm r) (nrm s)) with (lift2 Rmult (nrm r) (nrm s)).
  destruct (is_zero (nrm r)), (is_zero (nrm s)); cbn [andb]; reflexivity.
Qed.

Lemma exact_cosine x y : FloatDistance.cosine_distance A (mk_frames (m_type x) (m_cols x) (m_rows x)) (mk_frames (m_type y) (m_cols y) (m_rows y))
  = Metrics.cosine_distance x y.
Proof.
  rewrite cosine_form. unfold FloatDistance.cosine_distance. cbn [f_cols f_rows].
  change (FloatDistance.same_float (mk_frames (m_type x) (m_cols x) (m_rows x)) (mk_frames (m_type y) (m_cols y) (m_rows y))) with (Metrics.same_float x y).
  change (m_cols x =? m_cols y)%nat with (same_cols x y).
  assert (E : map (fun r => map (angle A r) (m_rows y)) (m_rows x) = outer cell (m_rows x) (m_rows y)).
  { unfold outer. apply map_ext. intros r. apply map_ext. intros s. apply exact_angle. }
  rewrite E. reflexivity.
Qed.
End Exact.

Lemma exact_distance empty t w xs t' w' ys normalized :
  machine_distance (fun a => a) (fun a => a) acos (fun a => a / PI) nsum Metrics.dot empty (mk_frames t w xs) (mk_frames t' w' ys) normalized
  = match DefaultDistance.default_distance empty (mk_mat t w xs) (mk_mat t' w' ys) normalized with
    | Ok (Value v) => Ok (Number v)
    | Ok Infinite => Ok (Infinity _)
    | Err e => Err e
    end.
Proof.
  unfold machine_distance, FloatDistance.default_distance, DefaultDistance.default_distance.
  change (f_rows (mk_frames t w xs)) with xs. change (f_rows (mk_frames t' w' ys)) with ys. unfold DefaultDistance.frames. cbn [m_rows]. unfold num in *.
  destruct ((0 <? length xs)%nat && (0 <? length ys)%nat).
  2:{ destruct (length xs =? length ys)%nat; reflexivity. }
  pose proof (exact_cosine (mk_mat t w xs) (mk_mat t' w' ys)) as E. cbn [m_type m_cols m_rows] in E. unfold num in *. rewrite E. destruct (Metrics.cosine_distance (mk_mat t w xs) (mk_mat t' w' ys)) as [d|]; [|reflexivity]. cbn [bind].
  unfold warped. cbn [m_rows]. rewrite (dtw_divn _ _ _ _ (rdivn (fun a => a)) ndivn).
  2:{ intros c n Hn. unfold rdivn, ndivn, ndiv. destruct (Req_EM_T (INR n) 0) as [E0|_]; [|destruct c; reflexivity].
      apply lt_INR in Hn. cbn in Hn. lra. }
  change (radd (fun a => a)) with (lift2 Rplus).
  match goal with |- bind ?w _ = match bind ?w1 _ with _ => _ end => change w1 with w; destruct w; reflexivity end.
Qed.

(** ** When the distance fails, in any arithmetic *)
Section Failures.
Variable F : Type.
Variable A : arithmetic F.
Variables (add : F -> F -> F) (leb : F -> F -> bool) (divn : F -> nat -> F) (empty : costs F).
Variables x y : frames F.
Variable normalized : bool.
Local Notation distance := (FloatDistance.default_distance A add leb divn empty x y normalized).

Lemma float_empty : (f_rows x = [] -> f_rows y = [] -> distance = Ok (Number (zero A))) /\
  (f_rows x = [] -> f_rows y <> [] -> distance = Ok (Infinity F)) /\ (f_rows x <> [] -> f_rows y = [] -> distance = Ok (Infinity F)).
Proof.
  unfold FloatDistance.default_distance. destruct (f_rows x) as [|r xr], (f_rows y) as [|s yr]; repeat split; intros; try congruence; reflexivity.
Qed.

Lemma float_types : f_rows x <> [] -> f_rows y <> [] -> ~ (is_float (f_type x) /\ f_type x = f_type y) -> distance = Err AssertionError.
Proof.
  intros Nx Ny H. unfold FloatDistance.default_distance, FloatDistance.cosine_distance.
  destruct (f_rows x) as [|r xr]; [congruence|]. destruct (f_rows y) as [|s yr]; [congruence|]. cbn [length Nat.ltb Nat.leb andb].
  assert (S : FloatDistance.same_float x y = false).
  { unfold FloatDistance.same_float. unfold is_float in H. destruct (f_type x), (f_type y); try reflexivity; exfalso; apply H; split; auto. }
  rewrite S. reflexivity.
Qed.

Lemma float_same : is_float (f_type x) -> f_type x = f_type y -> FloatDistance.same_float x y = true.
Proof. intros Hf Ht. unfold FloatDistance.same_float. rewrite <- Ht. destruct Hf as [-> | ->]; reflexivity. Qed.

Lemma float_widths : f_rows x <> [] -> f_rows y <> [] -> is_float (f_type x) -> f_type x = f_type y -> f_cols x <> f_cols y -> distance = Err ValueError.
Proof.
  intros Nx Ny Hf Ht Hc. unfold FloatDistance.default_distance, FloatDistance.cosine_distance. rewrite (float_same Hf Ht).
  destruct (f_rows x) as [|r xr]; [congruence|]. destruct (f_rows y) as [|s yr]; [congruence|]. cbn [length Nat.ltb Nat.leb andb].
  apply Nat.eqb_neq in Hc. rewrite Hc. reflexivity.
Qed.

Lemma float_angles : f_rows x <> [] -> f_rows y <> [] -> is_float (f_type x) -> f_type x = f_type y -> f_cols x = f_cols y ->
  ((exists r s, In r (f_rows x) /\ In s (f_rows y) /\ at_least_0 A (angle A r s) = false) -> distance = Err AssertionError) /\
  ((forall r s, In r (f_rows x) -> In s (f_rows y) -> at_least_0 A (angle A r s) = true) -> exists v, distance = Ok (Number v)).
Proof.
  intros Nx Ny Hf Ht Hc. unfold FloatDistance.default_distance, FloatDistance.cosine_distance. rewrite (float_same Hf Ht), Hc, Nat.eqb_refl.
  set (d := map (fun r => map (angle A r) (f_rows y)) (f_rows x)).
  assert (Lx : (0 < length (f_rows x))%nat) by (destruct (f_rows x); [congruence|cbn; lia]). assert (Ly : (0 < length (f_rows y))%nat) by (destruct (f_rows y); [congruence|cbn; lia]).
  rewrite (proj2 (Nat.ltb_lt _ _) Lx), (proj2 (Nat.ltb_lt _ _) Ly). cbn [andb]. split.
  - intros (r & s & Ir & Is & N). assert (E : forallb (forallb (at_least_0 A)) d = false).
    { apply not_true_is_false. intros T. rewrite forallb_forall in T. specialize (T (map (angle A r) (f_rows y)) (in_map _ _ _ Ir)).
      rewrite forallb_forall in T. rewrite (T _ (in_map (angle A r) _ _ Is)) in N. discriminate. }
    rewrite E. reflexivity.
  - intros H. assert (E : forallb (forallb (at_least_0 A)) d = true).
    { apply forallb_forall. intros row Hr. apply in_map_iff in Hr. destruct Hr as (r & <- & Ir). apply forallb_forall. intros v Hv.
      apply in_map_iff in Hv. destruct Hv as (s & <- & Is). apply H; assumption. }
    rewrite E. cbn [bind]. unfold dtw. rewrite (proj2 (Nat.eqb_neq (length (f_rows x)) 0)), (proj2 (Nat.eqb_neq (length (f_rows y)) 0)) by lia. cbn [orb bind].
    unfold dtw_costs. destruct (fill_ok _ add leb divn (zero A) (length (f_rows x)) (length (f_rows y)) d empty) as (c & -> & _); [|exact Lx|exact Ly|].
    { split; [apply map_length|]. intros row Hr. apply in_map_iff in Hr. destruct Hr as (r & <- & _). apply map_length. }
    cbn [bind]. destruct normalized; [|eexists; reflexivity].
    destruct (trace_back_ends _ leb c (length (f_rows x) + length (f_rows y)) (length (f_rows x) - 1) (length (f_rows y) - 1) 1) as [[[i j] l] ->]; [lia|]. eexists. reflexivity.
Qed.
End Failures.
