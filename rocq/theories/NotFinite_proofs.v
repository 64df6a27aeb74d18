(** Distances of items with values that are not finite numbers. *)
From Coq Require Import Reals List Arith Lia Lra Bool.
From Verif Require Import Prelude Metrics Metrics_spec Metrics_proofs Metrics_cosine
  Metrics_heap
  Dtw Dtw_spec Dtw_proofs Dtw_hom DefaultDistance DefaultDistance_spec DefaultDistance_proofs NotFinite_spec.
Import ListNotations.
Local Open Scope R_scope.

(** ** Dynamic time warping *)

Section Warp.
Variable d : nat -> nat -> num.
Local Notation T := (table num (lift2 Rplus) nle d).

Lemma plus_none a : lift2 Rplus a None = None.
Proof. destruct a; reflexivity. Qed.

Lemma least_none a b c : a = None -> b = None -> c = None -> min3 nle a b c = None.
Proof. intros -> -> ->. reflexivity. Qed.

Lemma row_none i : (forall j, d i j = None) -> forall i' j, (i <= i')%nat -> T i' j = None.
Proof.
  intros H. assert (H0 : forall j, T i j = None).
  { intros j. destruct i as [|i0], j as [|j]; [rewrite table_00|rewrite table_0S|rewrite table_S0|rewrite table_SS]; rewrite H; reflexivity. }
  induction i' as [|i' IH]; intros j Hi.
  - replace 0%nat with i by lia. apply H0.
  - destruct (Nat.eq_dec i (S i')) as [<-|N]; [apply H0|].
    induction j as [|j IHj].
    + rewrite table_S0, IH by lia. apply plus_none.
    + rewrite table_SS, least_none by (try apply IH; auto; lia). apply plus_none.
Qed.

Lemma col_none j : (forall i, d i j = None) -> forall j' i, (j <= j')%nat -> T i j' = None.
Proof.
  intros H. assert (H0 : forall i, T i j = None).
  { intros i. destruct i as [|i0], j as [|j]; [rewrite table_00|rewrite table_0S|rewrite table_S0|rewrite table_SS]; rewrite H; reflexivity. }
  induction j' as [|j' IH]; intros i Hj.
  - replace 0%nat with j by lia. apply H0.
  - destruct (Nat.eq_dec j (S j')) as [<-|N]; [apply H0|].
    induction i as [|i IHi].
    + rewrite table_0S, IH by lia. apply plus_none.
    + rewrite table_SS, least_none by (try apply IH; auto; lia). apply plus_none.
Qed.
End Warp.

Lemma trace_back_ends C (leb : C -> C -> bool) cost : forall fuel i j l, (i + j <= fuel)%nat ->
  exists r, trace_back leb fuel cost i j l = Ok r.
Proof.
  induction fuel as [|n IH]; intros [|i] [|j] l H; cbn; try (eexists; reflexivity); try lia.
  destruct (_ && _); [apply IH; lia|]. destruct (leb _ _); apply IH; lia.
Qed.

Lemma ndivn_none n : ndivn None n = None.
Proof. unfold ndivn, ndiv. destruct (Req_EM_T _ _); reflexivity. Qed.

Lemma costs_none N M (dist : list (list num)) normalized empty : (0 < N)%nat -> (0 < M)%nat -> shape N M dist ->
  (exists i, (i < N)%nat /\ forall j, (j < M)%nat -> @Dtw_spec.entry num None dist i j = None) \/
  (exists j, (j < M)%nat /\ forall i, (i < N)%nat -> @Dtw_spec.entry num None dist i j = None) ->
  dtw_costs (lift2 Rplus) nle ndivn N M dist normalized empty = Ok None.
Proof.
  intros HN HM Hs H. unfold dtw_costs. destruct (fill_ok _ (lift2 Rplus) nle ndivn None _ _ _ empty Hs HN HM) as (c & -> & Hc).
  cbn [bind]. assert (E : c (N - 1)%nat (M - 1)%nat = None).
  { rewrite Hc by lia. destruct H as [(i & Hi & H)|(j & Hj & H)].
    - apply (row_none _ i); [|lia]. intros j. destruct (Nat.lt_ge_cases j M) as [L|L]; [apply H, L|].
      unfold Dtw_spec.entry. apply nth_overflow. destruct Hs as [L1 W]. rewrite (W (nth i dist [])); [exact L|]. apply nth_In. change (i < length dist)%nat. rewrite L1. exact Hi.
    - apply (col_none _ j); [|lia]. intros i. destruct (Nat.lt_ge_cases i N) as [L|L]; [apply H, L|].
      unfold Dtw_spec.entry. destruct Hs as [L1 W]. rewrite (nth_overflow dist [] (n := i)) by (rewrite L1; exact L). destruct j; reflexivity. }
  destruct normalized; [|rewrite E; reflexivity].
  destruct (trace_back_ends _ nle c (N + M) (N - 1) (M - 1) 1) as [[[i j] l] ->]; [lia|]. cbn [bind]. rewrite E, ndivn_none. reflexivity.
Qed.

(** ** The cosine *)

Definition nrm (r : list num) : num := nsqrt (nsum (map (lift1 (fun v => v ^ 2)) r)).
Definition cell (r s : list num) : num :=
  if is_zero (nrm r) && is_zero (nrm s) then Some 0
  else if is_zero (nrm s) then Some 1
  else if is_zero (nrm r) then Some 1
  else lift1 (fun a => a / PI) (narccos (ndiv (dot r s) (lift2 Rmult (nrm r) (nrm s)))).

Lemma cosine_cells x y : comparable x y ->
  cosine_distance x y = (assert! forallb (forallb is_nonneg) (outer cell (m_rows x) (m_rows y)) else AssertionError ;;
                         Ok (outer cell (m_rows x) (m_rows y))).
Proof.
  intros [Hf Ht Hc _ _]. unfold cosine_distance, same_float, same_cols. rewrite Ht, Hc, Nat.eqb_refl.
  assert (match m_type x, m_type x with Float64, Float64 => true | Float32, Float32 => true | _, _ => false end = true) as ->
    by (destruct Hf as [-> | ->]; reflexivity).
  cbn [bind]. cbv zeta. fold nrm. rewrite outer_map, mmap2_outer, mmap_outer. rewrite !map_map.
  rewrite (mimap_outer _ _ (fun a b v => if a then Some 1 else v) _ (fun r => is_zero (nrm r)) (fun r => is_zero (nrm r))).
  rewrite (mimap_outer _ _ (fun a b v => if b then Some 1 else v) _ (fun r => is_zero (nrm r)) (fun r => is_zero (nrm r))).
  rewrite (mimap_outer _ _ (fun a b v => if a && b then Some 0 else v) _ (fun r => is_zero (nrm r)) (fun r => is_zero (nrm r))). reflexivity.
Qed.

Lemma nsum_missing l : In None l -> nsum l = None.
Proof.
  unfold nsum. induction l as [|v l IH]; cbn; [tauto|]. intros [->|H]; [reflexivity|]. rewrite (IH H). destruct v; reflexivity.
Qed.

Lemma nrm_missing r : missing r -> nrm r = None.
Proof.
  intros H. unfold nrm. rewrite nsum_missing; [reflexivity|]. apply in_map_iff. exists None. split; [reflexivity|exact H].
Qed.

Lemma finite_frame r : missing r \/ exists f : frame, r = map Some f.
Proof.
  induction r as [|[v|] r [H|[f ->]]].
  - right. exists []. reflexivity.
  - left. right. exact H.
  - right. exists (v :: f). reflexivity.
  - left. left. reflexivity.
  - left. left. reflexivity.
Qed.

Lemma nrm_some f : nrm (map Some f) = Some (norm f).
Proof.
  unfold nrm. apply norm_some.
Qed.

Lemma all_zero_some f : all_zero (map Some f) <-> zero_frame f.
Proof.
  unfold all_zero, zero_frame. rewrite !Forall_forall. split.
  - intros H v Hv. apply (in_map Some), H in Hv. congruence.
  - intros H v Hv. apply in_map_iff in Hv as (a & <- & Ha). f_equal. apply H, Ha.
Qed.

Lemma is_zero_nrm r : is_zero (nrm r) = true <-> all_zero r.
Proof.
  destruct (finite_frame r) as [H|[f ->]].
  - rewrite (nrm_missing r H). split; [discriminate|]. intros Z. unfold all_zero in Z. rewrite Forall_forall in Z. apply Z in H. discriminate.
  - rewrite nrm_some, all_zero_some, <- norm_zero_iff. cbn. destruct (Req_EM_T (norm f) 0); split; auto; discriminate.
Qed.

Lemma cell_clash r s : clash r s -> cell r s = None.
Proof.
  intros H. unfold cell.
  assert (Z : forall t, missing t -> is_zero (nrm t) = false) by (intros t Ht; rewrite (nrm_missing t Ht); reflexivity).
  assert (N : forall t, ~ all_zero t -> is_zero (nrm t) = false)
    by (intros t Ht; destruct (is_zero (nrm t)) eqn:E; [apply is_zero_nrm in E; contradiction|reflexivity]).
  destruct H as [[H1 H2]|[H1 H2]]; rewrite (Z _ H1), (N _ H2); cbn; rewrite (nrm_missing _ H1).
  - reflexivity.
  - replace (lift2 Rmult (nrm r) None) with (@None R) by (destruct (nrm r); reflexivity). reflexivity.
Qed.

Lemma cell_fine r s : ~ clash r s -> exists v, cell r s = Some v /\ 0 <= v.
Proof.
  intros H. unfold cell. destruct (is_zero (nrm r)) eqn:Er, (is_zero (nrm s)) eqn:Es; cbn [andb].
  - exists 0. split; [reflexivity|lra].
  - exists 1. split; [reflexivity|lra].
  - exists 1. split; [reflexivity|lra].
  - destruct (finite_frame r) as [Mr|[f ->]].
    { exfalso. apply H. left. split; [exact Mr|]. intros Z. apply is_zero_nrm in Z. congruence. }
    destruct (finite_frame s) as [Ms|[g ->]].
    { exfalso. apply H. right. split; [exact Ms|]. intros Z. apply is_zero_nrm in Z. congruence. }
    rewrite !nrm_some in *. rewrite dot_some. cbn [lift2]. cbn in Er, Es.
    destruct (Req_EM_T (norm f) 0) as [|Nf]; [discriminate|]. destruct (Req_EM_T (norm g) 0) as [|Ng]; [discriminate|].
    rewrite ndiv_some by (apply Rmult_integral_contrapositive; split; assumption). cbn. eexists. split; [reflexivity|].
    pose proof (acos_bound (inner f g / (norm f * norm g))) as [A _]. pose proof PI_RGT_0. unfold Rdiv at 1.
    apply Rmult_le_pos; [exact A|]. apply Rlt_le, Rinv_0_lt_compat. assumption.
Qed.

Lemma comparable_frames x y : comparable x y -> (0 <? frames x)%nat && (0 <? frames y)%nat = true.
Proof.
  intros [_ _ _ Hx Hy]. unfold frames. destruct (m_rows x); [congruence|]. destruct (m_rows y); [congruence|]. reflexivity.
Qed.

Lemma comparable_lengths x y : comparable x y -> (0 < length (m_rows x))%nat /\ (0 < length (m_rows y))%nat.
Proof.
  intros [_ _ _ Hx Hy]. destruct (m_rows x); [congruence|]. destruct (m_rows y); [congruence|]. cbn. lia.
Qed.

Lemma warped_costs x y dist normalized empty : comparable x y ->
  warped x y dist normalized empty
  = dtw_costs (lift2 Rplus) nle ndivn (length (m_rows x)) (length (m_rows y)) dist normalized empty.
Proof.
  intros H. destruct (comparable_lengths x y H). unfold warped, dtw. rewrite !(proj2 (Nat.eqb_neq _ 0)) by lia. reflexivity.
Qed.

Lemma outer_shape A B (g : A -> B -> num) us vs : shape (length us) (length vs) (outer g us vs).
Proof.
  split; [apply map_length|]. intros row Hr. apply in_map_iff in Hr. destruct Hr as (x & <- & _). apply map_length.
Qed.

Lemma outer_entry A B (g : A -> B -> num) us vs i j u v : nth_error us i = Some u -> nth_error vs j = Some v ->
  @Dtw_spec.entry num None (outer g us vs) i j = g u v.
Proof.
  intros Hu Hv. unfold Dtw_spec.entry, outer.
  apply (map_nth_error (fun x => map (fun y => g x y) vs)) in Hu. refine (eq_trans (f_equal (fun l => nth j l None) (nth_error_nth _ _ [] Hu)) _).
  apply (map_nth_error (fun y => g u y)) in Hv. exact (nth_error_nth _ _ None Hv).
Qed.

Theorem default_clash empty x y normalized : comparable x y ->
  (exists r s, In r (m_rows x) /\ In s (m_rows y) /\ clash r s) ->
  default_distance empty x y normalized = Err AssertionError.
Proof.
  intros C (r & s & Hr & Hs & H). unfold default_distance. rewrite (comparable_frames x y C), (cosine_cells x y C).
  assert (forallb (forallb is_nonneg) (outer cell (m_rows x) (m_rows y)) = false) as ->; [|reflexivity].
  apply not_true_is_false. intros F. rewrite forallb_forall in F.
  assert (I : In (map (fun s => cell r s) (m_rows y)) (outer cell (m_rows x) (m_rows y))) by (apply in_map_iff; eauto).
  apply F in I. rewrite forallb_forall in I. assert (J : In (cell r s) (map (fun s => cell r s) (m_rows y))) by (apply in_map; exact Hs).
  apply I in J. rewrite (cell_clash r s H) in J. discriminate.
Qed.

Lemma nth_number z (l : list num) : forall j, (j < length l)%nat -> nth j l None <> None ->
  nth j l (Some z) = Some (match nth j l (Some z) with Some a => a | None => z end).
Proof.
  induction l as [|v l IH]; intros [|j] L H; cbn in *; try lia.
  - destruct v; congruence.
  - apply IH; [lia|exact H].
Qed.

Lemma fill_numbers (z : R) N M (dist : list (list num)) normalized empty : (0 < N)%nat -> (0 < M)%nat -> shape N M dist ->
  (forall i j, (i < N)%nat -> (j < M)%nat -> @Dtw_spec.entry num None dist i j <> None) ->
  exists v, dtw_costs (lift2 Rplus) nle ndivn N M dist normalized empty = Ok (Some v).
Proof.
  intros HN HM Hs H. set (val := fun v : num => match v with Some a => a | None => z end).
  set (dr := map (map val) dist).
  assert (Hs' : shape N M dr).
  { destruct Hs as [L W]. split; [unfold dr; rewrite map_length; exact L|]. intros row Hr. apply in_map_iff in Hr as (r & <- & Hr).
    rewrite map_length. apply W, Hr. }
  assert (Hz : forall i j, (i < N)%nat -> (j < M)%nat -> @Dtw_spec.entry num (Some z) dist i j = Some (Dtw_spec.entry z dr i j)).
  { intros i j Hi Hj. specialize (H i j Hi Hj). unfold Dtw_spec.entry in *. unfold dr.
    change (@nil R) with (map val []). rewrite map_nth. change z with (val (Some z)) at 2. rewrite map_nth.
    destruct Hs as [L W]. assert (Lj : (j < length (nth i dist []))%nat) by (rewrite W; [exact Hj|apply nth_In; lia]).
    exact (nth_number z (nth i dist []) j Lj H). }
  rewrite (dtw_costs_hom Rplus rleb rdivn (lift2 Rplus) nle ndivn (@Some R)) with (z := z) (dist := dr) (empty := fun _ _ => 0); auto.
  - destruct (dtw_costs Rplus rleb rdivn N M dr normalized (fun _ _ => 0)) as [v|e] eqn:E; [exists v; reflexivity|]. exfalso.
    unfold dtw_costs in E. destruct (fill_ok _ Rplus rleb rdivn z _ _ _ (fun _ _ => 0) Hs' HN HM) as (c & Ec & _).
    rewrite Ec in E. cbn [bind] in E. destruct normalized; [|discriminate].
    destruct (trace_back_ends _ rleb c (N + M) (N - 1) (M - 1) 1) as [[[i j] l] Et]; [lia|]. rewrite Et in E. discriminate.
  - intros a n Hn. unfold ndivn, ndiv, rdivn. destruct (Req_EM_T (INR n) 0) as [Z|_]; [|reflexivity].
    exfalso. apply not_0_INR in Hn. contradiction.
Qed.

Lemma in_nth A (l : list A) i : (i < length l)%nat -> exists a, nth_error l i = Some a /\ In a l.
Proof.
  intros H. destruct (nth_error l i) as [a|] eqn:E; [|apply nth_error_None in E; lia]. exists a. split; [reflexivity|].
  eapply nth_error_In, E.
Qed.

Theorem default_number empty x y normalized : comparable x y ->
  ~ (exists r s, In r (m_rows x) /\ In s (m_rows y) /\ clash r s) ->
  exists v, default_distance empty x y normalized = Ok (Value (Some v)).
Proof.
  intros C H. unfold default_distance. rewrite (comparable_frames x y C), (cosine_cells x y C).
  assert (K : forall r s, In r (m_rows x) -> In s (m_rows y) -> exists v, cell r s = Some v /\ 0 <= v).
  { intros r s Hr Hs. apply cell_fine. intros Hc. apply H. eauto. }
  rewrite forallb_outer.
  2:{ intros r s Hr Hs. destruct (K r s Hr Hs) as (v & -> & Hv). cbn. destruct (Rle_dec 0 v); [reflexivity|contradiction]. }
  cbn [bind]. rewrite (warped_costs x y _ normalized empty C). destruct (comparable_lengths x y C) as [Lx Ly].
  destruct (fill_numbers 0 (length (m_rows x)) (length (m_rows y)) (outer cell (m_rows x) (m_rows y)) normalized empty Lx Ly) as (v & ->).
  - apply outer_shape.
  - intros i j Hi Hj. destruct (in_nth _ _ i Hi) as (r & Er & Ir). destruct (in_nth _ _ j Hj) as (s & Es & Is).
    rewrite (outer_entry _ _ cell _ _ i j r s Er Es). destruct (K r s Ir Is) as (v & -> & _). discriminate.
  - exists v. reflexivity.
Qed.

(** ** The Kullback-Leibler divergence *)

(** The frames of which all the values have become "not a number". *)
Definition dead (r : list num) : Prop := r <> [] /\ Forall (fun v => v = None) r.

Lemma ndiv_none v : ndiv v None = None.
Proof. destruct v; reflexivity. Qed.

Lemma ndiv_zero v : ndiv v (Some 0) = None.
Proof. unfold ndiv. destruct (Req_EM_T 0 0) as [|N]; [destruct v; reflexivity|]. exfalso. apply N. reflexivity. Qed.

Lemma dead_missing r : dead r -> missing r.
Proof. intros [N H]. destruct r as [|v r]; [congruence|]. left. inversion H; subst. reflexivity. Qed.

Lemma normalise_dead r : r <> [] -> missing r \/ sums_to_zero r -> dead (normalise_row r).
Proof.
  intros N H. split.
  - unfold normalise_row. destruct r; [congruence|discriminate].
  - unfold normalise_row. apply Forall_forall. intros v Hv. apply in_map_iff in Hv as (a & <- & _).
    destruct H as [H|(f & -> & Z)].
    + rewrite nsum_missing by exact H. apply ndiv_none.
    + rewrite nsum_some. rewrite Z. apply ndiv_zero.
Qed.

Lemma map_dead g r : (forall v, v = None -> g v = None) -> dead r -> dead (map g r).
Proof.
  intros G [N H]. split; [destruct r; [congruence|discriminate]|]. rewrite Forall_map. eapply Forall_impl; [|exact H]. exact G.
Qed.

Definition kl_cell (r s : list num) : num :=
  lift2 Rminus (nsum (map2 (lift2 Rmult) r (map nlog r))) (dot r (map nlog s)).

Lemma kl_cell_dead r s : dead r -> kl_cell r s = None.
Proof.
  intros [N H]. unfold kl_cell. destruct r as [|v r]; [congruence|]. inversion H; subst. reflexivity.
Qed.

Lemma lift1_none f a : a = None -> lift1 f a = None.
Proof. intros ->. reflexivity. Qed.

Lemma smooth_dead m a : (exists r, nth_error (m_rows m) a = Some r /\ dead r) ->
  exists r, nth_error (m_rows (smooth m)) a = Some r /\ dead r.
Proof.
  intros (r & E & D). unfold smooth, normalise. cbn [m_rows]. do 2 (rewrite nth_error_map). rewrite E. cbn [option_map].
  eexists. split; [reflexivity|].
  assert (D' : dead (map (lift1 (fun v => v + eps (m_type m))) r)) by (apply map_dead; [intros v ->; reflexivity|exact D]).
  apply normalise_dead; [apply D'|]. left. apply dead_missing, D'.
Qed.

Lemma normal_dead m a : (exists r, nth_error (m_rows m) a = Some r /\ r <> [] /\ (missing r \/ sums_to_zero r)) ->
  exists r, nth_error (m_rows (normalise m)) a = Some r /\ dead r.
Proof.
  intros (r & E & N & D). unfold normalise. cbn [m_rows]. rewrite nth_error_map, E. cbn [option_map].
  eexists. split; [reflexivity|]. apply normalise_dead; assumption.
Qed.

Lemma smooth_length m : length (m_rows (smooth (normalise m))) = length (m_rows m).
Proof. unfold smooth, normalise. cbn [m_rows]. rewrite !map_length. reflexivity. Qed.

Theorem kl_none empty h i j x y normalized : nth_error h i = Some x -> nth_error h j = Some y -> comparable x y ->
  (exists r, In r (m_rows x ++ m_rows y) /\ r <> [] /\ (missing r \/ sums_to_zero r)) ->
  exists h', dtw_kl_distance empty h i j normalized = Ok (h', Value None).
Proof.
  intros Ei Ej C (r & Hr & Nr & B). unfold dtw_kl_distance. rewrite (nth_res_some _ _ _ _ Ei), (nth_res_some _ _ _ _ Ej). cbn [bind].
  rewrite (comparable_frames x y C). unfold kl_divergence. rewrite (nth_res_some _ _ _ _ Ei), (nth_res_some _ _ _ _ Ej). cbn [bind].
  assert (same_float x y = true) as ->.
  { unfold same_float. rewrite (cp_type x y C). destruct (cp_float x y C) as [-> | ->]; reflexivity. }
  assert (Tx : m_type x <> Integer) by (destruct (cp_float x y C) as [-> | ->]; discriminate).
  assert (Ty : m_type y <> Integer) by (rewrite (cp_type x y C); exact Tx).
  destruct (normalise_both h i j x y Ei Ej Tx Ty) as (h0 & h1 & E0 & E1 & R1 & R2 & _).
  cbn [bind]. rewrite E0. cbn [bind]. rewrite E1. cbn [bind]. rewrite R1. cbn [bind]. rewrite R2. cbn [bind].
  assert (same_cols (normalise x) (normalise y) = true) as ->.
  { unfold same_cols, normalise. cbn [m_cols]. rewrite (cp_cols x y C). apply Nat.eqb_refl. }
  cbv iota. cbn [bind fst snd].
  set (xr := m_rows (smooth (normalise x))). set (yr := m_rows (smooth (normalise y))).
  unfold kl_matrix. rewrite !mmap2_outer, transpose_outer, !mmap_outer, mmap2_outer.
  rewrite (warped_costs x y _ normalized empty C). destruct (comparable_lengths x y C) as [Lx Ly].
  rewrite costs_none; [exists h1; reflexivity|exact Lx|exact Ly| |].
  - rewrite <- (smooth_length x), <- (smooth_length y). apply outer_shape.
  - apply in_app_or in Hr. destruct Hr as [Hr|Hr]; [left|right]; apply In_nth_error in Hr; destruct Hr as (a & Ea).
    + exists a. split; [apply nth_error_Some; congruence|]. intros b Hb.
      destruct (smooth_dead _ _ (normal_dead x a (ex_intro _ r (conj Ea (conj Nr B))))) as (r' & Er & D).
      rewrite <- (smooth_length y) in Hb. destruct (in_nth _ _ b Hb) as (s & Es & _).
      rewrite (outer_entry _ _ _ xr yr a b r' s Er Es). fold (kl_cell r' s) (kl_cell s r').
      rewrite (kl_cell_dead r' s D). reflexivity.
    + exists a. split; [apply nth_error_Some; congruence|]. intros b Hb.
      destruct (smooth_dead _ _ (normal_dead y a (ex_intro _ r (conj Ea (conj Nr B))))) as (r' & Er & D).
      rewrite <- (smooth_length x) in Hb. destruct (in_nth _ _ b Hb) as (s & Es & _).
      rewrite (outer_entry _ _ _ xr yr b a s r' Es Er). fold (kl_cell s r') (kl_cell r' s).
      rewrite (kl_cell_dead r' s D). apply plus_none.
Qed.
