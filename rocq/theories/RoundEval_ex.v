(** Whole evaluations with real numbers and with rounded numbers, for the examples of Props_RoundEval.v. *)
From Coq Require Import Ascii String.
From Coq Require Import List ZArith QArith Qreals Reals Lra Lia Permutation Bool.
From Verif Require Import Prelude ListFacts TypeFitting Sampler Sampler_proofs Task Task_spec Task_sort Task_proofs Task_main Task_ex Task_reg_ex
  Task_reg_spec Task_align Pairs Pairs_spec Distances Distances_spec
  Score Score_spec Score_ex Analyze Analyze_spec Rounding H5io H5io_spec H5io_use H5io_ex Pipeline Pipeline_spec Pipeline_file Pipeline_proofs
  Pipeline_ex Pipeline_same_spec Pipeline_same Pipeline_same_main Pipeline_same_ex Pipeline_map_spec Pipeline_map
  Metrics_spec Metrics Metrics_cosine Dtw Dtw_spec Dtw_hom DefaultDistance_spec DefaultDistance DefaultDistance_proofs Invariance_spec Invariance_proofs Invariance_ex Pipeline_default Pipeline_default_ex.
From Verif Require FloatDistance.
From Verif Require Import FloatDistance_spec FloatDistance_ex FloatDistance_error FloatDistance_exact RoundEval_spec RoundEval_lines RoundEval_proofs.
Import ListNotations.
Local Open Scope Z_scope.
Local Open Scope string_scope.
Local Open Scope list_scope.

(** ** The distances *)

(** Angles that are too large by a thirty-second, additions and divisions that are too large by a sixteenth. *)
Definition big_over (a : R) : R := (a / PI * (33 / 32))%R.

Lemma big_accurate : accurate acos big_over (1 / 32).
Proof.
  intros v. unfold big_over. pose proof (half_turn_range v) as H. split; [lra|].
  replace (acos v / PI * (33 / 32) - acos v / PI)%R with (acos v / PI * / 32)%R by lra. rewrite Rabs_pos_eq by lra. lra.
Qed.

Definition r_frame (z : Z) : frame := if Z.even z then [1%R; 0%R] else [0%R; 1%R].
Definition m_add (a b : Q) : Q := ((a + b) * (17 # 16))%Q.
Definition m_divn (a : Q) (n : nat) : Q := (a / inject_Z (Z.of_nat n) * (17 # 16))%Q.
Definition m_cells (xs ys : list bool) : list (list Q) := map (fun x => map (fun y => if Bool.eqb x y then 0%Q else (33 # 64)%Q) ys) xs.
Definition m_dist (n : option bool) (xs ys : list bool) : res (option Q) :=
  match n with
  | None => Err TypeError
  | Some b =>
    match xs, ys with
    | [], [] => Ok (Some 0%Q)
    | [], _ | _, [] => Ok None
    | _, _ => on_result (@Some Q) (dtw_costs m_add Qle_bool m_divn (length xs) (length ys) (m_cells xs ys) b (fun _ _ => 0%Q))
    end
  end.
Definition m_distance (n : option bool) (m m' : list Z) : res (option Q) := m_dist n (map Z.even m) (map Z.even m').
Definition m_value (q : option Q) : FloatDistance.value (option R) := match q with Some q => FloatDistance.Number (Some (Q2R q)) | None => FloatDistance.Infinity _ end.

Lemma m_less d d' : machine_less (m_value d) (m_value d') = qlt d d'.
Proof.
  destruct d as [a|], d' as [b|]; try reflexivity. cbn. destruct (Rlt_dec (Q2R a) (Q2R b)) as [H|H]; destruct (Qle_bool b a) eqn:E; try reflexivity; exfalso.
  - apply Qle_bool_iff, Qle_Rle in E. lra.
  - apply H. apply Qlt_Rlt, Qnot_le_lt. intros L. apply Qle_bool_iff in L. congruence.
Qed.

Lemma exact_frames empty n m m' : exact_on Float64 2 empty n (map r_frame m) (map r_frame m') = on_result qvalue (z_distance n m m').
Proof.
  unfold exact_on. rewrite <- (z_frame_distance empty). rewrite !map_map. unfold default_on.
  assert (E : forall l, map (fun z => map Some (r_frame z)) l = map z_frame l).
  { intros l. apply map_ext. intros z. unfold r_frame, z_frame, unit. destruct (Z.even z); reflexivity. }
  rewrite !E. reflexivity.
Qed.

Local Notation A := (rounded (fun a => a) acos big_over nsum Metrics.dot).

Lemma big_angle z z' : FloatDistance.angle A (map Some (r_frame z)) (map Some (r_frame z')) =
  qn (if Bool.eqb (Z.even z) (Z.even z') then 0%Q else (33 # 64)%Q).
Proof.
  assert (H : forall z, FloatDistance.length_of A (map Some (r_frame z)) = Some 1%R).
  { intros x. unfold FloatDistance.length_of, r_frame. destruct (Z.even x); cbn; destruct (Rle_dec 0 _) as [_|N]; try (exfalso; apply N; lra); f_equal;
      (transitivity (sqrt 1); [f_equal; lra|apply sqrt_1]). }
  unfold FloatDistance.angle. rewrite !H. cbn [FloatDistance.equal_0 FloatDistance.dot FloatDistance.div FloatDistance.mul FloatDistance.arccos FloatDistance.over_pi rounded lift2 lift1].
  rewrite one_not_zero. cbn [andb].
  assert (D : Metrics.dot (map Some (r_frame z)) (map Some (r_frame z')) = Some (if Bool.eqb (Z.even z) (Z.even z') then 1 else 0)%R).
  { unfold r_frame. destruct (Z.even z), (Z.even z'); cbn; f_equal; lra. }
  rewrite D. destruct (Req_EM_T (1 * 1) 0); [lra|]. cbn [lift2 lift1]. unfold big_over, qn. f_equal.
  destruct (Bool.eqb (Z.even z) (Z.even z')).
  - replace (1 / (1 * 1))%R with 1%R by field. rewrite Invariance_ex.no_angle. unfold Q2R. cbn. lra.
  - replace (0 / (1 * 1))%R with 0%R by field. rewrite Invariance_ex.right_angle. unfold Q2R. cbn. lra.
Qed.

Lemma m_cells_shape xs ys : shape (length xs) (length ys) (m_cells xs ys).
Proof. split; [apply map_length|]. intros row Hr. apply in_map_iff in Hr. destruct Hr as (x & <- & _). apply map_length. Qed.

Lemma machine_frames empty n m m' :
  machine_on (fun a => a) (rnd_up (1 / 16)) acos big_over nsum Metrics.dot Float64 2 empty n (map r_frame m) (map r_frame m') = on_result m_value (m_distance n m m').
Proof.
  unfold machine_on, m_distance, m_dist. destruct n as [b|]; [|reflexivity].
  destruct m as [|z0 m0] eqn:Em, m' as [|z1 m1] eqn:Em'; try reflexivity.
  { cbn. do 3 f_equal. unfold Q2R. cbn. lra. }
  cbn [map]. rewrite <- !map_cons. rewrite <- Em, <- Em'.
  assert (Lx : (0 < length m)%nat) by (rewrite Em; cbn; lia). assert (Ly : (0 < length m')%nat) by (rewrite Em'; cbn; lia).
  clear Em Em' z0 m0 z1 m1. unfold machine_distance, FloatDistance.default_distance, farray. cbn [FloatDistance.f_rows].
  rewrite !map_length, !(proj2 (Nat.ltb_lt _ _)) by assumption. cbn [andb]. unfold FloatDistance.cosine_distance. cbn [FloatDistance.same_float FloatDistance.f_type FloatDistance.f_cols FloatDistance.f_rows Nat.eqb].
  assert (Ec : map (fun r => map (FloatDistance.angle A r) (map (map Some) (map r_frame m'))) (map (map Some) (map r_frame m))
    = map (map qn) (m_cells (map Z.even m) (map Z.even m'))).
  { unfold m_cells. rewrite !map_map. apply map_ext. intros z. rewrite !map_map. apply map_ext. intros z'. apply big_angle. }
  unfold frame in *. rewrite Ec.
  assert (forallb (forallb (FloatDistance.at_least_0 A)) (map (map qn) (m_cells (map Z.even m) (map Z.even m'))) = true) as ->.
  { apply forallb_forall. intros r Hr. apply in_map_iff in Hr. destruct Hr as (r0 & <- & Hr). apply in_map_iff in Hr. destruct Hr as (x & <- & _).
    apply forallb_forall. intros v Hv. apply in_map_iff in Hv. destruct Hv as (w & <- & Hw). apply in_map_iff in Hw. destruct Hw as (y & <- & _).
    unfold qn. cbn. destruct (Rle_dec 0 _) as [|N]; [reflexivity|]. exfalso. apply N. destruct (Bool.eqb x y); unfold Q2R; cbn; lra. }
  cbn [bind]. unfold dtw. rewrite !map_length. rewrite !(proj2 (Nat.eqb_neq _ 0)) by lia. cbn [orb bind].
  pose proof (m_cells_shape (map Z.even m) (map Z.even m')) as Sh. rewrite !map_length in Sh.
  rewrite (dtw_costs_hom m_add Qle_bool m_divn (radd (rnd_up (1 / 16))) nle (rdivn (rnd_up (1 / 16))) qn) with (z := 0%Q) (dist := m_cells (map Z.even m) (map Z.even m')) (empty := fun _ _ => 0%Q); try assumption.
  - destruct (dtw_costs m_add Qle_bool m_divn _ _ _ b (fun _ _ => 0%Q)); reflexivity.
  - intros u v. unfold qn, radd, m_add, rnd_up. cbn [lift2]. f_equal. rewrite Q2R_mult, Q2R_plus. f_equal. unfold Q2R. cbn. lra.
  - exact qleb_nle.
  - intros a n Hn. unfold rdivn, qn, m_divn, rnd_up. cbn [lift1]. f_equal. unfold Qdiv. rewrite !Q2R_mult, Q2R_inv.
    + rewrite INR_IZR_INZ. unfold Rdiv. f_equal; [|unfold Q2R; cbn; lra]. do 2 f_equal. unfold Q2R. cbn. field.
    + intros H. unfold Qeq in H. cbn in H. lia.
  - destruct Sh as [L W]. split; [rewrite map_length; exact L|]. intros row Hr. apply in_map_iff in Hr. destruct Hr as (r & <- & Hr).
    rewrite map_length. apply W, Hr.
  - intros i j Hi Hj. unfold Dtw_spec.entry. set (c := m_cells (map Z.even m) (map Z.even m')).
    transitivity (nth j (map qn (nth i c [])) (qn 0)); [|apply map_nth]. f_equal. exact (map_nth (map qn) c [] i).
Qed.

(** ** The evaluation *)

(** Two frames for each item. *)
Definition r_places : list (Distances.item Z) := map (fun i => mk_item "f" (2 * Z.of_nat i) (2 * Z.of_nat i + 1)) (seq 0 15).
Definition r_files (item3 : Z) : list (feature_data Z Z) :=
  [([("f", map Z.of_nat (seq 0 30))], [("f", [0; 0; 0; 0; 1; 1; 0; item3; 0; 0; 0; 0; 1; 1; 0; 0; 0; 0; 0; 0; 1; 1; 0; 0; 0; 0; 0; 1; 1; 1])])].
Definition r_file : abx_file Z string := Eval vm_compute in pe_file (pe_make (@rev _) 1000 ex_db r_places).
Definition r_lines (item3 : Z) := got (pe_run (option Q) None qlt z_distance r_file (r_files item3) (Some 0) 2 turns).
Definition m_lines (item3 : Z) := got (pe_run (option Q) None qlt m_distance r_file (r_files item3) (Some 0) 2 turns).

Lemma r_files_ok item3 : features_ok (r_files item3).
Proof.
  split.
  - intros fd [<-|[]]. split; [repeat constructor; cbn; intuition discriminate|reflexivity].
  - repeat constructor; cbn; intuition discriminate.
Qed.

Lemma r_evaluable item3 : evaluable plain_text ex_task_reg ex_cols ex_db r_places pl_indexes (with_frames r_frame (r_files item3)).
Proof.
  destruct p0_evaluable. constructor; try assumption. split.
  - intros fd [<-|[]]. split; [repeat constructor; cbn; intuition discriminate|reflexivity].
  - repeat constructor; cbn; intuition discriminate.
Qed.

Lemma r_evaluated item3 : pe_run (option Q) None qlt z_distance r_file (r_files item3) (Some 0) 2 turns = Some (r_lines item3) -> forall empty,
  evaluated string_dec plain_text pl_name Z.leb below (exact_on Float64 2 empty) ex_task_reg ex_cols ex_db r_places
    pl_indexes (with_frames r_frame (r_files item3)) (Some 0) (r_lines item3).
Proof.
  intros H empty. eapply evaluated_map; [exact below_qvalue|intros; apply exact_frames|].
  apply (pe_evaluated (option Q) None qlt z_distance (@rev _) 1000 ex_db r_places r_file (r_files item3) (Some 0) 2 turns); try exact H.
  - exact rev_order.
  - vm_compute. reflexivity.
  - vm_compute. discriminate.
  - vm_compute. discriminate.
  - lia.
Qed.

Lemma m_evaluated item3 : pe_run (option Q) None qlt m_distance r_file (r_files item3) (Some 0) 2 turns = Some (m_lines item3) -> forall empty,
  evaluated string_dec plain_text pl_name Z.leb machine_less (machine_on (fun a => a) (rnd_up (1 / 16)) acos big_over nsum Metrics.dot Float64 2 empty)
    ex_task_reg ex_cols ex_db r_places pl_indexes (with_frames r_frame (r_files item3)) (Some 0) (m_lines item3).
Proof.
  intros H empty. eapply evaluated_map; [exact m_less|intros; apply machine_frames|].
  apply (pe_evaluated (option Q) None qlt m_distance (@rev _) 1000 ex_db r_places r_file (r_files item3) (Some 0) 2 turns); try exact H.
  - exact rev_order.
  - vm_compute. reflexivity.
  - vm_compute. discriminate.
  - vm_compute. discriminate.
  - lia.
Qed.

(** ** The items *)
Definition r_item (item3 : Z) (p : Distances.item Z) : list Z :=
  frames_between Z.leb (map Z.of_nat (seq 0 30)) [0; 0; 0; 0; 1; 1; 0; item3; 0; 0; 0; 0; 1; 1; 0; 0; 0; 0; 0; 0; 1; 1; 0; 0; 0; 0; 0; 1; 1; 1] (i_onset p) (i_offset p).

Lemma r_matrix item3 p m : matrix_of Z.leb (with_frames r_frame (r_files item3)) p m -> m = map r_frame (r_item item3 p).
Proof.
  intros (times & frames & (fd & [<-|[]] & Ht & Hf) & ->). cbn [fst snd] in Ht, Hf. destruct Ht as [Ht|[]]. destruct Hf as [Hf|[]]. injection Ht as _ <-. injection Hf as _ <-.
  unfold r_item. rewrite <- between_map. reflexivity.
Qed.

Lemma r_widths item3 p m : In p r_places -> matrix_of Z.leb (with_frames r_frame (r_files item3)) p m -> frames_of 2 m.
Proof.
  intros I H. rewrite (r_matrix item3 p m H). generalize (r_item item3 p). clear. intros l. induction l as [|z l IH]; [constructor|]. cbn [map]. constructor; [|exact IH].
  unfold r_frame. destruct (Z.even z); reflexivity.
Qed.

(** ** What is settled *)
Local Notation f := cosine_value.

Lemma least_rational xs ys p q : xs <> [] -> ys <> [] -> least f (map r_frame xs) (map r_frame ys) p ->
  z_distance (Some false) xs ys = Ok (Some q) -> along f (map r_frame xs) (map r_frame ys) p = Q2R q.
Proof.
  intros Nx Ny [W L] E. assert (Nx' : map r_frame xs <> []) by (destruct xs; [congruence|discriminate]). assert (Ny' : map r_frame ys <> []) by (destruct ys; [congruence|discriminate]).
  destruct (default_least Float64 2 (map r_frame xs) (map r_frame ys) (fun _ _ => None) (or_introl eq_refl) Nx' Ny') as (p0 & [W0 L0] & _ & D).
  pose proof (exact_frames (fun _ _ => None) (Some false) xs ys) as X. rewrite E in X. unfold exact_on, default_on in X. rewrite call_default_form in X.
  specialize (D false). unfold array in D. unfold frame in *. rewrite D in X. injection X as X. pose proof (L p0 W0). pose proof (L0 p W). lra.
Qed.

(** With two frames in each item. *)
Definition far2 (m m' z : list Z) : bool :=
  match z_distance (Some false) m z, z_distance (Some false) m' z with
  | Ok (Some d), Ok (Some d') => Qle_bool (d + (1 # 2)) d' && Qle_bool d' 1 && (length m =? 2)%nat && (length m' =? 2)%nat && (length z =? 2)%nat
  | _, _ => false
  end.

Lemma error_2 : angle_error (1 / 32) 0 2 = (1 / 32)%R.
Proof.
  unfold FloatDistance_spec.angle_error, cosine_error. rewrite Rplus_0_r, Rminus_0_r, !pow1. replace ((1 / 1 - 1) / 2)%R with 0%R by field. rewrite sqrt_0. ring.
Qed.

Lemma far2_sure m m' z : far2 m m' z = true -> surely_less (1 / 16) (angle_error (1 / 32) 0 2) f false (map r_frame m) (map r_frame m') (map r_frame z).
Proof.
  unfold far2. destruct (z_distance (Some false) m z) as [[d|]|] eqn:E; try discriminate. destruct (z_distance (Some false) m' z) as [[d'|]|] eqn:E'; try discriminate.
  rewrite !andb_true_iff, !Nat.eqb_eq. intros ((((H & H1) & L1) & L2) & L3) p q [P Q].
  assert (Nm : m <> []) by (destruct m; discriminate). assert (Nm' : m' <> []) by (destruct m'; discriminate). assert (Nz : z <> []) by (destruct z; discriminate).
  unfold highest, lowest. rewrite !map_length, L1, L2, L3, (least_rational _ _ _ _ Nm Nz P E), (least_rational _ _ _ _ Nm' Nz Q E'), error_2.
  apply Qle_bool_iff, Qle_Rle in H. apply Qle_bool_iff, Qle_Rle in H1. rewrite Q2R_plus in H. unfold Q2R at 2 in H. unfold Q2R at 2 in H1. cbn in H, H1. cbn [Nat.add Nat.sub INR pow].
  assert (D : (0 <= Q2R d)%R).
  { rewrite <- (least_rational _ _ _ _ Nm Nz P E). destruct P as [W _]. apply (along_nonneg f cosine_between_value 2); try exact W;
      try (destruct m; [congruence|discriminate]); try (destruct z; [congruence|discriminate]);
      (apply Forall_forall; intros x Hx; apply in_map_iff in Hx; destruct Hx as (y & <- & _); unfold r_frame; destruct (Z.even y); reflexivity). }
  lra.
Qed.

Definition settled2 (m m' z : list Z) : bool :=
  (if list_eq_dec Bool.bool_dec (map Z.even m) (map Z.even m') then true else false) || far2 m m' z || far2 m' m z.

Lemma settled2_ok m m' z n : n = false -> settled2 m m' z = true -> settled (1 / 16) (angle_error (1 / 32) 0 2) f n (map r_frame m) (map r_frame m') (map r_frame z).
Proof.
  intros ->. unfold settled2. rewrite !orb_true_iff. intros [[H|H]|H]; right; right; right.
  - left. destruct (list_eq_dec _ _ _) as [E|]; [|discriminate]. unfold r_frame.
    assert (K : forall l, map (fun z => if Z.even z then [1%R; 0%R] else [0%R; 1%R]) l = map (fun b : bool => if b then [1%R; 0%R] else [0%R; 1%R]) (map Z.even l)) by (intros l; rewrite map_map; reflexivity).
    rewrite !K, E. reflexivity.
  - right. left. apply far2_sure, H.
  - right. right. apply far2_sure, H.
Qed.

(** All the triplets of items as ABX asks. *)
Definition all_abx (test : Distances.item Z -> Distances.item Z -> Distances.item Z -> bool) : bool :=
  let items := combine ex_db r_places in
  forallb (fun a => forallb (fun b => forallb (fun x =>
    negb ((fst x "phone" =? fst a "phone")%Z && negb (fst b "phone" =? fst a "phone")%Z && (fst b "talker" =? fst a "talker")%Z && negb (fst x "talker" =? fst a "talker")%Z
          && (fst b "lang" =? fst a "lang")%Z && (fst x "lang" =? fst a "lang")%Z)
    || test (snd a) (snd b) (snd x)) items) items) items.

Lemma all_abx_ok test : all_abx test = true ->
  forall k a b x pa pb px, is_wanted ex_task_reg ex_db k (a, b, x) ->
    place ex_task_reg ex_db r_places k a pa -> place ex_task_reg ex_db r_places k b pb -> place ex_task_reg ex_db r_places k x px -> test pa pb px = true.
Proof.
  intros S k a b x pa pb px W Pa Pb Px.
  apply (wanted_items ex_task_reg k ex_db r_places a b x eq_refl) in W.
  destruct W as (ra & qa & rb & qb & rx & qx & Ha & Hb & Hx & (X1 & X2 & X3 & X4) & _).
  apply at_place in Pa, Pb, Px. destruct Pa as [ra' Pa], Pb as [rb' Pb], Px as [rx' Px].
  pose proof (at_fun Ha Pa) as Ea. pose proof (at_fun Hb Pb) as Eb. pose proof (at_fun Hx Px) as Ex. injection Ea as <- <-. injection Eb as <- <-. injection Ex as <- <-.
  assert (K : forall i rp, Pipeline_same.at_ (items_of ex_task_reg ex_db r_places k) i rp -> In rp (combine ex_db r_places) /\ [fst rp "lang"] = k).
  { intros i rp [_ H]. apply nth_error_In in H. unfold items_of in H. apply filter_In in H. destruct H as [H1 H2]. split; [exact H1|].
    cbn [ex_task_reg t_by map] in H2. destruct (key_dec _ k) as [E|]; [exact E|discriminate]. }
  destruct (K _ _ Ha) as [La Ka]. destruct (K _ _ Hb) as [Lb Kb]. destruct (K _ _ Hx) as [Lx Kx]. cbn [fst] in Ka, Kb, Kx.
  unfold all_abx in S. cbv zeta in S. rewrite forallb_forall in S. specialize (S _ La). rewrite forallb_forall in S. specialize (S _ Lb). rewrite forallb_forall in S. specialize (S _ Lx).
  cbn [fst snd] in S. rewrite orb_true_iff in S. destruct S as [S|S]; [|exact S]. exfalso. rewrite negb_true_iff in S.
  change (rx "phone" = ra "phone") in X1. change (rb "phone" <> ra "phone") in X2.
  specialize (X3 "talker" (or_introl eq_refl)). specialize (X4 "talker" (or_introl eq_refl)).
  assert (E1 : rb "lang" = ra "lang") by congruence. assert (E2 : rx "lang" = ra "lang") by congruence.
  rewrite X1, X3, E1, E2, !Z.eqb_refl, (proj2 (Z.eqb_neq _ _) X2), (proj2 (Z.eqb_neq _ _) X4) in S. discriminate S.
Qed.

Lemma all_settled_ok item3 : all_abx (fun a b x => settled2 (r_item item3 a) (r_item item3 b) (r_item item3 x)) = true ->
  forall k a b x pa pb px ma mb mx n, is_wanted ex_task_reg ex_db k (a, b, x) ->
    place ex_task_reg ex_db r_places k a pa -> place ex_task_reg ex_db r_places k b pb -> place ex_task_reg ex_db r_places k x px ->
    matrix_of Z.leb (with_frames r_frame (r_files item3)) pa ma -> matrix_of Z.leb (with_frames r_frame (r_files item3)) pb mb ->
    matrix_of Z.leb (with_frames r_frame (r_files item3)) px mx -> meant (Some 0) = Some n ->
    settled (1 / 16) (angle_error (1 / 32) 0 2) f n ma mb mx.
Proof.
  intros S k a b x pa pb px ma mb mx n W Pa Pb Px Ma Mb Mx Hn.
  rewrite (r_matrix item3 pa ma Ma), (r_matrix item3 pb mb Mb), (r_matrix item3 px mx Mx).
  apply settled2_ok; [injection Hn as <-; reflexivity|]. exact (all_abx_ok (fun a b x => settled2 (r_item item3 a) (r_item item3 b) (r_item item3 x)) S k a b x pa pb px W Pa Pb Px).
Qed.

Lemma all_settled_0 : all_abx (fun a b x => settled2 (r_item 0 a) (r_item 0 b) (r_item 0 x)) = true.
Proof. vm_compute. reflexivity. Qed.
Lemma r_run_0 : pe_run (option Q) None qlt z_distance r_file (r_files 0) (Some 0) 2 turns = Some (r_lines 0).
Proof. vm_compute. reflexivity. Qed.
Lemma m_run_0 : pe_run (option Q) None qlt m_distance r_file (r_files 0) (Some 0) 2 turns = Some (m_lines 0).
Proof. vm_compute. reflexivity. Qed.
Lemma r_run_1 : pe_run (option Q) None qlt z_distance r_file (r_files 1) (Some 0) 2 turns = Some (r_lines 1).
Proof. vm_compute. reflexivity. Qed.
Lemma m_run_1 : pe_run (option Q) None qlt m_distance r_file (r_files 1) (Some 0) 2 turns = Some (m_lines 1).
Proof. vm_compute. reflexivity. Qed.

(** The triplets that are not settled. *)
Definition r_at (k : key) (i : Z) : option (Distances.item Z) := nth_error (map snd (items_of ex_task_reg ex_db r_places k)) (Z.to_nat i).
Lemma r_at_place k i p : place ex_task_reg ex_db r_places k i p -> r_at k i = Some p.
Proof. intros [_ H]. exact H. Qed.
Definition r_doubtful (item3 : Z) (k : key) (t : triplet) : bool :=
  let '(a, b, x) := t in
  match r_at k a, r_at k b, r_at k x with
  | Some pa, Some pb, Some px => negb (settled2 (r_item item3 pa) (r_item item3 pb) (r_item item3 px))
  | _, _, _ => true
  end.

Lemma r_doubtful_ok item3 k a b x pa pb px ma mb mx n : is_wanted ex_task_reg ex_db k (a, b, x) -> r_doubtful item3 k (a, b, x) = false ->
    place ex_task_reg ex_db r_places k a pa -> place ex_task_reg ex_db r_places k b pb -> place ex_task_reg ex_db r_places k x px ->
    matrix_of Z.leb (with_frames r_frame (r_files item3)) pa ma -> matrix_of Z.leb (with_frames r_frame (r_files item3)) pb mb ->
    matrix_of Z.leb (with_frames r_frame (r_files item3)) px mx -> meant (Some 0) = Some n ->
    settled (1 / 16) (angle_error (1 / 32) 0 2) f n ma mb mx.
Proof.
  intros W S Pa Pb Px Ma Mb Mx Hn. rewrite (r_matrix item3 pa ma Ma), (r_matrix item3 pb mb Mb), (r_matrix item3 px mx Mx).
  apply settled2_ok; [injection Hn as <-; reflexivity|]. unfold r_doubtful in S. rewrite (r_at_place _ _ _ Pa), (r_at_place _ _ _ Pb), (r_at_place _ _ _ Px) in S.
  rewrite negb_false_iff in S. exact S.
Qed.

(** The two triplets of the line for "a", "bob" and "b". *)
Lemma r_doubtful_lines : map (r_doubtful 1 [7]) (firstn 9 (x_triplets r_file)) = [true; true; false; false; false; false; false; false; false].
Proof. vm_compute. reflexivity. Qed.

Lemma m_precise : precise (rnd_up (1 / 16)) (1 / 16).
Proof. apply rnd_up_precise; lra. Qed.
Lemma m_monotone a b : (a <= b)%R -> (rnd_up (1 / 16) a <= rnd_up (1 / 16) b)%R.
Proof. apply rnd_up_mono; lra. Qed.

Lemma same_example : same_lines (r_lines 0) (m_lines 0).
Proof.
  apply (rounded_same Z string string_dec plain_text pl_name pl_name_inj (fun a => a) (rnd_up (1 / 16)) acos big_over nsum Metrics.dot 0 (1 / 16) (1 / 32) f Float64 2
    id_precise m_precise m_monotone exact_sums big_accurate cosine_between_value (or_introl eq_refl) Z.leb ex_memory ex_memory ex_task_reg ex_cols ex_db r_places pl_indexes
    (with_frames r_frame (r_files 0)) (Some 0) (r_evaluable 0) (r_widths 0) (all_settled_ok 0 all_settled_0)).
  - exact (r_evaluated 0 r_run_0 _).
  - exact (m_evaluated 0 m_run_0 _).
Qed.

Lemma near_example k : Forall2 (line_near ex_task_reg ex_db pl_indexes (r_doubtful 1) k) (of_by (pl_name k) (r_lines 1)) (of_by (pl_name k) (m_lines 1)).
Proof.
  apply (rounded_near Z string string_dec plain_text pl_name pl_name_inj (fun a => a) (rnd_up (1 / 16)) acos big_over nsum Metrics.dot 0 (1 / 16) (1 / 32) f Float64 2
    id_precise m_precise m_monotone exact_sums big_accurate cosine_between_value (or_introl eq_refl) Z.leb ex_memory ex_memory ex_task_reg ex_cols ex_db r_places pl_indexes
    (with_frames r_frame (r_files 1)) (Some 0) (r_doubtful 1) (r_evaluable 1) (r_widths 1) (fun k a b x pa pb px ma mb mx n => r_doubtful_ok 1 k a b x pa pb px ma mb mx n)).
  - exact (r_evaluated 1 r_run_1 _).
  - exact (m_evaluated 1 m_run_1 _).
Qed.

(** ** A frame that changes *)
Definition unchanged (p : Distances.item Z) : bool := if list_eq_dec Z.eq_dec (r_item 0 p) (r_item 1 p) then true else false.
Lemma unchanged_ok p : unchanged p = true -> r_item 0 p = r_item 1 p.
Proof. unfold unchanged. destruct (list_eq_dec _ _ _) as [E|]; [intros _; exact E|discriminate]. Qed.

Definition changed (k : key) (t : triplet) : bool :=
  let '(a, b, x) := t in
  match r_at k a, r_at k b, r_at k x with
  | Some pa, Some pb, Some px => negb (unchanged pa && unchanged pb && unchanged px)
  | _, _, _ => true
  end.

Lemma r_changed_lines : map (changed [7]) (firstn 9 (x_triplets r_file)) = [true; true; true; true; false; true; true; true; true].
Proof. vm_compute. reflexivity. Qed.

Lemma changed_example k : Forall2 (line_near ex_task_reg ex_db pl_indexes changed k) (of_by (pl_name k) (r_lines 0)) (of_by (pl_name k) (r_lines 1)).
Proof.
  apply (@answers_near Z string frame frame _ _ string_dec plain_text pl_name pl_name_inj Z.leb below below (exact_on Float64 2 ex_memory) (exact_on Float64 2 ex_memory) (Some 0) (Some 0)
    Pipeline_default.below_asym Pipeline_default.below_asym ex_task_reg ex_cols ex_db r_places pl_indexes (with_frames r_frame (r_files 0)) (with_frames r_frame (r_files 1)) changed
    (r_evaluable 0) (ev_features (r_evaluable 1))).
  - intros j [[a b] x] s s' W D (pa & pb & px & ma & mb & mx & dax & dbx & Ha & Hb & Hx & Ma & Mb & Mx & Da & Db & V)
      (pa' & pb' & px' & ma' & mb' & mx' & dax' & dbx' & Ha' & Hb' & Hx' & Ma' & Mb' & Mx' & Da' & Db' & V').
    unfold changed in D. rewrite (r_at_place _ _ _ Ha), (r_at_place _ _ _ Hb), (r_at_place _ _ _ Hx), negb_false_iff, !andb_true_iff in D. destruct D as [[Ua Ub] Ux].
    apply r_at_place in Ha, Hb, Hx, Ha', Hb', Hx'. assert (pa' = pa) as -> by congruence. assert (pb' = pb) as -> by congruence. assert (px' = px) as -> by congruence.
    rewrite (r_matrix 0 _ _ Ma), (r_matrix 0 _ _ Mx), (unchanged_ok _ Ua), (unchanged_ok _ Ux) in Da. rewrite (r_matrix 0 _ _ Mb), (r_matrix 0 _ _ Mx), (unchanged_ok _ Ub), (unchanged_ok _ Ux) in Db.
    rewrite (r_matrix 1 _ _ Ma'), (r_matrix 1 _ _ Mx') in Da'. rewrite (r_matrix 1 _ _ Mb'), (r_matrix 1 _ _ Mx') in Db'.
    rewrite Da in Da'. injection Da' as <-. rewrite Db in Db'. injection Db' as <-. exact (verdict_fun Pipeline_default.below_asym V V').
  - exact (r_evaluated 0 r_run_0 _).
  - exact (r_evaluated 1 r_run_1 _).
Qed.

(** ** Rational and real distances *)
Lemma r_matrix_z item3 p m : matrix_of Z.leb (r_files item3) p m -> m = r_item item3 p.
Proof.
  intros (times & frames & (fd & [<-|[]] & Ht & Hf) & ->). cbn [fst snd] in Ht, Hf. destruct Ht as [Ht|[]]. destruct Hf as [Hf|[]]. injection Ht as _ <-. injection Hf as _ <-.
  unfold r_item. reflexivity.
Qed.

Lemma qlt_asym : asymmetric qlt.
Proof. intros d d' H. destruct (qlt d' d) eqn:E; [|reflexivity]. rewrite <- below_qvalue in H, E. rewrite (Pipeline_default.below_asym _ _ H) in E. discriminate. Qed.

Lemma z_evaluable item3 : evaluable plain_text ex_task_reg ex_cols ex_db r_places pl_indexes (r_files item3).
Proof. destruct (r_evaluable item3). constructor; try assumption. apply r_files_ok. Qed.

Lemma z_evaluated_0 : evaluated string_dec plain_text pl_name Z.leb qlt z_distance ex_task_reg ex_cols ex_db r_places pl_indexes (r_files 0) (Some 0) (r_lines 0).
Proof.
  apply (pe_evaluated (option Q) None qlt z_distance (@rev _) 1000 ex_db r_places r_file (r_files 0) (Some 0) 2 turns); try exact r_run_0.
  - exact rev_order.
  - vm_compute. reflexivity.
  - vm_compute. discriminate.
  - vm_compute. discriminate.
  - lia.
Qed.

Lemma equal_answers_example : same_lines (r_lines 0) (m_lines 0).
Proof.
  apply (@answers_same Z string Z frame _ _ string_dec plain_text pl_name pl_name_inj Z.leb qlt machine_less z_distance
    (machine_on (fun a => a) (rnd_up (1 / 16)) acos big_over nsum Metrics.dot Float64 2 ex_memory) (Some 0) (Some 0)
    qlt_asym machine_less_asym ex_task_reg ex_cols ex_db r_places pl_indexes (r_files 0) (with_frames r_frame (r_files 0))
    (z_evaluable 0) (ev_features (r_evaluable 0))).
  - intros j [[a b] x] s s' W (pa & pb & px & ma & mb & mx & dax & dbx & Ha & Hb & Hx & Ma & Mb & Mx & Da & Db & V)
      (pa' & pb' & px' & ma' & mb' & mx' & dax' & dbx' & Ha' & Hb' & Hx' & Ma' & Mb' & Mx' & Da' & Db' & V').
    assert (pa' = pa) as -> by (apply r_at_place in Ha, Ha'; congruence). assert (pb' = pb) as -> by (apply r_at_place in Hb, Hb'; congruence).
    assert (px' = px) as -> by (apply r_at_place in Hx, Hx'; congruence).
    pose proof (all_settled_ok 0 all_settled_0 j a b x pa pb px ma' mb' mx' false W Ha Hb Hx Ma' Mb' Mx' eq_refl) as St.
    assert (Fa := r_widths 0 pa ma' (place_in Ha) Ma'). assert (Fb := r_widths 0 pb mb' (place_in Hb) Mb'). assert (Fx := r_widths 0 px mx' (place_in Hx) Mx').
    apply (settled_same (fun a => a) (rnd_up (1 / 16)) acos big_over nsum Metrics.dot 0 (1 / 16) (1 / 32) f Float64 2 id_precise m_precise m_monotone exact_sums big_accurate
      cosine_between_value (or_introl eq_refl) false ex_memory ex_memory ma' mb' mx' (qvalue dax) (qvalue dbx) dax' dbx' s s' Fa Fb Fx St); try assumption.
    + rewrite (r_matrix 0 _ _ Ma'), (r_matrix 0 _ _ Mx'), exact_frames, <- (r_matrix_z 0 _ _ Ma), <- (r_matrix_z 0 _ _ Mx). change (meant (Some 0)) with (Some false) in Da. rewrite Da. reflexivity.
    + rewrite (r_matrix 0 _ _ Mb'), (r_matrix 0 _ _ Mx'), exact_frames, <- (r_matrix_z 0 _ _ Mb), <- (r_matrix_z 0 _ _ Mx). change (meant (Some 0)) with (Some false) in Db. rewrite Db. reflexivity.
    + unfold verdict in *. rewrite !below_qvalue. exact V.
  - exact z_evaluated_0.
  - exact (m_evaluated 0 m_run_0 _).
Qed.

(** ** With normalisation *)
Lemma surely_example : surely_less (1 / 8) (angle_error 0 (1 / 1024) 2) f true [[1; 0]]%R [[0; 1]]%R [[1; 0]]%R.
Proof.
  destruct (FloatDistance_ex.right_angle _ cosine_between_value) as [Z H]. pose proof small_error as E. intros p q [[P _] [Q _]].
  rewrite (single_whole _ _ _ P), (single_whole _ _ _ Q). unfold highest, lowest.
  cbn [List.length Nat.add Nat.sub pow INR along fold_right nth fst snd]. rewrite Z, H. lra.
Qed.

Lemma surely_compare_example : exists v v',
  FloatDistance_spec.machine_distance (rnd_up (1 / 1024)) (rnd_up (1 / 8)) acos (fun a => a / PI)%R (rsum (rnd_up (1 / 1024))) (rdot (rnd_up (1 / 1024))) ex_memory
    (FloatDistance_spec.farray Metrics.Float32 2 [[1; 0]]%R) (FloatDistance_spec.farray Metrics.Float32 2 [[1; 0]]%R) true = Ok (FloatDistance.Number (Some v)) /\
  FloatDistance_spec.machine_distance (rnd_up (1 / 1024)) (rnd_up (1 / 8)) acos (fun a => a / PI)%R (rsum (rnd_up (1 / 1024))) (rdot (rnd_up (1 / 1024))) ex_memory
    (FloatDistance_spec.farray Metrics.Float32 2 [[0; 1]]%R) (FloatDistance_spec.farray Metrics.Float32 2 [[1; 0]]%R) true = Ok (FloatDistance.Number (Some v')) /\ (v < v')%R.
Proof.
  apply (machine_surely (rnd_up (1 / 1024)) (rnd_up (1 / 8)) acos (fun a => a / PI)%R (rsum (rnd_up (1 / 1024))) (rdot (rnd_up (1 / 1024))) (1 / 1024) (1 / 8) 0 cosine_value Metrics.Float32 2);
    try (apply rnd_up_precise; lra); try (apply rnd_up_mono; lra); try apply rsums; try apply acos_accurate; try apply cosine_between_value; try (right; reflexivity); try discriminate;
    try exact surely_example; try (repeat constructor; fail).
Qed.

Lemma near_value_example : exists q v, nearly_least (1 / 8) (angle_error 0 (1 / 1024) 2) f one_frame two_frames q /\
  FloatDistance_spec.machine_distance (rnd_up (1 / 1024)) (rnd_up (1 / 8)) acos (fun a => a / PI)%R (rsum (rnd_up (1 / 1024))) (rdot (rnd_up (1 / 1024))) ex_memory
    (FloatDistance_spec.farray Metrics.Float32 2 one_frame) (FloatDistance_spec.farray Metrics.Float32 2 two_frames) true = Ok (FloatDistance.Number (Some v)) /\
  (lowest (1 / 8) (angle_error 0 (1 / 1024) 2) f true one_frame two_frames q <= v <= highest (1 / 8) (angle_error 0 (1 / 1024) 2) f true one_frame two_frames q)%R.
Proof.
  destruct (machine_near (rnd_up (1 / 1024)) (rnd_up (1 / 8)) acos (fun a => a / PI)%R (rsum (rnd_up (1 / 1024))) (rdot (rnd_up (1 / 1024))) (1 / 1024) (1 / 8) 0 cosine_value Metrics.Float32 2
    one_frame two_frames ex_memory) as (q & c & v & Q & _ & _ & B & E);
    try (apply rnd_up_precise; lra); try (apply rnd_up_mono; lra); try apply rsums; try apply acos_accurate; try apply cosine_between_value; try (right; reflexivity); try discriminate;
    try (repeat constructor; fail).
  exists q, v. split; [exact Q|]. split; [exact (E true)|exact B].
Qed.
