(** Examples for the invariances of the distances. *)
From Coq Require Import Reals List Bool Arith Lia Lra QArith Qreals Permutation.
From Verif Require Import Prelude PyCall Metrics Dtw Dtw_spec Dtw_proofs Dtw_hom Metrics_spec Metrics_proofs Metrics_heap
  DefaultDistance DefaultDistance_spec DefaultDistance_proofs NotFinite_spec NotFinite_proofs Invariance_spec Invariance_proofs Pipeline_map_spec.
Import ListNotations.
Local Open Scope R_scope.

Definition e1 : list num := [Some 1; Some 0].
Definition e2 : list num := [Some 0; Some 1].

Lemma nrm_e1 : nrm e1 = Some 1.
Proof.
  change e1 with (map Some [1; 0]). rewrite nrm_some. unfold norm, inner. replace (1 * 1 + (0 * 0 + 0)) with 1 by lra. rewrite sqrt_1. reflexivity.
Qed.
Lemma nrm_e2 : nrm e2 = Some 1.
Proof.
  change e2 with (map Some [0; 1]). rewrite nrm_some. unfold norm, inner. replace (0 * 0 + (1 * 1 + 0)) with 1 by lra. rewrite sqrt_1. reflexivity.
Qed.

Lemma one_not_zero : is_zero (Some 1) = false.
Proof. cbn. destruct (Req_EM_T 1 0); [lra|reflexivity]. Qed.

Lemma cell_units u v c a : nrm u = Some 1 -> nrm v = Some 1 -> dot u v = Some c -> acos c / PI = a -> cell u v = Some a.
Proof.
  intros Hu Hv Hd Ha. unfold cell. rewrite Hu, Hv, Hd, one_not_zero. cbn [andb lift2]. rewrite ndiv_some by lra.
  cbn [narccos lift1]. replace (c / (1 * 1)) with c by field. rewrite Ha. reflexivity.
Qed.

Lemma right_angle : acos 0 / PI = 1 / 2.
Proof. rewrite acos_0. field. apply PI_neq0. Qed.
Lemma no_angle : acos 1 / PI = 0.
Proof. rewrite acos_1. field. apply PI_neq0. Qed.

Lemma cell_11 : cell e1 e1 = Some 0.
Proof. apply (cell_units e1 e1 1); auto using nrm_e1, no_angle. cbn. f_equal. lra. Qed.
Lemma cell_22 : cell e2 e2 = Some 0.
Proof. apply (cell_units e2 e2 1); auto using nrm_e2, no_angle. cbn. f_equal. lra. Qed.
Lemma cell_12 : cell e1 e2 = Some (1 / 2).
Proof. apply (cell_units e1 e2 0); auto using nrm_e1, nrm_e2, right_angle. cbn. f_equal. lra. Qed.
Lemma cell_21 : cell e2 e1 = Some (1 / 2).
Proof. apply (cell_units e2 e1 0); auto using nrm_e1, nrm_e2, right_angle. cbn. f_equal. lra. Qed.

Definition iv_x : mat := mk_mat Float64 2 [e1; e1; e1; e2; e2].
Definition iv_y : mat := mk_mat Float64 2 [e1; e2; e1; e2].

(** The same matrices with rational numbers. *)
Definition qdivn (q : Q) (n : nat) : Q := (q / inject_Z (Z.of_nat n))%Q.
Definition qcells (xs ys : list bool) : list (list Q) := map (fun x => map (fun y => if Bool.eqb x y then 0%Q else (1 # 2)%Q) ys) xs.
Definition unit (b : bool) : list num := if b then e1 else e2.
Definition qn (q : Q) : num := Some (Q2R q).

Lemma half : Q2R (1 # 2) = 1 / 2.
Proof. unfold Q2R. cbn. lra. Qed.

Lemma cells_rational xs ys : outer cell (map unit xs) (map unit ys) = map (map qn) (qcells xs ys).
Proof.
  unfold qcells. rewrite map_map. rewrite outer_map. unfold outer. apply map_ext. intros x. rewrite map_map. apply map_ext. intros y.
  unfold qn. destruct x, y; cbn [unit Bool.eqb]; rewrite ?cell_11, ?cell_12, ?cell_21, ?cell_22, ?half; f_equal; unfold Q2R; cbn; lra.
Qed.

Lemma qcells_shape xs ys : shape (length xs) (length ys) (qcells xs ys).
Proof.
  split; [apply map_length|]. intros row Hr. apply in_map_iff in Hr. destruct Hr as (x & <- & _). apply map_length.
Qed.

Lemma qleb_nle a b : nle (qn a) (qn b) = Qle_bool a b.
Proof.
  unfold nle, qn. destruct (Rle_dec (Q2R a) (Q2R b)) as [H|H]; symmetry.
  - apply Qle_bool_iff. apply Rle_Qle, H.
  - apply not_true_is_false. intros E. apply Qle_bool_iff in E. apply H. apply Qle_Rle, E.
Qed.

(** What the default distance gives on such frames. *)
Definition qdist (n : option bool) (xs ys : list bool) : res (option Q) :=
  match n with
  | None => Err TypeError
  | Some b =>
    match xs, ys with
    | [], [] => Ok (Some 0%Q)
    | [], _ | _, [] => Ok None
    | _, _ => on_result (@Some Q) (dtw_costs Qplus Qle_bool qdivn (length xs) (length ys) (qcells xs ys) b (fun _ _ => 0%Q))
    end
  end.
Definition qvalue (q : option Q) : dvalue := match q with Some q => Value (Some (Q2R q)) | None => Infinite end.

Lemma rational_distance empty n xs ys :
  call_default empty n (mk_mat Float64 2 (map unit xs)) (mk_mat Float64 2 (map unit ys)) = on_result qvalue (qdist n xs ys).
Proof.
  rewrite call_default_form. destruct n as [b|]; [|reflexivity]. unfold default_distance, frames. cbn [m_rows]. rewrite !map_length.
  destruct xs as [|x0 xs0] eqn:Ex; destruct ys as [|y0 ys0] eqn:Ey; try reflexivity.
  { cbn. do 3 f_equal. unfold Q2R. cbn. lra. }
  rewrite <- Ex, <- Ey.
  assert (Lx : (0 < length xs)%nat) by (rewrite Ex; cbn; lia). assert (Ly : (0 < length ys)%nat) by (rewrite Ey; cbn; lia).
  assert (qdist (Some b) xs ys = on_result (@Some Q) (dtw_costs Qplus Qle_bool qdivn (length xs) (length ys) (qcells xs ys) b (fun _ _ => 0%Q))) as ->
    by (rewrite Ex, Ey; reflexivity).
  clear Ex Ey x0 xs0 y0 ys0.
  rewrite !(proj2 (Nat.ltb_lt _ _)) by assumption. cbn [andb]. rewrite cosine_form. cbn [same_float same_cols m_type m_cols Nat.eqb m_rows].
  rewrite cells_rational. unfold same_cols. cbn [m_cols Nat.eqb bind].
  assert (forallb (forallb is_nonneg) (map (map qn) (qcells xs ys)) = true) as ->.
  { apply forallb_forall. intros r Hr. apply in_map_iff in Hr. destruct Hr as (r0 & <- & Hr). apply in_map_iff in Hr. destruct Hr as (x & <- & _).
    apply forallb_forall. intros v Hv. apply in_map_iff in Hv. destruct Hv as (w & <- & Hw). apply in_map_iff in Hw. destruct Hw as (y & <- & _).
    unfold qn. cbn. destruct (Rle_dec 0 _) as [|N]; [reflexivity|]. exfalso. apply N. destruct (Bool.eqb x y); unfold Q2R; cbn; lra. }
  cbn [bind]. unfold warped, dtw. cbn [m_rows]. rewrite !map_length. rewrite !(proj2 (Nat.eqb_neq _ 0)) by lia. cbn [orb bind].
  rewrite (dtw_costs_hom Qplus Qle_bool qdivn (lift2 Rplus) nle ndivn qn) with (z := 0%Q) (dist := qcells xs ys) (empty := fun _ _ => 0%Q); try assumption.
  - unfold matrix in *. destruct (dtw_costs Qplus Qle_bool qdivn (length xs) (length ys) (qcells xs ys) b (fun _ _ => 0%Q)); reflexivity.
  - intros u v. unfold qn. cbn [lift2]. rewrite Q2R_plus. reflexivity.
  - exact qleb_nle.
  - intros a n Hn. unfold ndivn, ndiv, qn, qdivn. destruct (Req_EM_T (INR n) 0) as [Z|_]; [exfalso; apply not_0_INR in Hn; contradiction|].
    cbn [lift2]. f_equal. unfold Qdiv. rewrite Q2R_mult, Q2R_inv.
    + rewrite INR_IZR_INZ. unfold Rdiv. do 2 f_equal. unfold Q2R. cbn. field.
    + intros H. unfold Qeq in H. cbn in H. lia.
  - apply qcells_shape.
  - destruct (qcells_shape xs ys) as [L W]. split; [rewrite map_length; exact L|]. intros row Hr. apply in_map_iff in Hr. destruct Hr as (r & <- & Hr).
    rewrite map_length. apply W, Hr.
  - intros i j Hi Hj. unfold Dtw_spec.entry. change (@nil num) with (map qn []). rewrite map_nth. change (qn 0) with (qn 0%Q). rewrite map_nth. reflexivity.
Qed.

Lemma iv_forwards empty : call_default empty (Some true) iv_x iv_y = Ok (Value (Some (1 / 12))).
Proof.
  refine (eq_trans (rational_distance empty (Some true) [true; true; true; false; false] [true; false; true; false]) _).
  assert (qdist (Some true) [true; true; true; false; false] [true; false; true; false] = Ok (Some (1 # 12)%Q)) as -> by (vm_compute; reflexivity).
  reflexivity.
Qed.

Lemma iv_backwards empty : call_default empty (Some true) (backwards iv_x) (backwards iv_y) = Ok (Value (Some (1 / 10))).
Proof.
  refine (eq_trans (rational_distance empty (Some true) [false; false; true; true; true] [false; true; false; true]) _).
  assert (qdist (Some true) [false; false; true; true; true] [false; true; false; true] = Ok (Some (1 # 10)%Q)) as -> by (vm_compute; reflexivity).
  reflexivity.
Qed.

Lemma iv_plain empty : call_default empty (Some false) iv_x iv_y = Ok (Value (Some (1 / 2))).
Proof.
  refine (eq_trans (rational_distance empty (Some false) [true; true; true; false; false] [true; false; true; false]) _).
  assert (qdist (Some false) [true; true; true; false; false] [true; false; true; false] = Ok (Some (1 # 2)%Q)) as -> by (vm_compute; reflexivity).
  reflexivity.
Qed.

Lemma not_backwards empty :
  ~ forall x y, call_default empty (Some true) (backwards x) (backwards y) = call_default empty (Some true) x y.
Proof.
  intros H. specialize (H iv_x iv_y). rewrite iv_forwards, iv_backwards in H. injection H as H. lra.
Qed.
