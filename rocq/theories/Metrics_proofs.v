(** The distances between frames, entry by entry. *)

From Coq Require Import Reals List Bool Arith Lia Lra Psatz.
From Verif Require Import Prelude Metrics Metrics_spec.
Import ListNotations.
Local Open Scope R_scope.

(** ** Matrices of entries *)

Lemma map2_map : forall A B C X Y (f : A -> B -> C) (g : X -> A) (k : Y -> B) xs ys,
  map2 f (map g xs) (map k ys) = map2 (fun x y => f (g x) (k y)) xs ys.
Proof.
  intros A B C X Y f g k; induction xs as [|x xs IH]; intros [|y ys]; cbn; auto.
  f_equal; apply IH.
Qed.

Lemma map2_same : forall A C (f : A -> A -> C) xs, map2 f xs xs = map (fun x => f x x) xs.
Proof. intros A C f; induction xs as [|x xs IH]; cbn; auto; f_equal; apply IH. Qed.

Lemma map2_diag : forall A B C X (f : A -> B -> C) (g : X -> A) (k : X -> B) xs,
  map2 f (map g xs) (map k xs) = map (fun x => f (g x) (k x)) xs.
Proof. intros; rewrite map2_map; apply map2_same. Qed.

Lemma map2_nil_l : forall A B C (f : A -> B -> C) ys, map2 f [] ys = [].
Proof. reflexivity. Qed.

Lemma map2_cons : forall A B C (f : A -> B -> C) x xs y ys,
  map2 f (x :: xs) (y :: ys) = f x y :: map2 f xs ys.
Proof. reflexivity. Qed.

Lemma mmap2_outer : forall A B f (g k : A -> B -> num) xs ys,
  mmap2 f (outer g xs ys) (outer k xs ys) = outer (fun x y => f (g x y) (k x y)) xs ys.
Proof.
  intros; unfold mmap2, outer; rewrite map2_diag; apply map_ext; intros x; apply map2_diag.
Qed.

Lemma mmap_outer : forall A B f (g : A -> B -> num) xs ys,
  mmap f (outer g xs ys) = outer (fun x y => f (g x y)) xs ys.
Proof.
  intros; unfold mmap, outer; rewrite map_map; apply map_ext; intros x; apply map_map.
Qed.

Lemma outer_map : forall A B X Y (g : A -> B -> num) (u : X -> A) (v : Y -> B) xs ys,
  outer g (map u xs) (map v ys) = outer (fun x y => g (u x) (v y)) xs ys.
Proof. intros; unfold outer; rewrite map_map; apply map_ext; intros x; apply map_map. Qed.

Lemma outer_ext : forall A B (g k : A -> B -> num) xs ys,
  (forall x y, In x xs -> In y ys -> g x y = k x y) -> outer g xs ys = outer k xs ys.
Proof.
  intros A B g k xs ys H; unfold outer; apply map_ext_in; intros x Hx; apply map_ext_in.
  intros y Hy; auto.
Qed.

Lemma map_nth_seq : forall A C (f : A -> C) l d, map f l = map (fun j => f (nth j l d)) (seq 0 (length l)).
Proof.
  intros A C f l d; induction l as [|a l IH]; cbn; auto.
  f_equal; rewrite <- seq_shift, map_map; exact IH.
Qed.

Lemma transpose_outer : forall A B (g : B -> A -> num) xs ys,
  transpose (length xs) (outer g ys xs) = outer (fun x y => g y x) xs ys.
Proof.
  intros A B g xs ys; destruct xs as [|d xs']; [reflexivity|].
  remember (d :: xs') as xs; clear Heqxs.
  unfold transpose, outer.
  transitivity (map (fun j => map (fun y => g y (nth j xs d)) ys) (seq 0 (length xs))).
  - apply map_ext_in; intros j Hj; rewrite in_seq in Hj.
    rewrite map_map; apply map_ext; intros y.
    rewrite nth_indep with (d' := g y d) by (rewrite map_length; lia).
    apply (map_nth (g y)).
  - rewrite (map_nth_seq _ _ (fun x => map (fun y => g y x) ys) xs d); reflexivity.
Qed.

Lemma imap_at : forall A B C X (f : C -> A -> B) (u : X -> C) (v : X -> A) d xs k pre,
  length pre = k ->
  map (fun p => f (nth (fst p) (pre ++ map u xs) d) (snd p))
      (combine (seq k (length (map v xs))) (map v xs))
  = map (fun x => f (u x) (v x)) xs.
Proof.
  intros A B C X f u v d; induction xs as [|x xs IH]; intros k pre Hk; cbn; auto.
  f_equal.
  - f_equal; rewrite app_nth2, Hk, Nat.sub_diag by lia; reflexivity.
  - specialize (IH (S k) (pre ++ [u x])); rewrite <- app_assoc in IH; apply IH.
    rewrite app_length; cbn; lia.
Qed.

Lemma imap_map : forall A B C X (f : C -> A -> B) (u : X -> C) (v : X -> A) d xs,
  imap (fun i a => f (nth i (map u xs) d) a) (map v xs) = map (fun x => f (u x) (v x)) xs.
Proof. intros; unfold imap; apply (imap_at _ _ _ _ f u v d xs 0 []); reflexivity. Qed.

Lemma mimap_outer : forall A B (f : bool -> bool -> num -> num) (g : A -> B -> num) u w xs ys,
  mimap (fun i j v => f (nth i (map u xs) false) (nth j (map w ys) false) v) (outer g xs ys)
  = outer (fun x y => f (u x) (w y) (g x y)) xs ys.
Proof.
  intros; unfold mimap, outer.
  rewrite (imap_map _ _ _ _ (fun b row => imap (fun j v => f b (nth j (map w ys) false) v) row)
             u (fun x => map (fun y => g x y) ys) false xs).
  apply map_ext; intros x.
  apply (imap_map _ _ _ _ (fun c v => f (u x) c v) w (fun y => g x y) false ys).
Qed.

Lemma forallb_outer : forall A B t (g : A -> B -> num) xs ys,
  (forall x y, In x xs -> In y ys -> t (g x y) = true) ->
  forallb (forallb t) (outer g xs ys) = true.
Proof.
  intros A B t g xs ys H; unfold outer; rewrite forallb_forall; intros r Hr.
  apply in_map_iff in Hr; destruct Hr as (x & <- & Hx).
  rewrite forallb_forall; intros v Hv; apply in_map_iff in Hv; destruct Hv as (y & <- & Hy); auto.
Qed.

(** ** Finite rows *)

Lemma nsum_some : forall x, nsum (map Some x) = Some (total x).
Proof. induction x as [|a x IH]; cbn; auto; unfold nsum in IH; rewrite IH; reflexivity. Qed.

Lemma total_app : forall x y, total (x ++ y) = total x + total y.
Proof. induction x; intros; cbn; [lra|rewrite IHx; lra]. Qed.

Lemma total_scale : forall (f : R -> R) c x, (forall v, f v = v * c) ->
  total (map f x) = total x * c.
Proof. intros f c x Hf; induction x as [|a x IH]; cbn; [lra|rewrite IH, Hf; lra]. Qed.

Lemma map2_lift : forall (f : R -> R -> R) x y,
  map2 (lift2 f) (map Some x) (map Some y) = map Some (map2 f x y).
Proof.
  intros f; induction x as [|a x IH]; intros [|b y]; cbn; auto.
  unfold map2 in IH |- *; f_equal; apply IH.
Qed.

Lemma total_map2 : forall (f : R -> R -> R) x y,
  total (map2 f x y) = match x, y with a :: x', b :: y' => f a b + total (map2 f x' y') | _, _ => 0 end.
Proof. intros f [|a x] [|b y]; reflexivity. Qed.

Lemma total_mult : forall x y, total (map2 Rmult x y) = inner x y.
Proof.
  induction x as [|a x IH]; intros [|b y]; cbn; auto.
  unfold map2 in IH; rewrite IH; reflexivity.
Qed.

Lemma dot_some : forall x y, dot (map Some x) (map Some y) = Some (inner x y).
Proof. intros; unfold dot; rewrite map2_lift, nsum_some, total_mult; reflexivity. Qed.

Lemma lift1_map : forall f x, map (lift1 f) (map Some x) = map Some (map f x).
Proof. intros; rewrite !map_map; reflexivity. Qed.

Lemma ndiv_some : forall a b, b <> 0 -> ndiv (Some a) (Some b) = Some (a / b).
Proof. intros a b Hb; cbn; destruct (Req_EM_T b 0); [contradiction|reflexivity]. Qed.

Lemma nsqrt_some : forall a, 0 <= a -> nsqrt (Some a) = Some (sqrt a).
Proof. intros a Ha; cbn; destruct (Rle_dec 0 a); [reflexivity|contradiction]. Qed.

Lemma nlog_some : forall a, 0 < a -> nlog (Some a) = Some (ln a).
Proof. intros a Ha; cbn; destruct (Rlt_dec 0 a); [reflexivity|contradiction]. Qed.

Lemma nlog_map : forall x, positive x -> map nlog (map Some x) = map Some (map ln x).
Proof.
  induction 1 as [|a x Ha Hx IH]; [reflexivity|].
  cbn [map]; rewrite nlog_some, IH by assumption; reflexivity.
Qed.

Lemma nsqrt_map : forall x, nonnegative x -> map nsqrt (map Some x) = map Some (map sqrt x).
Proof.
  induction 1 as [|a x Ha Hx IH]; [reflexivity|].
  cbn [map]; rewrite nsqrt_some, IH by assumption; reflexivity.
Qed.

(** ** Inner products *)

Lemma inner_sym : forall x y, inner x y = inner y x.
Proof. induction x as [|a x IH]; intros [|b y]; cbn; auto; rewrite IH; lra. Qed.

Lemma inner_self_nonneg : forall x, 0 <= inner x x.
Proof. induction x as [|a x IH]; cbn; [lra|nra]. Qed.

Lemma inner_zero : forall x, inner x x = 0 -> zero_frame x.
Proof.
  induction x as [|a x IH]; cbn; intros H; constructor.
  - pose proof (inner_self_nonneg x); nra.
  - apply IH; pose proof (inner_self_nonneg x); nra.
Qed.

Lemma zero_inner : forall x y, zero_frame x -> inner x y = 0.
Proof.
  intros x y H; revert y; induction H as [|a x Ha Hx IH]; intros [|b y]; cbn; auto.
  rewrite IH; subst; lra.
Qed.

Lemma norm_zero_iff : forall x, norm x = 0 <-> zero_frame x.
Proof.
  intros x; unfold norm; split; intros H.
  - apply inner_zero; apply sqrt_eq_0; auto using inner_self_nonneg.
  - rewrite zero_inner by assumption; apply sqrt_0.
Qed.

Lemma norm_nonneg : forall x, 0 <= norm x.
Proof. intros; apply sqrt_pos. Qed.

Lemma norm_sqr : forall x, norm x * norm x = inner x x.
Proof. intros; apply sqrt_sqrt; apply inner_self_nonneg. Qed.

Lemma norm_pos : forall x, ~ zero_frame x -> 0 < norm x.
Proof.
  intros x H; destruct (norm_nonneg x) as [|E]; auto.
  exfalso; apply H; apply norm_zero_iff; auto.
Qed.

Fixpoint combination (t : R) (x y : frame) : frame :=
  match x, y with a :: x', b :: y' => t * a + b :: combination t x' y' | _, _ => [] end.

Lemma inner_combination : forall t x y, length x = length y ->
  inner (combination t x y) (combination t x y) = t * t * inner x x + 2 * t * inner x y + inner y y.
Proof.
  intros t; induction x as [|a x IH]; intros [|b y]; cbn; intros H; try discriminate; [lra|].
  rewrite IH by lia; lra.
Qed.

Lemma cauchy_schwarz : forall x y, length x = length y ->
  inner x y * inner x y <= inner x x * inner y y.
Proof.
  intros x y H.
  destruct (Req_dec (inner x x) 0) as [E|E].
  - rewrite (zero_inner x y) by (apply inner_zero; assumption); rewrite E; lra.
  - pose proof (inner_self_nonneg x) as Hx.
    pose proof (inner_combination (- inner x y / inner x x) x y H) as C.
    pose proof (inner_self_nonneg (combination (- inner x y / inner x x) x y)) as Hc.
    rewrite C in Hc; clear C.
    apply (Rmult_le_compat_r (inner x x)) in Hc; [|assumption].
    replace ((- inner x y / inner x x * (- inner x y / inner x x) * inner x x +
       2 * (- inner x y / inner x x) * inner x y + inner y y) * inner x x)
      with (inner x x * inner y y - inner x y * inner x y) in Hc by (field; assumption).
    lra.
Qed.

Lemma cosine_bounds : forall x y, length x = length y -> ~ zero_frame x -> ~ zero_frame y ->
  -1 <= inner x y / (norm x * norm y) <= 1.
Proof.
  intros x y H Hx Hy.
  pose proof (cauchy_schwarz x y H) as C.
  pose proof (norm_pos x Hx); pose proof (norm_pos y Hy).
  rewrite <- (norm_sqr x), <- (norm_sqr y) in C.
  assert (P : 0 < norm x * norm y) by (apply Rmult_lt_0_compat; assumption).
  assert (A : Rabs (inner x y) <= norm x * norm y).
  { rewrite <- (Rabs_pos_eq (norm x * norm y)) by lra.
    apply Rsqr_le_abs_0; unfold Rsqr; lra. }
  assert (A2 := Rle_abs (inner x y)); assert (A3 := Rle_abs (- inner x y)).
  rewrite Rabs_Ropp in A3.
  split.
  - apply Rmult_le_reg_r with (norm x * norm y); [assumption|].
    replace (inner x y / (norm x * norm y) * (norm x * norm y)) with (inner x y) by (field; lra).
    lra.
  - apply Rmult_le_reg_r with (norm x * norm y); [assumption|].
    replace (inner x y / (norm x * norm y) * (norm x * norm y)) with (inner x y) by (field; lra).
    lra.
Qed.
