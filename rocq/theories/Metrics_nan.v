(** Cosine distances of arrays with values that are not numbers. *)

From Coq Require Import Reals List Bool Arith Lia Lra Psatz.
From Verif Require Import Prelude Metrics Metrics_spec Metrics_proofs Metrics_cosine Metrics_kl Metrics_heap Metrics_values.
Import ListNotations.
Local Open Scope R_scope.

Definition size (r : list num) : num := nsqrt (nsum (map (lift1 (fun v => v ^ 2)) r)).

Definition cosine_entry (r s : list num) : num :=
  if is_zero (size r) && is_zero (size s) then Some 0
  else if is_zero (size s) then Some 1
  else if is_zero (size r) then Some 1
  else lift1 (fun a => a / PI) (narccos (ndiv (dot r s) (lift2 Rmult (size r) (size s)))).

Lemma cosine_form : forall t w xr yr, is_float t ->
  cosine_distance (mk_mat t w xr) (mk_mat t w yr) =
  if forallb (forallb is_nonneg) (outer cosine_entry xr yr) then Ok (outer cosine_entry xr yr) else Err AssertionError.
Proof.
  intros t w xr yr Ht; unfold cosine_distance.
  replace (same_float _ _) with true by (destruct Ht as [->| ->]; reflexivity).
  replace (same_cols _ _) with true by (unfold same_cols; cbn; rewrite Nat.eqb_refl; reflexivity).
  cbn [m_rows]; fold size. change (fun r => nsqrt (nsum (map (lift1 (fun v => v ^ 2)) r))) with size.
  rewrite !map_map, !outer_map, mmap2_outer, mmap_outer.
  rewrite (mimap_outer _ _ (fun bx by_ v => if bx then Some 1 else v) _ (fun r => is_zero (size r)) (fun r => is_zero (size r))).
  rewrite (mimap_outer _ _ (fun bx by_ v => if by_ then Some 1 else v) _ (fun r => is_zero (size r)) (fun r => is_zero (size r))).
  rewrite (mimap_outer _ _ (fun bx by_ v => if bx && by_ then Some 0 else v) _ (fun r => is_zero (size r)) (fun r => is_zero (size r))).
  fold cosine_entry. reflexivity.
Qed.

Lemma nsum_none : forall l, In None l -> nsum l = None.
Proof.
  induction l as [|a l IH]; intros []; cbn.
  - subst; reflexivity.
  - fold (nsum l); rewrite IH by assumption; destruct a; reflexivity.
Qed.

Lemma dot_none : forall r s, length r = length s -> In None r \/ In None s -> dot r s = None.
Proof.
  intros r s H N; unfold dot; apply nsum_none; unfold map2.
  revert s H N; induction r as [|a r IH]; intros [|b s]; cbn; try discriminate.
  - intros _ [[]|[]].
  - intros H [[->|N]|[->|N]]; cbn; auto.
    + left; destruct a; reflexivity.
Qed.

Lemma is_zero_size : forall r, is_zero (size r) = true -> Forall (fun v => v = Some 0) r.
Proof.
  intros r; unfold size; destruct (nsum (map (lift1 (fun v => v ^ 2)) r)) as [s|] eqn:E; [|discriminate].
  cbn; destruct (Rle_dec 0 s) as [L|]; [|discriminate]; cbn; destruct (Req_EM_T (sqrt s) 0) as [Z|]; [|discriminate].
  intros _; apply sqrt_eq_0 in Z; [|assumption]; subst s.
  revert E; induction r as [|v r IH]; [constructor|]; cbn; fold (nsum (map (lift1 (fun v => v * (v * 1))) r)).
  destruct v as [v|]; [|discriminate]; cbn.
  destruct (nsum (map (lift1 (fun v => v * (v * 1))) r)) as [u|] eqn:Eu; [|discriminate]; cbn; intros [= E].
  destruct (nsum_inv _ _ Eu) as (z & Ez & Hz).
  assert (U : 0 <= u).
  { rewrite <- Hz; clear -Ez; revert z Ez; induction r as [|[a|] r IH]; intros [|b z]; cbn; try discriminate; [lra|].
    intros [= <- Ez]; specialize (IH z Ez); nra. }
  assert (v = 0 /\ u = 0) as [-> ->] by (split; nra).
  constructor; auto.
Qed.

Lemma zero_size : forall r, Forall (fun v => v = Some 0) r -> is_zero (size r) = true.
Proof.
  intros r H; assert (E : nsum (map (lift1 (fun v => v ^ 2)) r) = Some 0).
  { induction H as [|v r -> H IH]; [reflexivity|]. cbn [map nsum fold_right]. fold (nsum (map (lift1 (fun v => v ^ 2)) r)).
    rewrite IH; cbn; f_equal; lra. }
  unfold size; rewrite E; cbn; destruct (Rle_dec 0 0); [|lra]; cbn; rewrite sqrt_0; destruct (Req_EM_T 0 0); [reflexivity|contradiction].
Qed.

Lemma cosine_nan : forall t w xr yr r s, is_float t -> In r xr -> In s yr -> length r = length s ->
  In None r \/ In None s -> ~ Forall (fun v => v = Some 0) r -> ~ Forall (fun v => v = Some 0) s ->
  cosine_distance (mk_mat t w xr) (mk_mat t w yr) = Err AssertionError.
Proof.
  intros t w xr yr r s Ht Hr Hs HL HN Nr Ns; rewrite cosine_form by assumption.
  assert (E : cosine_entry r s = None).
  { unfold cosine_entry.
    destruct (is_zero (size r)) eqn:Er; [apply is_zero_size in Er; contradiction|].
    destruct (is_zero (size s)) eqn:Es; [apply is_zero_size in Es; contradiction|]. cbn [andb].
    rewrite dot_none by assumption; unfold ndiv; destruct (lift2 Rmult (size r) (size s)); [destruct (Req_EM_T _ _)|]; reflexivity. }
  destruct (forallb (forallb is_nonneg) (outer cosine_entry xr yr)) eqn:F; [|reflexivity].
  rewrite forallb_forall in F; unfold outer in F.
  assert (F' : forallb is_nonneg (map (fun y => cosine_entry r y) yr) = true) by (apply F, in_map_iff; eauto).
  rewrite forallb_forall in F'.
  assert (F2 : is_nonneg (cosine_entry r s) = true) by (apply F', in_map_iff; eauto).
  rewrite E in F2; discriminate.
Qed.

Lemma normalise_zero_sum : forall x, total x = 0 -> normalise_row (map Some x) = map (fun _ => None) x.
Proof.
  intros x H; unfold normalise_row; rewrite nsum_some, H, map_map; apply map_ext; intros v; cbn.
  destruct (Req_EM_T 0 0); [reflexivity|contradiction].
Qed.

Lemma normalise_not_zero : forall x, x <> [] -> ~ Forall (fun v => v = Some 0) (normalise_row (map Some x)).
Proof.
  intros x Hx H; destruct (Req_EM_T (total x) 0) as [Z|N].
  - rewrite normalise_zero_sum in H by assumption; destruct x; [contradiction|]; inversion H; discriminate.
  - rewrite normalise_row_some in H by assumption; apply N.
    assert (P : Forall (fun v => v = 0) x).
    { clear Hx; unfold prob in H; rewrite map_map in H; revert H; generalize (total x) N; clear N; intros s Hs.
      induction x as [|v x IH]; cbn; intros H; constructor; inversion H as [|? ? E H']; subst.
      - injection E as E; apply Rmult_integral in E as [E|E]; [assumption|].
        exfalso; apply (Rinv_neq_0_compat s Hs); exact E.
      - auto. }
    clear -P; induction P as [|v x -> _ IH]; cbn; [reflexivity|rewrite IH; lra].
Qed.

Lemma normalized_cosine_zero_sum : forall t w xs ys h i j, is_float t -> w <> 0%nat ->
  frames_of w xs -> frames_of w ys -> xs <> [] -> ys <> [] ->
  (exists x, In x xs /\ total x = 0) \/ (exists y, In y ys /\ total y = 0) ->
  nth_error h i = Some (array t w xs) -> nth_error h j = Some (array t w ys) ->
  normalize_cosine_distance h i j = Err AssertionError.
Proof.
  intros t w xs ys h i j Ht Hw Wx Wy Nx Ny HZ Hx Hy.
  assert (I : t <> Integer) by (destruct Ht as [->| ->]; discriminate).
  unfold normalize_cosine_distance.
  destruct (normalise_both h i j _ _ Hx Hy I I) as (h0 & h1 & -> & E1 & Ei & Ej & _).
  cbn [bind]; rewrite E1; cbn [bind]; rewrite Ei; cbn [bind]; rewrite Ej; cbn [bind].
  unfold normalise; cbn [array m_type m_cols m_rows].
  assert (P : exists x y, In x xs /\ In y ys /\ (total x = 0 \/ total y = 0)).
  { destruct HZ as [(x & I1 & Z)|(y & I1 & Z)].
    - destruct ys as [|y ys]; [contradiction|]; exists x, y; cbn; auto.
    - destruct xs as [|x xs]; [contradiction|]; exists x, y; cbn; auto. }
  destruct P as (x & y & Ix & Iy & Z).
  unfold frames_of in *; rewrite Forall_forall in Wx, Wy; specialize (Wx x Ix); specialize (Wy y Iy).
  assert (NE : forall z : frame, length z = w -> z <> []) by (intros [|? ?] E; [cbn in E; congruence|discriminate]).
  rewrite (cosine_nan t w _ _ (normalise_row (map Some x)) (normalise_row (map Some y))); try reflexivity; try assumption.
  - apply in_map, in_map; assumption.
  - apply in_map, in_map; assumption.
  - unfold normalise_row; rewrite !map_length; congruence.
  - destruct Z as [Z|Z]; [left|right]; rewrite normalise_zero_sum by assumption.
    + specialize (NE x Wx); destruct x; [contradiction|]; cbn; auto.
    + specialize (NE y Wy); destruct y; [contradiction|]; cbn; auto.
  - apply normalise_not_zero, NE, Wx.
  - apply normalise_not_zero, NE, Wy.
Qed.

Lemma itakura_saito_types : forall x y, ~ (is_float (m_type x) /\ m_type y = m_type x) -> is_distance x y = Err AssertionError.
Proof.
  intros x y H; unfold is_distance; replace (same_float x y) with false; [reflexivity|].
  unfold same_float, is_float in *; destruct (m_type x), (m_type y); try reflexivity; exfalso; apply H; auto.
Qed.
