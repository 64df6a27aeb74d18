(** The keys of the fused datasets. *)
From Coq Require Import String.
From Coq Require Import List ZArith Lia.
From Verif Require Import Prelude ListFacts TypeFitting TypeFitting_proofs H5io.
Import ListNotations.
Local Open Scope Z_scope.
Local Open Scope list_scope.

Definition under (n d : Z) : Prop := 0 <= d < n.

(** The number with these digits, the first with weight 1. *)
Fixpoint lval (ns ds : list Z) : Z :=
  match ns, ds with
  | n :: ns', d :: ds' => d + n * lval ns' ds'
  | _, _ => 0
  end.

Fixpoint wts (a : Z) (ns : list Z) : list Z :=
  match ns with
  | [] => []
  | n :: ns' => a :: wts (cast U64 (a * n)) ns'
  end.

Lemma wts_cumprod ns : forall a, ns <> [] -> a :: removelast (cumprod a ns) = wts a ns.
Proof.
  induction ns as [|n ns IH]; intros a Hn; [congruence|]. destruct ns as [|m ns].
  - reflexivity.
  - change (wts a (n :: m :: ns)) with (a :: wts (cast U64 (a * n)) (m :: ns)). f_equal.
    rewrite <- IH by discriminate. reflexivity.
Qed.

Lemma prod_pos ns ds : Forall2 under ns ds -> 1 <= prodZ ns.
Proof.
  induction 1 as [|n d ns ds H F IH]; cbn; [lia|]. unfold under in H. change (fold_right Z.mul 1 ns) with (prodZ ns). nia.
Qed.

Lemma lval_bound ns ds : Forall2 under ns ds -> 0 <= lval ns ds < prodZ ns.
Proof.
  induction 1 as [|n d ns ds H F IH]; cbn; [lia|]. unfold under in H. change (fold_right Z.mul 1 ns) with (prodZ ns). nia.
Qed.

Lemma lval_inj ns ds : Forall2 under ns ds -> forall ds', Forall2 under ns ds' -> lval ns ds = lval ns ds' -> ds = ds'.
Proof.
  induction 1 as [|n d ns ds H F IH]; intros ds' F' E; inversion F' as [|? d' ? ds'' H' F'']; subst; [reflexivity|].
  cbn in E. unfold under in *. assert (E1 : lval ns ds = lval ns ds'') by nia. rewrite (IH _ F'' E1). f_equal. nia.
Qed.

Definition dot (w ds : list Z) : Z := sumZ (map (fun p => cast U64 (fst p * cast U64 (snd p))) (combine w ds)).

Lemma cast64 v : 0 <= v < 2 ^ 64 -> cast U64 v = v.
Proof. intros Hv. apply cast_id. change (tmin U64) with 0. change (tmax U64) with (2 ^ 64 - 1). lia. Qed.

Lemma zero_digits ns ds : Forall2 under ns ds -> prodZ ns = 1 -> Forall (fun d => d = 0) ds /\ lval ns ds = 0.
Proof.
  induction 1 as [|n d ns ds H F IH]; intros E; [split; [constructor|reflexivity]|].
  unfold under in H. change (prodZ (n :: ns)) with (n * prodZ ns) in E. pose proof (prod_pos _ _ F).
  assert (prodZ ns = 1 /\ d = 0 /\ n = 1) as (E1 & -> & ->) by nia. destruct (IH E1) as [A B].
  split; [constructor; auto|]. cbn. rewrite B. reflexivity.
Qed.

Lemma dot_zero w ds : Forall (fun d => d = 0) ds -> dot w ds = 0.
Proof.
  intros F. revert w. induction F as [|d ds -> F IH]; intros [|x w]; try reflexivity.
  unfold dot in *. cbn [combine map fst snd]. unfold sumZ in *. cbn [fold_right]. rewrite IH.
  rewrite (cast64 0) by lia. rewrite Z.mul_0_r. rewrite (cast64 0) by lia. reflexivity.
Qed.

Lemma dot_wts t ns ds : signed t = false -> Forall2 under ns ds -> forall p, 1 <= p -> p * prodZ ns <= 2 ^ 64 ->
  p * prodZ ns <= tmax t + 1 -> dot (wts p (map (cast t) ns)) ds = p * lval ns ds.
Proof.
  intros Ht. induction 1 as [|n d ns ds H F IH]; intros p Hp Hb Hm; [unfold dot; cbn; lia|].
  unfold under in H. pose proof (prod_pos _ _ F) as Pp. pose proof (lval_bound _ _ F) as Lb.
  change (prodZ (n :: ns)) with (n * prodZ ns) in Hb, Hm.
  cbn [map wts lval]. unfold dot. cbn [combine map fst snd]. unfold sumZ. cbn [fold_right].
  change (fold_right Z.add 0 (map (fun p => cast U64 (fst p * cast U64 (snd p))) (combine (wts (cast U64 (p * cast t n)) (map (cast t) ns)) ds)))
    with (dot (wts (cast U64 (p * cast t n)) (map (cast t) ns)) ds).
  set (P := prodZ ns) in *.
  assert (N1 : 1 <= p * n) by nia. assert (N2 : p * n <= p * n * P) by (apply Z.le_mul_diag_r; lia).
  assert (N3 : n <= p * n) by nia. assert (N4 : p * d < p * n) by nia. rewrite Z.mul_assoc in Hb, Hm.
  assert (B1 : 0 <= p * d < 2 ^ 64) by nia. assert (B2 : 0 <= d < 2 ^ 64) by lia.
  rewrite (cast64 d B2), (cast64 (p * d) B1).
  assert (T : n <= tmax t \/ (p = 1 /\ P = 1)).
  { destruct (Z.le_gt_cases n (tmax t)) as [|G]; [left; assumption|right].
    assert (p * P * n <= n) by (replace (p * P * n) with (p * n * P) by ring; lia). assert (1 <= p * P) by nia. nia. }
  destruct T as [T|[-> E]].
  - assert (C : cast t n = n) by (apply cast_id; unfold tmin; rewrite Ht; lia). rewrite C.
    destruct (Z.lt_ge_cases (p * n) (2 ^ 64)) as [B|B].
    + rewrite (cast64 (p * n)) by lia. rewrite IH by lia. ring.
    + assert (E : P = 1) by (clear - Hb B Pp; assert (2 ^ 64 * P <= p * n * P) by (apply Z.mul_le_mono_nonneg_r; lia); lia). destruct (zero_digits _ _ F E) as [Z0 ->]. rewrite dot_zero by exact Z0. ring.
  - destruct (zero_digits _ _ F E) as [Z0 ->]. rewrite dot_zero by exact Z0. ring.
Qed.

Lemma prodZ_app l l' : prodZ (l ++ l') = prodZ l * prodZ l'.
Proof.
  induction l as [|x l IH]; [change (prodZ []) with 1; rewrite Z.mul_1_l; reflexivity|].
  cbn [app]. change (prodZ (x :: l ++ l')) with (x * prodZ (l ++ l')). change (prodZ (x :: l)) with (x * prodZ l).
  rewrite IH. ring.
Qed.

Lemma prodZ_repeat n d : prodZ (repeat n d) = n ^ Z.of_nat d.
Proof.
  induction d as [|d IH]; [reflexivity|]. cbn [repeat]. change (prodZ (n :: repeat n d)) with (n * prodZ (repeat n d)).
  rewrite IH, Nat2Z.inj_succ, Z.pow_succ_r by lia. reflexivity.
Qed.

Definition spread (l : list (Z * nat)) : list Z := flat_map (fun p => repeat (fst p) (snd p)) l.

Lemma prodZ_spread l : prodZ (spread l) = prodZ (map (fun p => fst p ^ Z.of_nat (snd p)) l).
Proof.
  induction l as [|[n d] l IH]; [reflexivity|]. unfold spread in *. cbn [flat_map map fst snd]. rewrite prodZ_app, prodZ_repeat, IH. reflexivity.
Qed.

Lemma map_repeat A B (f : A -> B) x n : map f (repeat x n) = repeat (f x) n.
Proof. induction n; cbn; congruence. Qed.

Lemma spread_cast t l : flat_map (fun p => repeat (cast t (fst p)) (snd p)) l = map (cast t) (spread l).
Proof.
  induction l as [|[n d] l IH]; [reflexivity|]. unfold spread in *. cbn [flat_map fst snd]. rewrite map_app, map_repeat, IH. reflexivity.
Qed.

(** The stored keys of rows of digits. *)
Lemma stored_keys l rows t :
  Forall (fun r => Forall2 under (spread l) r) rows -> rows <> [] ->
  prodZ (spread l) <= 2 ^ 64 ->
  fit_integer_type (cast U64 (cast U64 (prodZ (map (fun p => fst p ^ Z.of_nat (snd p)) l)) - 1)) false = Ok t ->
  map (cast t) (compute_keys (1 :: removelast (cumprod 1 (flat_map (fun p => repeat (cast t (fst p)) (snd p)) l))) rows)
  = map (lval (spread l)) rows.
Proof.
  intros F Hne Hp Et. rewrite <- prodZ_spread in Et. unfold compute_keys. rewrite map_map. apply map_ext_in.
  intros r Hin. pose proof (proj1 (Forall_forall _ _) F r Hin) as Fr. pose proof (prod_pos _ _ Fr) as Pp.
  assert (M : cast U64 (cast U64 (prodZ (spread l)) - 1) = prodZ (spread l) - 1).
  { destruct (Z.eq_dec (prodZ (spread l)) (2 ^ 64)) as [E|N].
    - rewrite E. vm_compute. reflexivity.
    - rewrite (cast64 (prodZ (spread l))) by lia. apply cast64. lia. }
  rewrite M in Et. pose proof (fit_narrowest _ _ _ Et) as (Ts & Tm & _). rewrite largest_tmax in Tm.
  assert (Hs : signed t = false) by (destruct t; cbn in Ts |- *; congruence).
  pose proof (lval_bound _ _ Fr) as Lb. rewrite spread_cast.
  change (sumZ (map (fun p => cast U64 (fst p * cast U64 (snd p))) (combine (1 :: removelast (cumprod 1 (map (cast t) (spread l)))) r)))
    with (dot (1 :: removelast (cumprod 1 (map (cast t) (spread l)))) r).
  destruct (spread l) as [|n ns] eqn:El.
  - inversion Fr; subst. cbn [lval]. change (dot (1 :: removelast (cumprod 1 (map (cast t) []))) []) with 0.
    rewrite (cast64 0) by lia. apply cast_id. pose proof (tmin_nonpos t). cbn in Tm. lia.
  - rewrite wts_cumprod by discriminate. rewrite (dot_wts t (n :: ns) r Hs Fr 1) by lia.
    rewrite Z.mul_1_l, (cast64 (lval (n :: ns) r)) by lia. apply cast_id. pose proof (tmin_nonpos t). lia.
Qed.
