(** The laws of computations that read random draws one after the other. *)
From Coq Require Import Reals Lra.
From Verif Require Import Prelude ListFacts Sampler Sampler_spec Sampler_proofs Sampler_uniform Chance_spec Chance_count.
Open Scope Z_scope.

(** * Sequences *)

Lemma cv_squeeze (u v w : nat -> R) (l : R) (N : nat) :
  (forall n, (N <= n)%nat -> (u n <= v n <= w n)%R) -> Un_cv u l -> Un_cv w l -> Un_cv v l.
Proof.
  intros H Hu Hw e He. destruct (Hu e He) as [n1 H1]. destruct (Hw e He) as [n2 H2].
  exists (N + n1 + n2)%nat. intros n Hn. specialize (H n ltac:(lia)). specialize (H1 n ltac:(lia)). specialize (H2 n ltac:(lia)).
  unfold R_dist in *. apply Rabs_def2 in H1. apply Rabs_def2 in H2. apply Rabs_def1; lra.
Qed.

Lemma cv_const (l : R) : Un_cv (fun _ => l) l.
Proof. intros e He. exists O. intros. unfold R_dist. rewrite Rminus_diag_eq, Rabs_R0 by reflexivity. exact He. Qed.

Lemma cv_ext (u v : nat -> R) l (N : nat) : (forall n, (N <= n)%nat -> u n = v n) -> Un_cv u l -> Un_cv v l.
Proof.
  intros H Hu. apply (cv_squeeze u v u l N); [|exact Hu|exact Hu]. intros n Hn. rewrite (H n Hn). lra.
Qed.

Lemma cv_sub (u : nat -> R) (g : nat -> nat) l : (forall N, exists M, forall n, (M <= n)%nat -> (N <= g n)%nat) -> Un_cv u l -> Un_cv (fun n => u (g n)) l.
Proof.
  intros Hg Hu e He. destruct (Hu e He) as [N HN]. destruct (Hg N) as [M HM]. exists M. intros n Hn. apply HN. apply HM. exact Hn.
Qed.

Lemma sum_nonneg_mono (e : nat -> R) a b : (forall k, (0 <= e k)%R) -> (a <= b)%nat -> (sum_f_R0 e a <= sum_f_R0 e b)%R.
Proof.
  intros He H. induction H as [|b H IH]; [lra|]. cbn [sum_f_R0]. specialize (He (S b)). lra.
Qed.

Lemma sum_le_upto (e f : nat -> R) T : (forall k, (k <= T)%nat -> (e k <= f k)%R) -> (sum_f_R0 e T <= sum_f_R0 f T)%R.
Proof. intros H. apply sum_Rle. exact H. Qed.

(** What follows the first draws. *)
Lemma cv_convolution (e q : nat -> R) (P Q : R) :
  (forall k, (0 <= e k)%R) -> (forall k, (0 <= q k)%R) -> (forall a b, (a <= b)%nat -> (q a <= q b)%R) ->
  Un_cv (sum_f_R0 e) P -> Un_cv q Q ->
  Un_cv (fun T => sum_f_R0 (fun k => (e k * q (T - k)%nat)%R) T) (P * Q)%R.
Proof.
  intros He Hq Hm HP HQ.
  apply (cv_squeeze (fun T => (sum_f_R0 e (T / 2) * q (T - T / 2)%nat)%R) _ (fun T => (sum_f_R0 e T * q T)%R) _ 0).
  - intros T _. pose proof (Nat.div_lt_upper_bound T 2 (S T) ltac:(lia) ltac:(lia)) as Hh. set (h := (T / 2)%nat) in *. split.
    + rewrite Rmult_comm, scal_sum. apply Rle_trans with (sum_f_R0 (fun k => (e k * q (T - k)%nat)%R) h).
      * apply sum_le_upto. intros k Hk. apply Rmult_le_compat_l; [apply He|]. apply Hm. lia.
      * apply (sum_nonneg_mono (fun k => (e k * q (T - k)%nat)%R)); [|lia]. intros k. apply Rmult_le_pos; [apply He|apply Hq].
    + rewrite (Rmult_comm (sum_f_R0 e T)), scal_sum. apply sum_le_upto. intros k Hk. apply Rmult_le_compat_l; [apply He|].
      apply Hm. lia.
  - apply CV_mult.
    + apply (cv_sub (sum_f_R0 e) (fun T => (T / 2)%nat)); [|exact HP]. intros N. exists (2 * N)%nat. intros n Hn.
      apply Nat.div_le_lower_bound; lia.
    + apply (cv_sub q (fun T => (T - T / 2)%nat)); [|exact HQ]. intros N. exists (2 * N)%nat. intros n Hn.
      pose proof (Nat.div_le_upper_bound n 2 (n - N) ltac:(lia) ltac:(lia)). lia.
  - apply CV_mult; assumption.
Qed.

Lemma INR_upto g T : INR (upto g T) = sum_f_R0 (fun k => INR (g k)) T.
Proof. induction T as [|T IH]; [reflexivity|]. cbn [upto sum_f_R0]. rewrite plus_INR, IH. reflexivity. Qed.

Lemma cv_list {A} (u : A -> nat -> R) (r : R) l : (forall a, In a l -> Un_cv (u a) r) ->
  Un_cv (fun T => fold_right Rplus 0%R (map (fun a => u a T) l)) (INR (length l) * r)%R.
Proof.
  induction l as [|a l IH]; intros H.
  - cbn. rewrite Rmult_0_l. apply cv_const.
  - cbn [map fold_right length]. rewrite S_INR. replace ((INR (length l) + 1) * r)%R with (r + INR (length l) * r)%R by ring.
    apply (CV_plus (u a)); [apply H; left; reflexivity|]. apply IH. intros. apply H. right. assumption.
Qed.

Lemma INR_sumn l : INR (sumn l) = fold_right Rplus 0%R (map INR l).
Proof. induction l as [|x l IH]; [reflexivity|]. change (sumn (x :: l)) with (x + sumn l)%nat. rewrite plus_INR, IH. reflexivity. Qed.

(** * Computations *)

Definition comp (A : Type) := nat -> rng -> nat -> res (A * nat).

Definition agree (R : rng) (c : nat) (R' : rng) (d k : nat) : Prop :=
  rnd_den R = rnd_den R' /\ forall i, (i < k)%nat ->
    rnd_unit R (c + i) = rnd_unit R' (d + i) /\ forall N, rnd_int R (c + i) N = rnd_int R' (d + i) N.

Definition reads {A} (f : comp A) : Prop := forall fuel R c a c', rng_ok R -> f fuel R c = Ok (a, c') ->
  (c <= c')%nat /\ forall fuel' R' d, agree R c R' d (c' - c) -> (c' - c < fuel')%nat ->
    f fuel' R' d = Ok (a, (d + (c' - c))%nat).

Section Law.
Variable L : Z.
Hypothesis HL : 0 < L.

Lemma drawn_ok n v : In v (vectors L n) -> rng_ok (drawn L v).
Proof.
  intros Hv. split; [exact HL|]. split.
  - intros c. cbn. destruct (nth_in_or_default c v 0) as [H| ->]; [exact (vectors_In L n v Hv _ H)|lia].
  - intros c N HN. cbn. apply Z.mod_pos_bound. exact HN.
Qed.

Section One.
Context {A : Type}.
Variable eqA : forall a b : A, {a = b} + {a <> b}.

(** Where the computation ends, when it gives [a]. *)
Definition ends (f : comp A) (a : A) (T : nat) (v : list Z) : option nat :=
  match f (S T) (drawn L v) 0%nat with
  | Ok (b, c) => if eqA b a then Some c else None
  | Err _ => None
  end.

Definition within (o : option nat) (T : nat) : bool := match o with Some k => Nat.leb k T | None => false end.
Definition exactly (o : option nat) (T : nat) : bool := match o with Some k => Nat.eqb k T | None => false end.

(** The number of vectors of [T] draws with which the computation gives [a] and reads no more than them. *)
Definition fin (f : comp A) (a : A) (T : nat) : nat := cnt L T (fun v => within (ends f a T v) T).
Definition exa (f : comp A) (a : A) (k : nat) : nat := cnt L k (fun v => exactly (ends f a k v) k).

Lemma ends_spec f a T v k : ends f a T v = Some k <-> f (S T) (drawn L v) 0%nat = Ok (a, k).
Proof.
  unfold ends. destruct (f (S T) (drawn L v) 0%nat) as [[b c]|e]; [|split; discriminate].
  destruct (eqA b a) as [->|Hn]; split; intros E; congruence.
Qed.

Lemma exactly_spec o k : exactly o k = true <-> o = Some k.
Proof. destruct o as [j|]; cbn; [rewrite Nat.eqb_eq; split; congruence|split; discriminate]. Qed.

Lemma within_spec o k : within o k = true <-> exists j, o = Some j /\ (j <= k)%nat.
Proof.
  destruct o as [j|]; cbn; [rewrite Nat.leb_le|].
  - split; [intros; exists j; auto|]. intros (i & E & H). injection E as ->. exact H.
  - split; [discriminate|]. intros (i & E & _). discriminate.
Qed.

Lemma bool_iff (a b : bool) : (a = true <-> b = true) -> a = b.
Proof. destruct a, b; intros [H1 H2]; try reflexivity; [symmetry; apply H1|apply H2]; reflexivity. Qed.

Lemma drawn_firstn k v : (k <= length v)%nat -> agree (drawn L v) 0 (drawn L (firstn k v)) 0 k.
Proof.
  clear HL eqA. intros Hk. split; [reflexivity|]. intros i Hi. cbn.
  assert (E : nth i (firstn k v) 0 = nth i v 0).
  { rewrite <- (firstn_skipn k v) at 2. rewrite app_nth1; [reflexivity|]. rewrite firstn_length. lia. }
  rewrite E. split; reflexivity.
Qed.

Lemma drawn_skipn k j v : agree (drawn L v) k (drawn L (skipn k v)) 0 j.
Proof.
  clear HL eqA. split; [reflexivity|]. intros i Hi. cbn.
  assert (E : nth i (skipn k v) 0 = nth (k + i) v 0).
  { clear. revert v. induction k as [|k IH]; intros v; [reflexivity|]. destruct v as [|x v]; [cbn; destruct i; reflexivity|]. cbn. apply IH. }
  rewrite E. split; reflexivity.
Qed.

Lemma agree_sym R c R' d k : agree R c R' d k -> agree R' d R c k.
Proof. intros [H1 H2]. split; [auto|]. intros i Hi. destruct (H2 i Hi) as [H3 H4]. split; auto. Qed.

Lemma agree_le R c R' d k k' : (k' <= k)%nat -> agree R c R' d k -> agree R c R' d k'.
Proof. clear eqA HL. intros H [H1 H2]. split; [auto|]. intros i Hi. apply H2. lia. Qed.

Lemma run_firstn (f : comp A) a k T v : reads f -> In v (vectors L T) -> (k <= T)%nat ->
  (f (S T) (drawn L v) 0%nat = Ok (a, k) <-> f (S k) (drawn L (firstn k v)) 0%nat = Ok (a, k)).
Proof.
  clear eqA. intros Hf Hv Hk. pose proof (vectors_len _ _ _ Hv) as Hlen. split; intros E; apply Hf in E as [_ E].
  2:{ exact (drawn_ok T v Hv). }
  3:{ apply (drawn_ok k). apply in_vectors; [rewrite firstn_length; lia|]. intros u Hu. apply (vectors_In L T v Hv).
      rewrite <- (firstn_skipn k v). apply in_app_iff. left. exact Hu. }
  - specialize (E (S k) (drawn L (firstn k v)) O). rewrite E; [f_equal; f_equal; lia| |lia].
    rewrite Nat.sub_0_r. apply drawn_firstn. lia.
  - specialize (E (S T) (drawn L v) O). rewrite E; [f_equal; f_equal; lia| |lia].
    rewrite Nat.sub_0_r. apply agree_sym. apply drawn_firstn. lia.
Qed.

Lemma exact_count f a k T : reads f -> (k <= T)%nat ->
  cnt L T (fun v => exactly (ends f a T v) k) = (exa f a k * Z.to_nat L ^ (T - k))%nat.
Proof.
  intros Hf Hk. unfold exa. rewrite <- (cnt_all L (T - k)) by lia. rewrite <- cnt_split.
  replace (k + (T - k))%nat with T by lia. apply cnt_ext. intros v Hv.
  rewrite andb_true_r. apply bool_iff. rewrite !exactly_spec, !ends_spec. apply run_firstn; assumption.
Qed.

Lemma fin_sum f a T : reads f -> fin f a T = upto (fun k => (exa f a k * Z.to_nat L ^ (T - k))%nat) T.
Proof.
  intros Hf. unfold fin, within. rewrite cnt_upto.
  assert (G : forall h h' n, (forall k, (k <= n)%nat -> h k = h' k) -> upto h n = upto h' n).
  { intros h h' n. induction n as [|n IH]; intros H; cbn; [apply H; lia|]. rewrite IH, H; auto. }
  apply G. intros k Hk. rewrite <- exact_count by assumption. reflexivity.
Qed.

Definition probability (f : comp A) (a : A) (T : nat) : R := (INR (fin f a T) / IZR L ^ T)%R.
Definition weight (f : comp A) (a : A) (k : nat) : R := (INR (exa f a k) / IZR L ^ k)%R.

Lemma powL_pos n : (0 < IZR L ^ n)%R.
Proof. apply pow_lt. apply IZR_lt. exact HL. Qed.

Lemma INR_L n : INR (Z.to_nat L ^ n) = (IZR L ^ n)%R.
Proof. rewrite pow_INR, INR_IZR_INZ, Z2Nat.id by lia. reflexivity. Qed.

Lemma powL_split k T : (k <= T)%nat -> (IZR L ^ T = IZR L ^ k * IZR L ^ (T - k))%R.
Proof. intros H. rewrite <- pow_add. f_equal. lia. Qed.

Lemma weight_pos f a k : (0 <= weight f a k)%R.
Proof. apply Rmult_le_pos; [apply pos_INR|]. left. apply Rinv_0_lt_compat. apply powL_pos. Qed.

Lemma probability_pos f a T : (0 <= probability f a T)%R.
Proof. apply Rmult_le_pos; [apply pos_INR|]. left. apply Rinv_0_lt_compat. apply powL_pos. Qed.

Lemma probability_sum f a T : reads f -> probability f a T = sum_f_R0 (weight f a) T.
Proof.
  intros Hf. unfold probability. rewrite fin_sum, INR_upto by exact Hf. unfold Rdiv. rewrite Rmult_comm, scal_sum.
  apply sum_eq. intros k Hk. unfold weight. rewrite mult_INR, INR_L, (powL_split k T Hk).
  pose proof (powL_pos k). pose proof (powL_pos (T - k)). field. split; lra.
Qed.

Lemma probability_mono f a s t : reads f -> (s <= t)%nat -> (probability f a s <= probability f a t)%R.
Proof. intros Hf H. rewrite !probability_sum by exact Hf. apply sum_nonneg_mono; [apply weight_pos|exact H]. Qed.

(** The results of [f] are those of [l], and they have the same probability. *)
Record law (f : comp A) (l : list A) : Prop := {
  law_reads : reads f;
  law_nonempty : l <> [];
  law_NoDup : NoDup l;
  law_in : forall fuel R c a c', rng_ok R -> f fuel R c = Ok (a, c') -> In a l;
  law_cv : forall a, In a l -> Un_cv (probability f a) (/ INR (length l))%R
}.

Lemma law_ext f g l : (forall fuel R c, f fuel R c = g fuel R c) -> law f l -> law g l.
Proof.
  intros E [H1 H2 H3 H4 H5]. split; auto.
  - intros fuel R c a c' HR H. rewrite <- E in H. apply H1 in H as [H H']; [|exact HR]. split; [exact H|]. intros. rewrite <- E. auto.
  - intros fuel R c a c' HR H. rewrite <- E in H. eapply H4; eassumption.
  - intros a Ha. apply (cv_ext (probability f a) _ _ 0); [|apply H5; exact Ha]. intros T _. unfold probability, fin, ends. f_equal. f_equal.
    apply cnt_ext. intros v _. rewrite E. reflexivity.
Qed.

Lemma law_ext_ok f g l : (forall fuel R c x, f fuel R c = Ok x <-> g fuel R c = Ok x) -> law f l -> law g l.
Proof.
  intros E [H1 H2 H3 H4 H5]. split; auto.
  - intros fuel R c a c' HR H. apply E in H. apply H1 in H as [H H']; [|exact HR]. split; [exact H|]. intros. apply E. auto.
  - intros fuel R c a c' HR H. apply E in H. eapply H4; eassumption.
  - intros a Ha. apply (cv_ext (probability f a) _ _ 0); [|apply H5; exact Ha]. intros T _. unfold probability, fin. f_equal. f_equal.
    apply cnt_ext. intros v _. f_equal. destruct (ends f a T v) as [k|] eqn:E1.
    + symmetry. apply ends_spec. apply E. apply ends_spec. exact E1.
    + destruct (ends g a T v) as [k|] eqn:E2; [|reflexivity]. apply ends_spec in E2. apply E in E2. apply ends_spec in E2. congruence.
Qed.

Lemma reads_ret (a : A) : reads (fun _ _ c => Ok (a, c)).
Proof. clear eqA HL. intros fuel R c b c' _ E. injection E as <- <-. split; [lia|]. intros. f_equal. f_equal. lia. Qed.

Lemma law_ret (a : A) : law (fun _ _ c => Ok (a, c)) [a].
Proof.
  split.
  - apply reads_ret.
  - discriminate.
  - repeat constructor. intros [].
  - intros fuel R c b c' _ E. injection E as <- <-. left. reflexivity.
  - intros b [<-|[]]. apply (cv_ext (fun _ => 1%R) _ _ 0); [|cbn; rewrite Rinv_1; apply cv_const].
    intros T _. unfold probability, fin, ends. rewrite (cnt_ext L T _ (fun _ => true)).
    + rewrite cnt_all, INR_L by lia. pose proof (powL_pos T). field. lra.
    + intros v _. destruct (eqA a a); [reflexivity|contradiction].
Qed.

End One.

Section Bind.
Context {A B : Type}.
Variable eqA : forall a b : A, {a = b} + {a <> b}.
Variable eqB : forall a b : B, {a = b} + {a <> b}.

Definition bindc (f : comp A) (g : A -> comp B) : comp B := fun fuel R c =>
  match f fuel R c with Ok (a, c') => g a fuel R c' | Err e => Err e end.

Lemma reads_bind f g l : reads f -> (forall fuel R c a c', rng_ok R -> f fuel R c = Ok (a, c') -> In a l) ->
  (forall a, In a l -> reads (g a)) -> reads (bindc f g).
Proof.
  clear eqA eqB HL. intros Hf Hl Hg fuel R c b c' HR E. unfold bindc in *. destruct (f fuel R c) as [[a c1]|e] eqn:E1; [|discriminate].
  pose proof (Hl _ _ _ _ _ HR E1) as Ha.
  apply Hf in E1 as [H1 E1]; [|exact HR]. apply (Hg a Ha) in E as [H2 E]; [|exact HR]. split; [lia|]. intros fuel' R' d Hag Hlt.
  rewrite (E1 fuel' R' d); [|apply (agree_le R c R' d (c' - c)); [lia|exact Hag]|lia].
  rewrite (E fuel' R' (d + (c1 - c))%nat).
  - f_equal. f_equal. lia.
  - destruct Hag as [Ha1 Ha2]. split; [exact Ha1|]. intros i Hi. specialize (Ha2 (c1 - c + i)%nat ltac:(lia)).
    replace (c + (c1 - c + i))%nat with (c1 + i)%nat in Ha2 by lia.
    replace (d + (c1 - c + i))%nat with (d + (c1 - c) + i)%nat in Ha2 by lia. exact Ha2.
  - lia.
Qed.

Lemma run_skipn (g : comp B) b k c' T v : reads g -> In v (vectors L T) -> (k <= T)%nat -> (k <= c')%nat -> (c' <= T)%nat ->
  (g (S T) (drawn L v) k = Ok (b, c') <-> g (S (T - k)) (drawn L (skipn k v)) 0%nat = Ok (b, (c' - k)%nat)).
Proof.
  clear eqA eqB. intros Hg Hv Hk Hc Hc'. pose proof (vectors_len _ _ _ Hv) as Hlen. split; intros E; apply Hg in E as [_ E].
  2:{ exact (drawn_ok T v Hv). }
  3:{ apply (drawn_ok (T - k)). apply in_vectors; [rewrite skipn_length; lia|]. intros u Hu. apply (vectors_In L T v Hv).
      rewrite <- (firstn_skipn k v). apply in_app_iff. right. exact Hu. }
  - specialize (E (S (T - k)) (drawn L (skipn k v)) O). rewrite E; [f_equal; f_equal; lia| |lia]. apply drawn_skipn.
  - specialize (E (S T) (drawn L v) k). rewrite E; [f_equal; f_equal; lia| |lia].
    apply agree_sym. rewrite Nat.sub_0_r. apply drawn_skipn.
Qed.

Variable f : comp A.
Variable g : A -> comp B.
Variable l : list A.
Variable m : A -> list B.
Variable n : nat.
Hypothesis Hf : law eqA f l.
Hypothesis Hg : forall a, In a l -> law eqB (g a) (m a).
Hypothesis Hm : forall a, In a l -> length (m a) = n.
Hypothesis Hd : forall a a' b, In a l -> In a' l -> In b (m a) -> In b (m a') -> a = a'.

Lemma bind_fin a b T : In a l -> In b (m a) ->
  fin eqB (bindc f g) b T = upto (fun k => (exa eqA f a k * fin eqB (g a) b (T - k))%nat) T.
Proof.
  intros Ha Hb.
  set (mid := fun v => if within (ends eqB (bindc f g) b T v) T then ends eqA f a T v else None).
  transitivity (cnt L T (fun v => match mid v with Some k => Nat.leb k T | None => false end)).
  { unfold fin. apply cnt_ext. intros v Hv. unfold mid. destruct (within (ends eqB (bindc f g) b T v) T) eqn:E; [|reflexivity].
    apply within_spec in E as (c' & E & Hc'). apply ends_spec in E. unfold bindc in E.
    destruct (f (S T) (drawn L v) 0%nat) as [[a0 k]|e] eqn:E1; [|discriminate].
    assert (H0 : In a0 l) by (eapply (law_in _ _ _ Hf); [apply (drawn_ok T v Hv)|exact E1]).
    assert (Hb0 : In b (m a0)) by (eapply (law_in _ _ _ (Hg a0 H0)); [apply (drawn_ok T v Hv)|exact E]).
    rewrite (Hd a0 a b H0 Ha Hb0 Hb) in *. apply (ends_spec eqA) in E1. rewrite E1. symmetry. apply Nat.leb_le.
    apply (law_reads _ _ _ (Hg a Ha)) in E as [E _]; [lia|exact (drawn_ok T v Hv)]. }
  rewrite cnt_upto.
  assert (G : forall h h' j, (forall k, (k <= j)%nat -> h k = h' k) -> upto h j = upto h' j).
  { intros h h' j. induction j as [|j IH]; intros H; cbn; [apply H; lia|]. rewrite IH, H; auto. }
  apply G. intros k Hk. unfold exa, fin. rewrite <- cnt_split. replace (k + (T - k))%nat with T by lia.
  apply cnt_ext. intros v Hv. pose proof (vectors_len _ _ _ Hv) as Hlen.
  change (exactly (mid v) k = exactly (ends eqA f a k (firstn k v)) k && within (ends eqB (g a) b (T - k) (skipn k v)) (T - k)).
  apply bool_iff. rewrite andb_true_iff, !exactly_spec, within_spec, ends_spec. unfold mid.
  rewrite <- (run_firstn f a k T v (law_reads _ _ _ Hf) Hv Hk). split.
  - destruct (within (ends eqB (bindc f g) b T v) T) eqn:E; [|discriminate]. intros E1. apply ends_spec in E1. split; [exact E1|].
    apply within_spec in E as (c' & E & Hc'). apply ends_spec in E. unfold bindc in E. rewrite E1 in E.
    pose proof (law_reads _ _ _ (Hg a Ha) _ _ _ _ _ (drawn_ok T v Hv) E) as [Hkc _]. exists (c' - k)%nat. split; [|lia]. apply ends_spec.
    apply (run_skipn (g a) b k c' T v); auto. exact (law_reads _ _ _ (Hg a Ha)).
  - intros [E1 (j & E & Hj)]. apply ends_spec in E.
    replace j with (k + j - k)%nat in E by lia. apply (run_skipn (g a) b k (k + j) T v) in E; auto; try lia; [|exact (law_reads _ _ _ (Hg a Ha))].
    assert (W : within (ends eqB (bindc f g) b T v) T = true).
    { apply within_spec. exists (k + j)%nat. split; [|lia]. apply ends_spec. unfold bindc. rewrite E1. exact E. }
    rewrite W. apply ends_spec. exact E1.
Qed.

Lemma flat_length : length (flat_map m l) = (length l * n)%nat.
Proof.
  pose proof Hm as H. clear - H. induction l as [|a l0 IH]; [reflexivity|]. cbn [flat_map length]. rewrite app_length, (H a), IH; [reflexivity| |left; reflexivity].
  intros x Hx. apply H. right. exact Hx.
Qed.

Lemma flat_NoDup : NoDup (flat_map m l).
Proof.
  pose proof (law_NoDup _ _ _ Hf) as Hl. pose proof (fun a Ha => law_NoDup _ _ _ (Hg a Ha)) as Hn. pose proof Hd as H. clear - Hl Hn H.
  induction l as [|a l0 IH]; [constructor|]. cbn [flat_map]. apply NoDup_cons_iff in Hl as [Ha Hl]. apply NoDup_app_intro.
  - apply Hn. left. reflexivity.
  - apply IH; auto using in_cons. intros a1 a2 b H1 H2. apply H; right; assumption.
  - intros b Hb Hb'. apply in_flat_map in Hb' as (a' & Ha' & Hb'). apply Ha.
    rewrite (H a a' b); auto using in_eq, in_cons.
Qed.

Lemma law_bind : law eqB (bindc f g) (flat_map m l).
Proof.
  split.
  - apply (reads_bind f g l); [exact (law_reads _ _ _ Hf)|exact (law_in _ _ _ Hf)|]. intros a Ha. exact (law_reads _ _ _ (Hg a Ha)).
  - destruct l as [|a l0] eqn:El; [destruct (law_nonempty _ _ _ Hf); reflexivity|].
    pose proof (law_nonempty _ _ _ (Hg a (or_introl eq_refl))) as H. cbn. destruct (m a); [contradiction|discriminate].
  - apply flat_NoDup.
  - intros fuel R c b c' HR E. unfold bindc in E. destruct (f fuel R c) as [[a c1]|e] eqn:E1; [|discriminate].
    pose proof (law_in _ _ _ Hf _ _ _ _ _ HR E1) as Ha. apply in_flat_map. exists a. split; [exact Ha|].
    exact (law_in _ _ _ (Hg a Ha) _ _ _ _ _ HR E).
  - intros b Hb. apply in_flat_map in Hb as (a & Ha & Hb).
    rewrite flat_length, mult_INR, Rinv_mult.
    apply (cv_ext (fun T => sum_f_R0 (fun k => (weight eqA f a k * probability eqB (g a) b (T - k)%nat)%R) T) _ _ 0).
      * intros T _. unfold probability at 2. rewrite (bind_fin a b T Ha Hb), INR_upto. unfold Rdiv. rewrite Rmult_comm, scal_sum.
        apply sum_eq. intros k Hk. unfold weight, probability. rewrite mult_INR, (powL_split k T Hk).
        pose proof (powL_pos k). pose proof (powL_pos (T - k)). field. split; lra.
      * apply cv_convolution.
        -- apply weight_pos.
        -- apply probability_pos.
        -- intros s t Hst. apply probability_mono; [exact (law_reads _ _ _ (Hg a Ha))|exact Hst].
        -- apply (cv_ext (probability eqA f a) _ _ 0); [|exact (law_cv _ _ _ Hf a Ha)]. intros T _. apply probability_sum. exact (law_reads _ _ _ Hf).
        -- rewrite <- (Hm a Ha). exact (law_cv _ _ _ (Hg a Ha) b Hb).
Qed.

End Bind.

(** Computations that favour no result and almost always return. *)
Section Even.
Context {A : Type}.
Variable eqA : forall a b : A, {a = b} + {a <> b}.

Definition unfinished (f : comp A) (T : nat) : nat :=
  cnt L T (fun v => match f (S T) (drawn L v) 0%nat with Ok (_, c) => Nat.ltb T c | Err _ => true end).

Lemma finished_sum f l T : NoDup l -> (forall fuel R c a c', rng_ok R -> f fuel R c = Ok (a, c') -> In a l) ->
  (fold_right Rplus 0 (map (fun a => probability eqA f a T) l) = 1 - INR (unfinished f T) / IZR L ^ T)%R.
Proof.
  intros Hl Hin.
  assert (E : (sumn (map (fun a => fin eqA f a T) l) + unfinished f T = Z.to_nat L ^ T)%nat).
  { unfold fin. rewrite <- (cnt_list L T (fun a v => within (ends eqA f a T v) T) l Hl).
    - unfold unfinished. rewrite <- cnt_or.
      + rewrite <- cnt_all by lia. apply cnt_ext. intros v Hv. unfold ends.
        destruct (f (S T) (drawn L v) 0%nat) as [[a c]|e] eqn:E; [|apply orb_true_r].
        destruct (Nat.ltb_spec T c) as [|Hc]; [apply orb_true_r|]. rewrite orb_false_r. apply existsb_exists. exists a.
        split; [eapply Hin; [apply (drawn_ok T v Hv)|exact E]|]. destruct (eqA a a); [|contradiction]. cbn. apply Nat.leb_le. exact Hc.
      + intros v Hv. destruct (existsb _ l) eqn:E; [|reflexivity]. apply existsb_exists in E as (a & _ & E).
        apply within_spec in E as (c & E & Hc). apply ends_spec in E. rewrite E. cbn. apply Nat.ltb_ge. exact Hc.
    - intros v a b _ H1 H2. apply within_spec in H1 as (c1 & H1 & _). apply within_spec in H2 as (c2 & H2 & _).
      apply ends_spec in H1. apply ends_spec in H2. congruence. }
  apply (f_equal INR) in E. rewrite plus_INR, INR_sumn, INR_L, map_map in E. pose proof (powL_pos T) as Hp.
  assert (G : (fold_right Rplus 0 (map (fun a => probability eqA f a T) l) = fold_right Rplus 0 (map (fun a => INR (fin eqA f a T)) l) / IZR L ^ T)%R).
  { clear - Hp. induction l as [|a l IH]; cbn [map fold_right]; [field; lra|]. rewrite IH. unfold probability. field. lra. }
  rewrite G. replace (fold_right Rplus 0 (map (fun a => INR (fin eqA f a T)) l))%R with (IZR L ^ T - INR (unfinished f T))%R by lra.
  field. lra.
Qed.

Lemma law_even f l (N : nat) : reads f -> l <> [] -> NoDup l ->
  (forall fuel R c a c', rng_ok R -> f fuel R c = Ok (a, c') -> In a l) ->
  (forall T a b, (N <= T)%nat -> In a l -> In b l -> fin eqA f a T = fin eqA f b T) ->
  Un_cv (fun T => INR (unfinished f T) / IZR L ^ T)%R 0%R -> law eqA f l.
Proof.
  intros Hf Hne Hl Hin Heq Hu. split; auto. intros a Ha.
  assert (Hn : INR (length l) <> 0%R) by (apply not_0_INR; destruct l; [contradiction|discriminate]).
  apply (cv_ext (fun T => (/ INR (length l) * (1 - INR (unfinished f T) / IZR L ^ T))%R) _ _ N).
  - intros T HT. rewrite <- (finished_sum f l T Hl Hin).
    assert (G : forall l', incl l' l -> (fold_right Rplus 0 (map (fun b => probability eqA f b T) l') = INR (length l') * probability eqA f a T)%R).
    { induction l' as [|b l' IH]; intros Hi; cbn [map fold_right length]; [cbn; ring|]. rewrite S_INR, IH by (intros x Hx; apply Hi; right; exact Hx).
      unfold probability at 1. rewrite (Heq T b a HT); [unfold probability; ring|apply Hi; left; reflexivity|exact Ha]. }
    rewrite (G l (incl_refl l)). field. exact Hn.
  - replace (/ INR (length l))%R with (/ INR (length l) * (1 - 0))%R at 1 by ring.
    apply CV_mult; [apply cv_const|]. apply CV_minus; [apply cv_const|exact Hu].
Qed.

(** The law of a computation is that of the program that runs it. *)
Lemma law_share f l : law eqA f l -> forall a, In a l ->
  Un_cv (share eqA L (fun fuel R => match f fuel R 0%nat with Ok (b, _) => Ok b | Err e => Err e end) a) (/ INR (length l))%R.
Proof.
  intros Hf a Ha. assert (Hn : INR (length l) <> 0%R) by (apply not_0_INR; destruct l; [destruct Ha|discriminate]).
  apply (cv_squeeze (probability eqA f a) _ (fun T => (probability eqA f a T + INR (unfinished f T) / IZR L ^ T)%R) _ 0).
  - intros T _. unfold share, probability, fin.
    set (P := fun v => match _ with Ok b => _ | Err _ => _ end). change (length (filter P (vectors L T))) with (cnt L T P).
    pose proof (powL_pos T) as Hp. assert (Hi : (0 <= / IZR L ^ T)%R) by (left; apply Rinv_0_lt_compat; exact Hp). unfold Rdiv. split.
    + apply Rmult_le_compat_r; [exact Hi|]. apply le_INR. apply cnt_le. intros v _ H. apply within_spec in H as (c & H & _). apply ends_spec in H.
      unfold P. rewrite H. destruct (eqA a a); [reflexivity|contradiction].
    + rewrite <- Rmult_plus_distr_r. apply Rmult_le_compat_r; [exact Hi|]. rewrite <- plus_INR. apply le_INR. unfold unfinished.
      eapply Nat.le_trans; [|apply cnt_or_le]. apply cnt_le. intros v _. unfold P, ends. destruct (f (S T) (drawn L v) 0%nat) as [[b c]|e]; [|discriminate].
      destruct (eqA b a); [|discriminate]. intros _. cbn [within]. destruct (Nat.leb_spec c T), (Nat.ltb_spec T c); try reflexivity; lia.
  - exact (law_cv _ _ _ Hf a Ha).
  - replace (/ INR (length l))%R with (/ INR (length l) + (1 - INR (length l) * / INR (length l)))%R by (field; exact Hn).
    apply CV_plus; [exact (law_cv _ _ _ Hf a Ha)|].
    apply (cv_ext (fun T => (1 - fold_right Rplus 0 (map (fun b => probability eqA f b T) l))%R) _ _ 0).
    + intros T _. rewrite (finished_sum f l T (law_NoDup _ _ _ Hf) (law_in _ _ _ Hf)). ring.
    + apply CV_minus; [apply cv_const|]. apply (cv_list (probability eqA f)). exact (law_cv _ _ _ Hf).
Qed.

Lemma law_possible f l : law eqA f l -> forall a, In a l <-> possible (fun fuel R => match f fuel R 0%nat with Ok (b, _) => Ok b | Err e => Err e end) a.
Proof.
  intros Hf a. split.
  - intros Ha. pose proof (law_cv _ _ _ Hf a Ha) as Hc.
    assert (Hp : (0 < / INR (length l))%R) by (apply Rinv_0_lt_compat, lt_0_INR; destruct l; [destruct Ha|apply Nat.lt_0_succ]).
    destruct (Hc _ Hp) as [T HT]. specialize (HT T (le_n T)). unfold R_dist in HT. apply Rabs_def2 in HT as [_ HT].
    assert (Hq : (0 < probability eqA f a T)%R) by lra. unfold probability, fin in Hq.
    unfold cnt in Hq. destruct (filter _ (vectors L T)) as [|v vs] eqn:E.
    + cbn in Hq. unfold Rdiv in Hq. rewrite Rmult_0_l in Hq. lra.
    + assert (Hv : In v (filter (fun v => within (ends eqA f a T v) T) (vectors L T))) by (rewrite E; left; reflexivity).
      apply filter_In in Hv as [Hv Hw]. apply within_spec in Hw as (c & Hw & _). apply ends_spec in Hw.
      exists (S T), (drawn L v). split; [exact (drawn_ok T v Hv)|]. rewrite Hw. reflexivity.
  - intros (fuel & R & HR & E). destruct (f fuel R 0%nat) as [[b c]|e] eqn:E1; [|discriminate]. injection E as <-.
    exact (law_in _ _ _ Hf _ _ _ _ _ HR E1).
Qed.

End Even.
End Law.

Lemma law_map {A B} L (HL : 0 < L) eqA eqB (f : comp A) (h : A -> res B) (h' : A -> B) l :
  law L eqA f l -> (forall a, In a l -> h a = Ok (h' a)) -> (forall a b, In a l -> In b l -> h' a = h' b -> a = b) ->
  law L eqB (fun fuel R c => match f fuel R c with Ok (a, c') => b <- h a ;; Ok (b, c') | Err e => Err e end) (map h' l).
Proof.
  intros Hf Hh Hi. change (law L eqB (bindc f (fun a _ _ c => b <- h a ;; Ok (b, c))) (map h' l)).
  replace (map h' l) with (flat_map (fun a => [h' a]) l) by (clear; induction l; cbn; congruence).
  apply (law_bind L HL eqA eqB) with (n := 1%nat); auto.
  - intros a Ha. apply (law_ext L eqB (fun _ _ c => Ok (h' a, c))); [|apply law_ret; exact HL]. intros. rewrite (Hh a Ha). reflexivity.
  - intros a a' b Ha Ha' [<-|[]] [E|[]]. symmetry. apply Hi; auto.
Qed.

(** Two computations one after the other, when the pair of their results is known from what is made of them. *)
Lemma law_pair {A B C} L (HL : 0 < L) eqA eqB eqC (f : comp A) (g : comp B) (h : A -> B -> res C) (h' : A -> B -> C) l m :
  law L eqA f l -> law L eqB g m -> (forall a b, In a l -> In b m -> h a b = Ok (h' a b)) ->
  (forall a a' b b', In a l -> In a' l -> In b m -> In b' m -> h' a b = h' a' b' -> a = a' /\ b = b') ->
  law L eqC (fun fuel R c => match f fuel R c with
                             | Ok (a, c1) => match g fuel R c1 with Ok (b, c2) => x <- h a b ;; Ok (x, c2) | Err e => Err e end
                             | Err e => Err e end) (flat_map (fun a => map (h' a) m) l).
Proof.
  intros Hf Hg Hh Hi.
  change (law L eqC (bindc f (fun a fuel R c => match g fuel R c with Ok (b, c2) => x <- h a b ;; Ok (x, c2) | Err e => Err e end)) (flat_map (fun a => map (h' a) m) l)).
  apply (law_bind L HL eqA eqC) with (n := length m); auto.
  - intros a Ha. apply (law_map L HL eqB eqC g (h a) (h' a) m Hg); auto. intros b b' Hb Hb' E. apply (Hi a a b b'); auto.
  - intros a _. apply map_length.
  - intros a a' x Ha Ha' H1 H2. apply in_map_iff in H1 as (b & <- & Hb). apply in_map_iff in H2 as (b' & E & Hb'). symmetry. apply (Hi a' a b' b); auto.
Qed.

(** What a law lists is what the computation can return. *)
Lemma law_attained {A} L (HL : 0 < L) eqA (f : comp A) l a : law L eqA f l -> In a l -> exists fuel R c, rng_ok R /\ f fuel R 0%nat = Ok (a, c).
Proof.
  intros Hf Ha. apply (law_possible L HL eqA f l Hf) in Ha as (fuel & R & HR & E). exists fuel, R.
  destruct (f fuel R 0%nat) as [[b c]|e]; [|discriminate]. injection E as ->. exists c. auto.
Qed.
