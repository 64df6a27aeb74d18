(** Counting vectors of draws. *)
From Verif Require Import Prelude ListFacts Sampler Sampler_spec Sampler_proofs Sampler_uniform.
Open Scope Z_scope.

Section Count.
Variable L : Z.

Definition cnt (n : nat) (P : list Z -> bool) : nat := length (filter P (vectors L n)).

Lemma filter_map_length {A B} (P : B -> bool) (g : A -> B) l :
  length (filter P (map g l)) = length (filter (fun x => P (g x)) l).
Proof. induction l as [|x l IH]; [reflexivity|]. cbn. destruct (P (g x)); cbn; auto. Qed.

Lemma cnt_S n P : cnt (S n) P = sumn (map (fun u => cnt n (fun w => P (u :: w))) (zrange L)).
Proof.
  unfold cnt. cbn [vectors]. induction (zrange L) as [|u l IH]; [reflexivity|].
  cbn [flat_map map sumn fold_right]. rewrite filter_app, app_length, IH, filter_map_length. reflexivity.
Qed.

Lemma vectors_len n v : In v (vectors L n) -> length v = n.
Proof.
  revert v. induction n as [|n IH]; cbn; intros v H.
  - destruct H as [<-|[]]. reflexivity.
  - apply in_flat_map in H as (u & _ & H). apply in_map_iff in H as (w & <- & H). cbn. f_equal. auto.
Qed.

Lemma in_vectors n v : length v = n -> (forall u, In u v -> 0 <= u < L) -> In v (vectors L n).
Proof.
  revert v. induction n as [|n IH]; intros v Hl H.
  - destruct v; [left; reflexivity|discriminate].
  - destruct v as [|u v]; [discriminate|]. cbn. apply in_flat_map. exists u. split.
    + unfold zrange. apply in_map_iff. exists (Z.to_nat u). pose proof (H u (or_introl eq_refl)).
      split; [lia|]. apply in_seq. lia.
    + apply in_map. apply IH; [cbn in Hl; lia|]. intros. apply H. right. assumption.
Qed.

Lemma zrange_NoDup : NoDup (zrange L).
Proof.
  unfold zrange. apply FinFun.Injective_map_NoDup; [|apply seq_NoDup]. intros a b. lia.
Qed.

Lemma vectors_NoDup n : NoDup (vectors L n).
Proof.
  induction n as [|n IH]; cbn; [repeat constructor; intros []|].
  pose proof zrange_NoDup as H. induction (zrange L) as [|u l IHl]; [constructor|].
  cbn. apply NoDup_cons_iff in H as [Hu H]. apply NoDup_app_intro.
  - apply FinFun.Injective_map_NoDup; [|exact IH]. intros a b E. congruence.
  - auto.
  - intros x Hx Hx'. apply in_map_iff in Hx as (w & <- & _). apply in_flat_map in Hx' as (u' & Hu' & Hx').
    apply in_map_iff in Hx' as (w' & E & _). congruence.
Qed.

Lemma cnt_ext n P Q : (forall v, In v (vectors L n) -> P v = Q v) -> cnt n P = cnt n Q.
Proof. intros H. unfold cnt. f_equal. apply filter_ext_in. exact H. Qed.

Lemma cnt_le n P Q : (forall v, In v (vectors L n) -> P v = true -> Q v = true) -> (cnt n P <= cnt n Q)%nat.
Proof.
  intros H. unfold cnt. induction (vectors L n) as [|v l IH]; [apply le_n|]. cbn.
  assert (I : forall v', In v' l -> P v' = true -> Q v' = true) by (intros; apply H; [right|]; assumption).
  specialize (IH I). pose proof (H v (or_introl eq_refl)) as Hv. destruct (P v).
  - rewrite Hv by reflexivity. cbn. lia.
  - destruct (Q v); cbn; lia.
Qed.

Lemma cnt_or n P Q : (forall v, In v (vectors L n) -> P v && Q v = false) ->
  cnt n (fun v => P v || Q v) = (cnt n P + cnt n Q)%nat.
Proof.
  unfold cnt. intros H. induction (vectors L n) as [|v l IH]; [reflexivity|]. cbn.
  assert (I : forall v', In v' l -> P v' && Q v' = false) by (intros; apply H; right; assumption).
  specialize (IH I). pose proof (H v (or_introl eq_refl)) as Hv. destruct (P v), (Q v); cbn in *; try discriminate; lia.
Qed.

Lemma cnt_or_le n P Q : (cnt n (fun v => P v || Q v) <= cnt n P + cnt n Q)%nat.
Proof.
  unfold cnt. induction (vectors L n) as [|v l IH]; [apply le_n|]. cbn. destruct (P v), (Q v); cbn; lia.
Qed.

Lemma cnt_false n P : (forall v, In v (vectors L n) -> P v = false) -> cnt n P = 0%nat.
Proof. intros H. unfold cnt. rewrite filter_none by exact H. reflexivity. Qed.

Lemma sumn_mul {A} (g : A -> nat) c l : sumn (map (fun x => g x * c)%nat l) = (sumn (map g l) * c)%nat.
Proof.
  induction l as [|x l IH]; [reflexivity|]. cbn [map]. change (sumn (?a :: ?b)) with (a + sumn b)%nat.
  rewrite IH, Nat.mul_add_distr_r. reflexivity.
Qed.

(** The first draws and the following ones are independent. *)
Lemma cnt_split k j P Q :
  cnt (k + j) (fun v => P (firstn k v) && Q (skipn k v)) = (cnt k P * cnt j Q)%nat.
Proof.
  revert P. induction k as [|k IH]; intros P.
  - cbn [plus firstn skipn]. change (cnt 0 P) with (length (filter P [[]])). cbn [filter].
    destruct (P []); cbn [andb length].
    + rewrite Nat.mul_1_l. reflexivity.
    + apply cnt_false. reflexivity.
  - cbn [plus]. rewrite !cnt_S, <- sumn_mul. f_equal. apply map_ext. intros u. cbn [firstn skipn]. apply (IH (fun w => P (u :: w))).
Qed.

Lemma cnt_all n : 0 <= L -> cnt n (fun _ => true) = (Z.to_nat L ^ n)%nat.
Proof.
  intros H. unfold cnt. rewrite filter_all by reflexivity. apply Nat2Z.inj. rewrite vectors_length by exact H.
  rewrite Nat2Z.inj_pow, Z2Nat.id by exact H. reflexivity.
Qed.

(** The vectors whose draws all satisfy a test. *)
Lemma cnt_forallb n p : cnt n (forallb p) = (length (filter p (zrange L)) ^ n)%nat.
Proof.
  induction n as [|n IH]; [reflexivity|]. rewrite cnt_S. cbn [Nat.pow]. rewrite <- IH. clear IH.
  induction (zrange L) as [|u l IHl]; [reflexivity|]. cbn [map filter]. change (sumn (?a :: ?b)) with (a + sumn b)%nat.
  rewrite IHl. cbn [forallb]. destruct (p u); cbn [andb length].
  - change (fun w => forallb p w) with (forallb p). rewrite Nat.mul_succ_l. apply Nat.add_comm.
  - rewrite cnt_false by reflexivity. reflexivity.
Qed.

(** Sums over the values of an option. *)
Fixpoint upto (g : nat -> nat) (T : nat) : nat := match T with O => g O | S T' => (upto g T' + g T)%nat end.

Lemma cnt_upto n (g : list Z -> option nat) T :
  cnt n (fun v => match g v with Some k => Nat.leb k T | None => false end)
  = upto (fun k => cnt n (fun v => match g v with Some k' => Nat.eqb k' k | None => false end)) T.
Proof.
  induction T as [|T IH]; cbn [upto].
  - apply cnt_ext. intros v _. destruct (g v) as [[|k]|]; reflexivity.
  - rewrite <- IH, <- cnt_or.
    + apply cnt_ext. intros v _. destruct (g v) as [k|]; [|reflexivity].
      destruct (Nat.leb_spec k (S T)), (Nat.leb_spec k T), (Nat.eqb_spec k (S T)); try reflexivity; lia.
    + intros v _. destruct (g v) as [k|]; [|reflexivity].
      destruct (Nat.leb_spec k T), (Nat.eqb_spec k (S T)); try reflexivity; lia.
Qed.

(** The vectors that go to one of the elements of a list. *)
Lemma cnt_list {A} n (P : A -> list Z -> bool) l :
  NoDup l -> (forall v a b, In v (vectors L n) -> P a v = true -> P b v = true -> a = b) ->
  cnt n (fun v => existsb (fun a => P a v) l) = sumn (map (fun a => cnt n (P a)) l).
Proof.
  intros Hl H. induction l as [|a l IH]; [apply cnt_false; reflexivity|]. cbn [existsb map].
  apply NoDup_cons_iff in Hl as [Ha Hl]. change (sumn (?a :: ?b)) with (a + sumn b)%nat. rewrite <- (IH Hl), <- cnt_or; [reflexivity|].
  intros v Hv. destruct (P a v) eqn:E; [|reflexivity]. cbn. destruct (existsb _ l) eqn:E'; [|reflexivity].
  apply existsb_exists in E' as (b & Hb & E'). rewrite (H v a b Hv E E') in Ha. contradiction.
Qed.

Lemma cnt_list_le {A} n (P : A -> list Z -> bool) l :
  (cnt n (fun v => existsb (fun a => P a v) l) <= sumn (map (fun a => cnt n (P a)) l))%nat.
Proof.
  induction l as [|a l IH]; [rewrite cnt_false by reflexivity; apply le_n|]. cbn [existsb map].
  change (sumn (?a :: ?b)) with (a + sumn b)%nat. pose proof (cnt_or_le n (P a) (fun v => existsb (fun a => P a v) l)). lia.
Qed.

(** Relabelling the draws. *)
Lemma cnt_map n (phi : Z -> Z) P :
  (forall x, 0 <= x < L -> 0 <= phi x < L) -> (forall x y, 0 <= x < L -> 0 <= y < L -> phi x = phi y -> x = y) ->
  cnt n (fun v => P (map phi v)) = cnt n P.
Proof.
  intros Hr Hi.
  assert (G : Permutation (map (map phi) (vectors L n)) (vectors L n)).
  { apply NoDup_Permutation_bis.
    - apply NoDup_map_inj; [|apply vectors_NoDup]. intros v w Hv Hw.
      assert (X : forall v w, (forall u, In u v -> 0 <= u < L) -> (forall u, In u w -> 0 <= u < L) -> map phi v = map phi w -> v = w).
      { clear - Hi. induction v as [|x v IH]; intros [|y w] Hx Hy E; try discriminate; [reflexivity|]. cbn in E. injection E as E1 E2.
        f_equal; [apply Hi; [apply Hx|apply Hy|]; auto using in_eq|]. apply IH; auto using in_cons. }
      apply X; [exact (vectors_In L n v Hv)|exact (vectors_In L n w Hw)].
    - rewrite map_length. apply le_n.
    - intros v Hv. apply in_map_iff in Hv as (w & <- & Hw). apply in_vectors.
      + rewrite map_length. apply vectors_len. exact Hw.
      + intros u Hu. apply in_map_iff in Hu as (x & <- & Hx). apply Hr. exact (vectors_In L n w Hw x Hx). }
  unfold cnt. rewrite <- filter_map_length. apply Permutation_length.
  apply Permutation_filter. exact G.
Qed.

End Count.
