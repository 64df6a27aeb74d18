(** Lemmas about frames and about the triplets of one on/across/by block. *)
From Coq Require Import String.
From Verif Require Import Prelude ListFacts TypeFitting TypeFitting_proofs Sampler Task.
Set Implicit Arguments.
Open Scope Z_scope.

(* ------------------------------------------------------------------ *)
(** ** Frames *)

Lemma key_eqb_spec k k' : key_eqb k k' = true <-> k = k'.
Proof. unfold key_eqb. destruct (key_dec k k'); split; congruence. Qed.

Lemma mem_spec l x : mem l x = true <-> In x l.
Proof.
  unfold mem. rewrite existsb_exists. split.
  - intros (y & Hy & E). apply Z.eqb_eq in E. subst. exact Hy.
  - intros H. exists x. split; [exact H|]. apply Z.eqb_refl.
Qed.

Lemma In_set_diff l l' x : In x (set_diff l l') <-> In x l /\ ~ In x l'.
Proof.
  unfold set_diff. rewrite filter_In, negb_true_iff.
  split; intros [H1 H2]; split; auto.
  - intros H. apply mem_spec in H. congruence.
  - destruct (mem l' x) eqn:E; [|reflexivity]. apply mem_spec in E. tauto.
Qed.

Lemma In_set_inter l l' x : In x (set_inter l l') <-> In x l /\ In x l'.
Proof. unfold set_inter. rewrite filter_In, mem_spec. tauto. Qed.

Lemma NoDup_labels_filter (fr : frame) f : NoDup (labels fr) -> NoDup (labels (filter f fr)).
Proof.
  unfold labels. induction fr as [|p fr IH]; cbn; [auto|].
  intros H. apply NoDup_cons_iff in H as [H1 H2].
  destruct (f p); cbn; auto. constructor; auto.
  intros Hin. apply H1. rewrite in_map_iff in *. destruct Hin as (q & Hq & Hin).
  apply filter_In in Hin. exists q. tauto.
Qed.

Lemma In_labels_filter (fr : frame) f l :
  In l (labels (filter f fr)) <-> exists r, In (l, r) fr /\ f (l, r) = true.
Proof.
  unfold labels. rewrite in_map_iff. split.
  - intros ([l' r] & E & H). apply filter_In in H. cbn in E. subst. eauto.
  - intros (r & H1 & H2). exists (l, r). rewrite filter_In. auto.
Qed.

Lemma In_labels (fr : frame) l : In l (labels fr) <-> exists r, In (l, r) fr.
Proof.
  unfold labels. rewrite in_map_iff. split.
  - intros ([l' r] & E & H). cbn in E. subst. eauto.
  - intros (r & H). exists (l, r). auto.
Qed.

Lemma label_unique (fr : frame) l r r' :
  NoDup (labels fr) -> In (l, r) fr -> In (l, r') fr -> r = r'.
Proof.
  induction fr as [|[l0 r0] fr IH]; cbn; [tauto|].
  intros H. apply NoDup_cons_iff in H as [H1 H2].
  intros [E|H] [E'|H'].
  - congruence.
  - inversion E; subst. destruct H1. apply In_labels. eauto.
  - inversion E'; subst. destruct H1. apply In_labels. eauto.
  - auto.
Qed.

Lemma loc_spec (fr : frame) l r : NoDup (labels fr) -> loc fr l = Ok r <-> In (l, r) fr.
Proof.
  induction fr as [|[l0 r0] fr IH]; cbn; [split; [discriminate|tauto]|].
  intros H. apply NoDup_cons_iff in H as [H1 H2].
  destruct (Z.eqb_spec l0 l) as [->|Hne].
  - split; [intros [= ->]; auto|]. intros [E|H]; [congruence|].
    destruct H1. apply In_labels. eauto.
  - rewrite IH by exact H2. split; [auto|]. intros [E|H]; [congruence|auto].
Qed.

Lemma In_group cols (fr : frame) k l :
  In l (group cols fr k) <-> exists r, In (l, r) fr /\ proj cols r = k.
Proof.
  unfold group. rewrite In_labels_filter. cbn.
  split; intros (r & H1 & H2); exists r; (split; [exact H1|]); now apply key_eqb_spec.
Qed.

Lemma NoDup_group cols (fr : frame) k : NoDup (labels fr) -> NoDup (group cols fr k).
Proof. apply NoDup_labels_filter. Qed.

Lemma In_keys cols rows k : In k (keys cols rows) <-> exists r, In r rows /\ proj cols r = k.
Proof.
  unfold keys. rewrite nodup_In, in_map_iff. split; intros (r & H1 & H2); exists r; auto.
Qed.

Lemma NoDup_keys cols rows : NoDup (keys cols rows).
Proof. apply NoDup_nodup. Qed.

Lemma reset_index_In rows l r :
  In (l, r) (reset_index rows) <-> 0 <= l /\ nth_error rows (Z.to_nat l) = Some r.
Proof.
  unfold reset_index.
  assert (G : forall s, In (l, r) (combine (map Z.of_nat (seq s (length rows))) rows) <->
            Z.of_nat s <= l /\ nth_error rows (Z.to_nat l - s) = Some r).
  { induction rows as [|r0 rows IH]; intros s; cbn [length seq map combine In].
    - split; [tauto|]. intros [_ H]. destruct (Z.to_nat l - s)%nat; discriminate.
    - rewrite IH. split.
      + intros [E|[H1 H2]].
        * inversion E; subst. replace (Z.to_nat (Z.of_nat s) - s)%nat with O by lia. split; [lia|reflexivity].
        * split; [lia|]. replace (Z.to_nat l - s)%nat with (S (Z.to_nat l - S s)) by lia. exact H2.
      + intros [H1 H2]. destruct (Z.to_nat l - s)%nat as [|n] eqn:E; cbn in H2.
        * left. inversion H2; subst. f_equal. lia.
        * right. split; [lia|]. replace (Z.to_nat l - S s)%nat with n by lia. exact H2. }
  rewrite (G O). rewrite Nat.sub_0_r. split; intros [H1 H2]; split; auto; lia.
Qed.

Lemma labels_reset_index rows : labels (reset_index rows) = map Z.of_nat (seq 0 (length rows)).
Proof.
  unfold labels, reset_index.
  assert (G : forall (xs : list Z) (ys : list row), length xs = length ys -> map fst (combine xs ys) = xs).
  { induction xs as [|x xs IH]; intros [|y ys]; cbn; intros H; try lia; [reflexivity|]. f_equal. apply IH. lia. }
  apply G. rewrite map_length, seq_length. reflexivity.
Qed.

Lemma NoDup_reset_index rows : NoDup (labels (reset_index rows)).
Proof.
  rewrite labels_reset_index. apply FinFun.Injective_map_NoDup; [|apply seq_NoDup].
  intros i j H. lia.
Qed.

(* ------------------------------------------------------------------ *)
(** ** Well-formed blocks *)

Record wf_block (b : by_block) : Prop := mk_wf {
  wf_nodup : NoDup (labels (b_frame b));
  wf_cast : forall l, In l (labels (b_frame b)) -> cast (b_type b) l = l;
  wf_pos : forall l, In l (labels (b_frame b)) -> 0 <= l
}.

Definition aligned (fr : frame) : Prop := forall l r, In (l, r) fr -> iloc fr l = Ok r.

Lemma maxZ_ge l x : In x l -> x <= maxZ l.
Proof.
  unfold maxZ. induction l as [|y l IH]; cbn; [tauto|]. intros [->|H]; [lia|]. specialize (IH H). lia.
Qed.

Lemma maxZ_In l : l <> [] -> (forall x, In x l -> 0 <= x) -> In (maxZ l) l.
Proof.
  unfold maxZ. induction l as [|y l IH]; [congruence|]. intros _ H. cbn.
  destruct l as [|z l].
  - cbn. left. specialize (H y (or_introl eq_refl)). lia.
  - assert (Hin : In (fold_right Z.max 0 (z :: l)) (z :: l)) by (apply IH; [congruence|intros; apply H; right; assumption]).
    destruct (Z.max_spec y (fold_right Z.max 0 (z :: l))) as [[_ E]|[_ E]]; rewrite E; auto.
Qed.

Lemma maxZ_nonneg l : 0 <= maxZ l.
Proof. unfold maxZ. induction l; cbn; lia. Qed.

Lemma fit_tmax n t : fit_integer_type n false = Ok t -> 0 <= n -> forall v, 0 <= v <= n -> cast t v = v.
Proof.
  intros H Hn v Hv. apply (fit_cast _ _ _ _ H). lia.
Qed.

Section Blocks.
Variable korder : list key -> list key.
Variable enum : list Z -> list Z.
Hypothesis korder_ok : forall l, Permutation (korder l) l.
Hypothesis enum_ok : forall l, Permutation (enum l) l.

Lemma In_enum l x : In x (enum l) <-> In x l.
Proof.
  split; apply Permutation_in; [apply enum_ok|apply Permutation_sym, enum_ok].
Qed.

Lemma NoDup_enum l : NoDup l -> NoDup (enum l).
Proof. apply Permutation_NoDup, Permutation_sym, enum_ok. Qed.

Lemma prepare_type_wf p b :
  prepare_type p = Ok b -> NoDup (labels (snd p)) -> (forall l, In l (labels (snd p)) -> 0 <= l) ->
  wf_block b /\ b_key b = fst p /\ b_frame b = snd p /\ snd p <> [].
Proof.
  unfold prepare_type. destruct p as [k fr]. cbn [fst snd]. destruct fr as [|p0 fr]; [discriminate|].
  set (f0 := p0 :: fr) in *. intros H Hn Hp. destruct (fit_integer_type (maxZ (labels f0)) false) as [t|] eqn:E; cbn [bind] in H; [|discriminate].
  inversion H; subst. cbn. split; [|split; [|split]]; auto; [|unfold f0; discriminate].
  constructor; cbn; auto. intros l Hl. apply (fit_tmax E); [apply maxZ_nonneg|]. split; auto. apply maxZ_ge. exact Hl.
Qed.

Lemma map_cast_id t l : (forall x, In x l -> cast t x = x) -> map (cast t) l = l.
Proof.
  induction l as [|x l IH]; cbn; [auto|]. intros H. f_equal; auto.
Qed.

Section Block.
Variable T : task.
Variable b : by_block.
Hypothesis wf : wf_block b.

Local Notation fr := (b_frame b).

Lemma In_group_label cols k l : In l (group cols fr k) -> In l (labels fr).
Proof. rewrite In_group, In_labels. intros (r & H & _). eauto. Qed.

Record cand_ok (k : key) (A B X : list Z) : Prop := mk_cand {
  ca_A : A = group (t_on T :: t_across T) fr k;
  ca_nA : NoDup A;
  ca_nB : NoDup B;
  ca_nX : NoDup X;
  ca_B : forall l, In l B <-> exists r, In (l, r) fr /\ r (t_on T) <> hd 0 k /\
           (no_across T = false -> proj (t_across T) r = tl k);
  ca_X : forall l, In l X <-> exists r, In (l, r) fr /\ r (t_on T) = hd 0 k /\
           forall c v, In (c, v) (combine (t_across T) (tl k)) -> r c <> v
}.

Lemma proj_eq_combine cols r r' :
  (forall c v, In (c, v) (combine cols (proj cols r')) -> r c <> v) <->
  (forall c, In c cols -> r c <> r' c).
Proof.
  assert (G : forall c v, In (c, v) (combine cols (proj cols r')) <-> In c cols /\ v = r' c).
  { intros c v. unfold proj. induction cols as [|c0 cols IH]; cbn; [tauto|]. rewrite IH.
    split.
    - intros [E|[H1 H2]]; [inversion E; auto|auto].
    - intros [[->|H] ->]; auto. }
  split.
  - intros H c Hc. apply H. apply G. auto.
  - intros H c v Hin. apply G in Hin as [H1 ->]. auto.
Qed.

Lemma candidates_ok k A B X :
  t_across T <> [] ->
  In k (keys (t_on T :: t_across T) (map snd fr)) ->
  candidates enum T b k (group (t_on T :: t_across T) fr k) = (A, B, X) ->
  cand_ok k A B X.
Proof.
  intros Hacr Hk. apply In_keys in Hk as (r0 & Hr0 & Ek).
  apply in_map_iff in Hr0 as ([l0 r0'] & E0 & Hr0). cbn in E0. subst r0'.
  assert (HA : map (cast (b_type b)) (group (t_on T :: t_across T) fr k) =
               group (t_on T :: t_across T) fr k).
  { apply map_cast_id. intros x Hx. apply (wf_cast wf). eapply In_group_label; eauto. }
  set (gA := group (t_on T :: t_across T) fr k) in *.
  assert (Hon : firstn 1 k = [hd 0 k]) by (rewrite <- Ek; reflexivity).
  assert (Htl : skipn 1 k = tl k) by (destruct k; reflexivity).
  unfold candidates. cbv zeta. rewrite HA, Hon, Htl. intros E. injection E as EA EB EX.
  assert (Hsplit : k = hd 0 k :: tl k) by (rewrite <- Ek; reflexivity).
  assert (HinA : forall l r, In (l, r) fr -> (In l gA <-> r (t_on T) = hd 0 k /\ proj (t_across T) r = tl k)).
  { intros l r Hin. unfold gA. rewrite In_group. split.
    - intros (r' & H' & Er'). assert (r' = r) by (eapply label_unique; eauto; apply (wf_nodup wf)). subst r'.
      rewrite Hsplit in Er'. cbn in Er'. injection Er' as E1 E2. auto.
    - intros [H1 H2]. exists r. split; [exact Hin|]. rewrite Hsplit. cbn. f_equal; assumption. }
  assert (Hlt : length (tl k) = length (t_across T)).
  { rewrite <- Ek. cbn. unfold proj. apply map_length. }
  assert (Hongrp : forall l, In l (group [t_on T] fr [hd 0 k]) <-> exists r, In (l, r) fr /\ r (t_on T) = hd 0 k).
  { intros l. rewrite In_group. split; intros (r & H1 & H2); exists r; split; auto.
    - cbn in H2. congruence.
    - cbn. congruence. }
  assert (HB : if no_across T
       then B = enum (set_diff (labels fr) (group [t_on T] fr [hd 0 k]))
       else B = enum (set_diff (group (t_across T) fr (tl k)) gA)).
  { rewrite <- EB. destruct (no_across T); apply map_cast_id; intros x Hx; apply (wf_cast wf);
      rewrite In_enum, In_set_diff in Hx; destruct Hx as [Hx _]; auto.
    eapply In_group_label; eauto. }
  assert (HX : if (1 <? length (tl k))%nat
       then X = enum (set_inter (antiacross T fr (tl k)) (group [t_on T] fr [hd 0 k]))
       else X = enum (set_diff (group [t_on T] fr [hd 0 k]) gA)).
  { rewrite <- EX. destruct (1 <? length (tl k))%nat; apply map_cast_id; intros x Hx; apply (wf_cast wf).
    - rewrite In_enum, In_set_inter in Hx. destruct Hx as [_ Hx]. eapply In_group_label; eauto.
    - rewrite In_enum, In_set_diff in Hx. destruct Hx as [Hx _]. eapply In_group_label; eauto. }
  clear EB EX. subst A.
  constructor; auto.
  - apply NoDup_group, (wf_nodup wf).
  - destruct (no_across T); rewrite HB; apply NoDup_enum; unfold set_diff; apply NoDup_filter;
      [apply (wf_nodup wf)|apply NoDup_group, (wf_nodup wf)].
  - destruct (1 <? length (tl k))%nat; rewrite HX; apply NoDup_enum; unfold set_diff, set_inter; apply NoDup_filter;
      [apply NoDup_labels_filter, (wf_nodup wf)|apply NoDup_group, (wf_nodup wf)].
  - intros l. destruct (no_across T); rewrite HB, In_enum, In_set_diff.
    + rewrite In_labels, Hongrp. split.
      * intros [(r & Hin) Hno]. exists r. split; [exact Hin|]. split; [|discriminate].
        intros E. apply Hno. eauto.
      * intros (r & Hin & Hne & _). split; [eauto|]. intros (r' & Hin' & E).
        assert (r' = r) by (eapply label_unique; eauto; apply (wf_nodup wf)). congruence.
    + rewrite In_group. split.
      * intros [(r & Hin & E) Hno]. exists r. split; [exact Hin|]. split; [|auto].
        intros E'. apply Hno. apply (HinA l r Hin). auto.
      * intros (r & Hin & Hne & E). split; [eauto|]. intros Hin'. apply (HinA l r Hin) in Hin'. tauto.
  - intros l. destruct (Nat.ltb_spec 1 (length (tl k))) as [Hlen|Hlen]; rewrite HX, In_enum.
    + rewrite In_set_inter, Hongrp. unfold antiacross. rewrite In_labels_filter. cbn [snd]. split.
      * intros [(r & Hin & Hf) (r' & Hin' & E)].
        assert (r' = r) by (eapply label_unique; eauto; apply (wf_nodup wf)). subst r'.
        exists r. split; [exact Hin|]. split; [exact E|]. intros c v Hcv.
        rewrite forallb_forall in Hf. specialize (Hf _ Hcv). cbn in Hf.
        apply negb_true_iff, Z.eqb_neq in Hf. exact Hf.
      * intros (r & Hin & E & Hf). split; [|eauto]. exists r. split; [exact Hin|].
        apply forallb_forall. intros [c v] Hcv. cbn. apply negb_true_iff, Z.eqb_neq. eauto.
    + rewrite In_set_diff, Hongrp.
      destruct (t_across T) as [|c [|c' ac]] eqn:Eac; [congruence| |cbn in Hlt; lia].
      destruct (tl k) as [|v [|v' tk]] eqn:Etk; try (cbn in Hlt; lia).
      cbn [combine]. split.
      * intros [(r & Hin & E) Hno]. exists r. split; [exact Hin|]. split; [exact E|].
        intros c1 v1 [Ecv|[]]. inversion Ecv; subst c1 v1. intros Ev. apply Hno.
        apply (HinA l r Hin). split; [exact E|]. cbn. congruence.
      * intros (r & Hin & E & Hf). split; [eauto|]. intros Hin'.
        apply (HinA l r Hin) in Hin' as [_ E']. cbn in E'. apply (Hf c v); [left; reflexivity|congruence].
Qed.

(* ------------------------------------------------------------------ *)
(** ** Filters *)

Definition rowof (l : Z) : row := match loc fr l with Ok r => r | Err _ => fun _ => 0 end.

Lemma rowof_In l r : In (l, r) fr -> rowof l = r.
Proof. intros H. unfold rowof. apply loc_spec in H; [|apply (wf_nodup wf)]. rewrite H. reflexivity. Qed.

Lemma loc_rowof l : In l (labels fr) -> loc fr l = Ok (rowof l).
Proof.
  intros H. apply In_labels in H as (r & H). rewrite (rowof_In _ _ H). apply loc_spec; [apply (wf_nodup wf)|exact H].
Qed.

Lemma In_rowof l : In l (labels fr) -> In (l, rowof l) fr.
Proof. intros H. apply loc_spec; [apply (wf_nodup wf)|]. apply loc_rowof. exact H. Qed.

Lemma gather_where A (l : list A) (p : A -> bool) :
  gather l (np_where (map p l)) = Ok (filter p l).
Proof.
  destruct l as [|a0 l0] eqn:E; [reflexivity|]. rewrite <- E. clear E.
  assert (Hlt : forall i, In i (np_where (map p l)) -> (i < length l)%nat).
  { intros i Hi. apply np_where_spec in Hi. rewrite <- (map_length p).
    apply nth_error_Some. congruence. }
  rewrite (@gather_ok _ l (np_where (map p l)) a0) by exact Hlt. f_equal.
  clear Hlt. unfold np_where.
  assert (G : forall (m l : list A), map (fun i => nth i (m ++ l) a0) (where_from (length m) (map p l)) = filter p l).
  { intros m k. revert m. induction k as [|x k IH]; intros m; cbn; [reflexivity|].
    specialize (IH (m ++ [x])). rewrite <- app_assoc in IH. cbn in IH.
    rewrite app_length in IH. cbn in IH. replace (length m + 1)%nat with (S (length m)) in IH by lia.
    destruct (p x); cbn; rewrite IH; [|reflexivity].
    rewrite app_nth2 by lia. rewrite Nat.sub_diag. reflexivity. }
  apply (G []).
Qed.

Lemma filter_items_ok f v l :
  incl l (labels fr) ->
  filter_items f v fr l =
  Ok (match f with None => l | Some f => filter (fun x => f v (rowof x)) l end).
Proof.
  intros Hl. unfold filter_items. destruct f as [f|]; [|reflexivity].
  unfold single_filter. rewrite (@mapM_ok_map _ _ (loc fr) rowof) by (intros x Hx; apply loc_rowof; auto).
  cbn [bind]. rewrite map_map. apply (gather_where l (fun x => f v (rowof x))).
Qed.

(* ------------------------------------------------------------------ *)
(** ** Factorial design *)

Definition prod3 (A B X : list Z) : list triplet :=
  flat_map (fun a => flat_map (fun b => map (fun x => (a, b, x)) X) B) A.

Lemma In_prod3 A B X a b' x : In (a, b', x) (prod3 A B X) <-> In a A /\ In b' B /\ In x X.
Proof.
  unfold prod3. rewrite in_flat_map. split.
  - intros (a' & Ha & H). apply in_flat_map in H as (b'' & Hb & H).
    apply in_map_iff in H as (x' & E & Hx). inversion E; subst. auto.
  - intros (Ha & Hb & Hx). exists a. split; [exact Ha|]. apply in_flat_map. exists b'. split; [exact Hb|].
    apply in_map_iff. exists x. auto.
Qed.

Lemma length_prod3 A B X : length (prod3 A B X) = (length A * length B * length X)%nat.
Proof.
  unfold prod3, triplet. induction A as [|a A IH]; cbn; [reflexivity|]. rewrite app_length. unfold triplet in *. rewrite IH.
  assert (E : forall B : list Z, length (flat_map (fun b => map (fun x => (a, b, x)) X) B) = (length B * length X)%nat).
  { induction B0 as [|b0 B0 IHB]; cbn; [reflexivity|]. rewrite app_length, IHB, map_length. reflexivity. }
  rewrite E. lia.
Qed.

Lemma NoDup_flat_map_inj A B (f : A -> list B) (g : B -> A) l :
  NoDup l -> (forall a, In a l -> NoDup (f a)) -> (forall a y, In y (f a) -> g y = a) ->
  NoDup (flat_map f l).
Proof.
  induction l as [|a l IH]; cbn; [constructor|]. intros Hn Hf Hg.
  apply NoDup_cons_iff in Hn as [H1 H2].
  apply NoDup_app_intro; auto.
  intros y Hy Hy'. apply in_flat_map in Hy' as (a' & Ha' & Hy').
  apply Hg in Hy. apply Hg in Hy'. congruence.
Qed.

Lemma NoDup_prod3 A B X : NoDup A -> NoDup B -> NoDup X -> NoDup (prod3 A B X).
Proof.
  intros HA HB HX. unfold prod3.
  apply (@NoDup_flat_map_inj _ _ _ (fun t : triplet => fst (fst t))); auto.
  - intros a _. apply (@NoDup_flat_map_inj _ _ _ (fun t : triplet => snd (fst t))); auto.
    + intros b0 _. apply NoDup_map_inj; auto. intros x y _ _ H. congruence.
    + intros b0 y Hy. apply in_map_iff in Hy as (x & <- & _). reflexivity.
  - intros a y Hy. apply in_flat_map in Hy as (b0 & _ & Hy). apply in_map_iff in Hy as (x & <- & _). reflexivity.
Qed.

Lemma seq_mul n m : (0 < m)%nat ->
  seq 0 (n * m) = flat_map (fun q => map (fun r => (q * m + r)%nat) (seq 0 m)) (seq 0 n).
Proof.
  intros Hm. induction n as [|n IH]; [reflexivity|].
  replace (S n * m)%nat with (n * m + m)%nat by lia.
  rewrite seq_app, IH. rewrite seq_S. rewrite flat_map_app. cbn [flat_map Nat.add]. rewrite app_nil_r.
  f_equal. clear. generalize (n * m)%nat. intros s. cbn.
  revert s. induction m as [|m IH]; intros s; [reflexivity|].
  cbn [seq map]. f_equal; [lia|]. rewrite <- (Nat.add_1_r s). rewrite IH.
  rewrite <- seq_shift, map_map. apply map_ext. intros. lia.
Qed.

Lemma map_flat_map A B C (f : A -> list B) (g : B -> C) l :
  map g (flat_map f l) = flat_map (fun a => map g (f a)) l.
Proof. induction l as [|a l IH]; cbn; [reflexivity|]. rewrite map_app, IH. reflexivity. Qed.

Lemma flat_map_map A B C (f : A -> B) (g : B -> list C) l :
  flat_map g (map f l) = flat_map (fun a => g (f a)) l.
Proof. induction l as [|a l IH]; cbn; [reflexivity|]. rewrite IH. reflexivity. Qed.

Lemma flat_map_ext_in A B (f g : A -> list B) l :
  (forall a, In a l -> f a = g a) -> flat_map f l = flat_map g l.
Proof.
  induction l as [|a l IH]; cbn; [reflexivity|]. intros H. rewrite (H a) by auto. f_equal. auto.
Qed.

Lemma flat_map_nth B (f : Z -> list B) l :
  flat_map f l = flat_map (fun i => f (nth i l 0)) (seq 0 (length l)).
Proof. rewrite <- (map_nth_seq l 0) at 1. apply flat_map_map. Qed.

(** Positions in A, B and X of each triplet of the design. *)
Lemma design_positions A B X :
  (0 < length B)%nat -> (0 < length X)%nat ->
  map (fun i => (nth (i / (length B * length X)) A 0,
                 nth ((i / length X) mod length B) B 0,
                 nth (i mod length X) X 0))
      (seq 0 (length A * length B * length X)) = prod3 A B X.
Proof.
  intros HB HX. unfold prod3.
  rewrite <- Nat.mul_assoc, seq_mul by (apply Nat.mul_pos_pos; lia).
  rewrite map_flat_map, (flat_map_nth _ A). apply flat_map_ext_in.
  intros q Hq. rewrite map_map, seq_mul by lia. rewrite map_flat_map, (flat_map_nth _ B). apply flat_map_ext_in.
  intros q' Hq'. rewrite map_map.
  rewrite <- (map_nth_seq_map X (fun x => (nth q A 0, nth q' B 0, x)) 0).
  apply map_ext_in. intros r Hr. apply in_seq in Hq. apply in_seq in Hq'. apply in_seq in Hr.
  assert (E1 : ((q * (length B * length X) + (q' * length X + r)) / (length B * length X) = q)%nat).
  { rewrite Nat.div_add_l by nia. rewrite Nat.div_small by nia. lia. }
  assert (E2 : ((q * (length B * length X) + (q' * length X + r)) / length X = q * length B + q')%nat).
  { replace (q * (length B * length X) + (q' * length X + r))%nat
      with ((q * length B + q') * length X + r)%nat by lia.
    rewrite Nat.div_add_l by lia. rewrite Nat.div_small by lia. lia. }
  assert (E3 : ((q * (length B * length X) + (q' * length X + r)) mod length X = r)%nat).
  { replace (q * (length B * length X) + (q' * length X + r))%nat
      with (r + (q * length B + q') * length X)%nat by lia.
    rewrite Nat.mod_add by lia. apply Nat.mod_small. lia. }
  rewrite E1, E2, E3.
  replace (q * length B + q')%nat with (q' + q * length B)%nat by lia.
  rewrite Nat.mod_add by lia. rewrite (Nat.mod_small q') by lia. reflexivity.
Qed.

Definition pA (t : triplet) : Z := fst (fst t).
Definition pB (t : triplet) : Z := snd (fst t).
Definition pX (t : triplet) : Z := snd t.

Definition keep_ABX (v : row) (t : triplet) : bool :=
  match f_ABX (t_filters T) with
  | None => true
  | Some f => f v (rowof (pA t)) (rowof (pB t)) (rowof (pX t))
  end.

Record design_ok (v : row) (A B X : list Z) (d : design) : Prop := mk_dok {
  dk_A : d_A d = A;
  dk_B : d_B d = B;
  dk_X : d_X d = X;
  dk_triplets : d_triplets d = filter (keep_ABX v) (prod3 A B X);
  dk_spreadA : forall f, spread (d_iA d) (d_ABX d) (map f A) = Ok (map (fun t => f (pA t)) (d_triplets d));
  dk_spreadB : forall f, spread (d_iB d) (d_ABX d) (map f B) = Ok (map (fun t => f (pB t)) (d_triplets d));
  dk_spreadX : forall f, spread (d_iX d) (d_ABX d) (map f X) = Ok (map (fun t => f (pX t)) (d_triplets d));
  dk_ABX : d_ABX d = None <-> f_ABX (t_filters T) = None
}.

Lemma zip3_map (I : Type) (f g h : I -> Z) l :
  zip3 (map f l) (map g l) (map h l) = map (fun i => (f i, g i, h i)) l.
Proof. unfold zip3. induction l as [|i l IH]; cbn; [reflexivity|]. f_equal. exact IH. Qed.

Definition fits (n : Z) : Prop := 0 < n -> exists t, fit_integer_type n false = Ok t.

Lemma factorial_fits v A B X d :
  factorial T fr v A B X = Ok d ->
  fits (Z.of_nat (length A) * Z.of_nat (length B) * Z.of_nat (length X)).
Proof.
  unfold factorial, fits. intros H Hs. apply Z.ltb_lt in Hs. rewrite Hs in H.
  apply bind_ok in H as (t & Et & _). eauto.
Qed.

Lemma factorial_ok v A B X :
  incl A (labels fr) -> incl B (labels fr) -> incl X (labels fr) ->
  fits (Z.of_nat (length A) * Z.of_nat (length B) * Z.of_nat (length X)) ->
  exists d, factorial T fr v A B X = Ok d /\ design_ok v A B X d.
Proof.
  intros HA HB HX Hfit. unfold factorial. unfold fits in Hfit.
  set (size := Z.of_nat (length A) * Z.of_nat (length B) * Z.of_nat (length X)) in *.
  destruct (Z.ltb_spec 0 size) as [Hs|Hs].
  - destruct (Hfit Hs) as (t & Et). rewrite Et. cbn [bind]. clear Hfit.
    assert (Hpos : (0 < length A /\ 0 < length B /\ 0 < length X)%nat) by (unfold size in Hs; nia).
    destruct Hpos as (PA & PB & PX).
    assert (Hsz : Z.to_nat size = (length A * length B * length X)%nat) by (unfold size; lia).
    rewrite Hsz. rewrite !map_map.
    set (N := (length A * length B * length X)%nat) in *.
    assert (Hcast : forall i, In i (seq 0 N) -> cast t (Z.of_nat i) = Z.of_nat i).
    { intros i Hi. apply in_seq in Hi. apply (fit_tmax Et); [lia|]. unfold size, N in *. nia. }
    set (iX := map (fun i => Z.to_nat (cast t (Z.of_nat i) mod Z.of_nat (length X))) (seq 0 N)).
    set (iB := map (fun i => Z.to_nat ((cast t (Z.of_nat i) / Z.of_nat (length X)) mod Z.of_nat (length B))) (seq 0 N)).
    set (iA := map (fun i => Z.to_nat (cast t (Z.of_nat i) / (Z.of_nat (length B) * Z.of_nat (length X)))) (seq 0 N)).
    assert (EX : iX = map (fun i => (i mod length X)%nat) (seq 0 N)).
    { apply map_ext_in. intros i Hi. rewrite Hcast by exact Hi. rewrite <- Nat2Z.inj_mod. apply Nat2Z.id. }
    assert (EB : iB = map (fun i => ((i / length X) mod length B)%nat) (seq 0 N)).
    { apply map_ext_in. intros i Hi. rewrite Hcast by exact Hi.
      rewrite <- Nat2Z.inj_div, <- Nat2Z.inj_mod. apply Nat2Z.id. }
    assert (EA : iA = map (fun i => (i / (length B * length X))%nat) (seq 0 N)).
    { apply map_ext_in. intros i Hi. rewrite Hcast by exact Hi.
      rewrite <- Nat2Z.inj_mul, <- Nat2Z.inj_div. apply Nat2Z.id. }
    clearbody iA iB iX. subst iA iB iX.
    assert (BA : forall i, In i (seq 0 N) -> (i / (length B * length X) < length A)%nat).
    { intros i Hi. apply in_seq in Hi. apply Nat.div_lt_upper_bound; [nia|]. unfold N in Hi. lia. }
    assert (BB : forall i, In i (seq 0 N) -> ((i / length X) mod length B < length B)%nat).
    { intros i Hi. apply Nat.mod_upper_bound. lia. }
    assert (BX : forall i, In i (seq 0 N) -> (i mod length X < length X)%nat).
    { intros i Hi. apply Nat.mod_upper_bound. lia. }
    assert (GG : forall (l : list Z) (h : nat -> nat), (forall i, In i (seq 0 N) -> (h i < length l)%nat) ->
              gather l (map h (seq 0 N)) = Ok (map (fun i => nth (h i) l 0) (seq 0 N))).
    { intros l h Hh. rewrite (@gather_ok _ l _ 0).
      - rewrite map_map. reflexivity.
      - intros i Hi. apply in_map_iff in Hi as (j & <- & Hj). auto. }
    rewrite (GG A _ BA). cbn [bind]. rewrite (GG B _ BB). cbn [bind]. rewrite (GG X _ BX). cbn [bind].
    rewrite zip3_map. unfold N. rewrite design_positions by assumption. fold N.
    set (P := prod3 A B X) in *.
    assert (HP : map (fun i => (nth (i / (length B * length X)) A 0,
                 nth ((i / length X) mod length B) B 0,
                 nth (i mod length X) X 0)) (seq 0 N) = P) by (apply design_positions; assumption).
    assert (SA : forall f : Z -> Z, gather (map f A) (map (fun i => (i / (length B * length X))%nat) (seq 0 N)) =
                   Ok (map (fun t : triplet => f (pA t)) P)).
    { intros f. rewrite (GG (map f A)) by (rewrite map_length; exact BA). f_equal. rewrite <- HP, map_map.
      apply map_ext_in. intros i Hi. unfold pA. cbn [fst].
      rewrite (nth_indep _ 0 (f 0)) by (rewrite map_length; auto). apply map_nth. }
    assert (SB : forall f : Z -> Z, gather (map f B) (map (fun i => ((i / length X) mod length B)%nat) (seq 0 N)) =
                   Ok (map (fun t : triplet => f (pB t)) P)).
    { intros f. rewrite (GG (map f B)) by (rewrite map_length; exact BB). f_equal. rewrite <- HP, map_map.
      apply map_ext_in. intros i Hi. unfold pB. cbn [fst snd].
      rewrite (nth_indep _ 0 (f 0)) by (rewrite map_length; auto). apply map_nth. }
    assert (SX : forall f : Z -> Z, gather (map f X) (map (fun i => (i mod length X)%nat) (seq 0 N)) =
                   Ok (map (fun t : triplet => f (pX t)) P)).
    { intros f. rewrite (GG (map f X)) by (rewrite map_length; exact BX). f_equal. rewrite <- HP, map_map.
      apply map_ext_in. intros i Hi. unfold pX. cbn [snd].
      rewrite (nth_indep _ 0 (f 0)) by (rewrite map_length; auto). apply map_nth. }
    unfold keep_ABX.
    destruct (f_ABX (t_filters T)) as [f|] eqn:Ef.
    + unfold ABX_filter.
      rewrite (@mapM_ok_map _ _ _ (fun t : triplet => f v (rowof (pA t)) (rowof (pB t)) (rowof (pX t)))).
      2:{ intros [[a b'] x] Hin. apply In_prod3 in Hin as (Ha & Hb & Hx).
          rewrite !loc_rowof by auto. reflexivity. }
      cbn [bind]. rewrite (gather_where P). cbn [bind]. eexists. split; [reflexivity|].
      constructor; cbn [d_A d_B d_X d_iA d_iB d_iX d_ABX d_triplets]; try reflexivity; unfold keep_ABX, spread; rewrite ?Ef.
      * reflexivity.
      * intros g. rewrite SA. cbn [bind]. rewrite gather_map.
        rewrite gather_where. reflexivity.
      * intros g. rewrite SB. cbn [bind]. rewrite gather_map, gather_where. reflexivity.
      * intros g. rewrite SX. cbn [bind]. rewrite gather_map, gather_where. reflexivity.
      * split; discriminate.
    + eexists. split; [reflexivity|]. constructor; cbn [d_A d_B d_X d_iA d_iB d_iX d_ABX d_triplets]; try reflexivity; unfold keep_ABX, spread; rewrite ?Ef.
      * symmetry. apply filter_all. reflexivity.
      * intros g. rewrite SA. reflexivity.
      * intros g. rewrite SB. reflexivity.
      * intros g. rewrite SX. reflexivity.
      * split; auto.
  - eexists. split; [reflexivity|].
    assert (HP : prod3 A B X = []).
    { apply length_zero_iff_nil. rewrite length_prod3. unfold size in Hs. nia. }
    constructor; cbn; auto; rewrite ?HP; auto.
    + intros g. unfold spread. cbn. destruct (f_ABX (t_filters T)); reflexivity.
    + intros g. unfold spread. cbn. destruct (f_ABX (t_filters T)); reflexivity.
    + intros g. unfold spread. cbn. destruct (f_ABX (t_filters T)); reflexivity.
    + destruct (f_ABX (t_filters T)); split; congruence.
Qed.

Definition keep2 (f : option (row -> row -> bool)) (v : row) (l : Z) : bool :=
  match f with None => true | Some f => f v (rowof l) end.

Lemma filter_items_keep2 f v l :
  incl l (labels fr) -> filter_items f v fr l = Ok (filter (keep2 f v) l).
Proof.
  intros H. rewrite filter_items_ok by exact H. f_equal. unfold keep2. destruct f; [reflexivity|].
  symmetry. apply filter_all. reflexivity.
Qed.

Lemma incl_filter A (p : A -> bool) l m : incl l m -> incl (filter p l) m.
Proof. intros H x Hx. apply filter_In in Hx. apply H. tauto. Qed.

Lemma cand_incl k A B X : cand_ok k A B X ->
  incl A (labels fr) /\ incl B (labels fr) /\ incl X (labels fr).
Proof.
  intros H. repeat split; intros l Hl.
  - rewrite (ca_A H) in Hl. eapply In_group_label; eauto.
  - apply (ca_B H) in Hl as (r & Hr & _). apply In_labels. eauto.
  - apply (ca_X H) in Hl as (r & Hr & _). apply In_labels. eauto.
Qed.

(** The triplets of a block, as one list. *)
Definition plist (v : row) (k : key) : list triplet :=
  let '(A, B, X) := candidates enum T b k (group (t_on T :: t_across T) fr k) in
  filter (keep_ABX v) (prod3 (filter (keep2 (f_A (t_filters T)) v) A)
                             (filter (keep2 (f_B (t_filters T)) v) B)
                             (filter (keep2 (f_X (t_filters T)) v) X)).

Lemma block_design_ok v k d :
  t_across T <> [] ->
  In k (keys (t_on T :: t_across T) (map snd fr)) ->
  block_design enum T b v k (group (t_on T :: t_across T) fr k) = Ok d ->
  d_triplets d = plist v k /\
  exists A B X, design_ok v A B X d /\ incl A (labels fr) /\ incl B (labels fr) /\ incl X (labels fr).
Proof.
  intros Hac Hk. unfold block_design, plist.
  destruct (candidates enum T b k (group (t_on T :: t_across T) fr k)) as [[A B] X] eqn:E.
  pose proof (candidates_ok Hac Hk E) as Hc. destruct (cand_incl Hc) as (IA & IB & IX).
  rewrite !filter_items_keep2 by assumption. cbn [bind]. intros H.
  pose proof (factorial_fits _ _ _ _ H) as Hf.
  apply (@factorial_ok v) in Hf; try (apply incl_filter; assumption).
  destruct Hf as (d' & Hd' & Hok). assert (d' = d) by congruence. subst d'.
  split; [apply (dk_triplets Hok)|].
  exists (filter (keep2 (f_A (t_filters T)) v) A), (filter (keep2 (f_B (t_filters T)) v) B),
         (filter (keep2 (f_X (t_filters T)) v) X).
  split; [exact Hok|]. split; [|split]; apply incl_filter; assumption.
Qed.

Lemma block_design_total v k :
  t_across T <> [] ->
  In k (keys (t_on T :: t_across T) (map snd fr)) ->
  Zlen fr * Zlen fr * Zlen fr < 2 ^ 64 ->
  exists d, block_design enum T b v k (group (t_on T :: t_across T) fr k) = Ok d.
Proof.
  intros Hac Hk Hs. unfold block_design.
  destruct (candidates enum T b k (group (t_on T :: t_across T) fr k)) as [[A B] X] eqn:E.
  pose proof (candidates_ok Hac Hk E) as Hc. destruct (cand_incl Hc) as (IA & IB & IX).
  rewrite !filter_items_keep2 by assumption. cbn [bind].
  assert (L : forall f l, incl l (labels fr) -> NoDup l -> (length (filter f l) <= length fr)%nat).
  { intros f l Hi Hn. transitivity (length (labels fr)); [|unfold labels; rewrite map_length; lia].
    apply NoDup_incl_length; [apply NoDup_filter; exact Hn|apply incl_filter; exact Hi]. }
  pose proof (L (keep2 (f_A (t_filters T)) v) A IA (ca_nA Hc)).
  pose proof (L (keep2 (f_B (t_filters T)) v) B IB (ca_nB Hc)).
  pose proof (L (keep2 (f_X (t_filters T)) v) X IX (ca_nX Hc)).
  edestruct (@factorial_ok v) as (d & Hd & _); [| | | |exists d; exact Hd];
    try (apply incl_filter; assumption).
  intros _. apply fit_ok_unsigned. unfold Zlen in Hs.
  eapply Z.le_lt_trans; [|exact Hs].
  apply Z.mul_le_mono_nonneg; try lia. apply Z.mul_le_mono_nonneg; lia.
Qed.

(** Members of the triplets of a block. *)
Lemma plist_In v k a b' x :
  t_across T <> [] ->
  In k (keys (t_on T :: t_across T) (map snd fr)) ->
  (In (a, b', x) (plist v k) <->
   exists ra rb rx, In (a, ra) fr /\ In (b', rb) fr /\ In (x, rx) fr /\
     proj (t_on T :: t_across T) ra = k /\
     (rb (t_on T) <> hd 0 k /\ (no_across T = false -> proj (t_across T) rb = tl k)) /\
     (rx (t_on T) = hd 0 k /\ forall c w, In (c, w) (combine (t_across T) (tl k)) -> rx c <> w) /\
     match f_A (t_filters T) with None => True | Some f => f v ra = true end /\
     match f_B (t_filters T) with None => True | Some f => f v rb = true end /\
     match f_X (t_filters T) with None => True | Some f => f v rx = true end /\
     match f_ABX (t_filters T) with None => True | Some f => f v ra rb rx = true end).
Proof.
  intros Hac Hk. unfold plist.
  destruct (candidates enum T b k (group (t_on T :: t_across T) fr k)) as [[A B] X] eqn:E.
  pose proof (candidates_ok Hac Hk E) as Hc.
  rewrite filter_In, In_prod3, !filter_In.
  rewrite (ca_A Hc), In_group, (ca_B Hc), (ca_X Hc).
  unfold keep_ABX, keep2, pA, pB, pX. cbn [fst snd]. split.
  - intros ((((ra & Ha & Ea) & HA) & (((rb & Hb & Eb) & HB) & ((rx & Hx & Ex) & HX))) & Hf).
    exists ra, rb, rx. rewrite (rowof_In _ _ Ha), (rowof_In _ _ Hb), (rowof_In _ _ Hx) in *.
    destruct (f_A (t_filters T)), (f_B (t_filters T)), (f_X (t_filters T)), (f_ABX (t_filters T)); tauto.
  - intros (ra & rb & rx & Ha & Hb & Hx & Ea & Eb & Ex & HA & HB & HX & Hf).
    rewrite (rowof_In _ _ Ha), (rowof_In _ _ Hb), (rowof_In _ _ Hx) in *.
    repeat split; eauto;
    destruct (f_A (t_filters T)), (f_B (t_filters T)), (f_X (t_filters T)), (f_ABX (t_filters T)); tauto.
Qed.

Lemma plist_NoDup v k :
  t_across T <> [] ->
  In k (keys (t_on T :: t_across T) (map snd fr)) -> NoDup (plist v k).
Proof.
  intros Hac Hk. unfold plist.
  destruct (candidates enum T b k (group (t_on T :: t_across T) fr k)) as [[A B] X] eqn:E.
  pose proof (candidates_ok Hac Hk E) as Hc.
  apply NoDup_filter, NoDup_prod3; apply NoDup_filter;
    [apply (ca_nA Hc)|apply (ca_nB Hc)|apply (ca_nX Hc)].
Qed.

Lemma length_set_diff l l' :
  NoDup l' -> NoDup l -> incl l' l -> length (set_diff l l') = (length l - length l')%nat.
Proof.
  intros Hn' Hn Hi. unfold set_diff.
  pose proof (filter_length_split (mem l') l) as H.
  assert (E : length (filter (mem l') l) = length l').
  { apply Permutation_length, NoDup_Permutation; auto using NoDup_filter.
    intros x. rewrite filter_In, mem_spec. split; [tauto|auto]. }
  lia.
Qed.

(** The closed form of the number of triplets. *)
Lemma plist_length v k :
  t_across T <> [] ->
  In k (keys (t_on T :: t_across T) (map snd fr)) ->
  has_item_filters (t_filters T) = false -> (length (t_across T) <= 1)%nat ->
  let n_A := Zlen (group (t_on T :: t_across T) fr k) in
  let n_X := Zlen (group [t_on T] fr (firstn 1 k)) in
  let n_B := if no_across T then Zlen fr - n_X
             else Zlen (group (t_across T) fr (skipn 1 k)) - n_A in
  Zlen (plist v k) = n_A * n_B * (n_X - n_A).
Proof.
  intros Hac Hk Hf Hl n_A n_X n_B. unfold plist.
  assert (HF : f_A (t_filters T) = None /\ f_B (t_filters T) = None /\ f_X (t_filters T) = None /\ f_ABX (t_filters T) = None).
  { unfold has_item_filters in Hf.
    destruct (f_A (t_filters T)), (f_B (t_filters T)), (f_X (t_filters T)), (f_ABX (t_filters T)); try discriminate. auto. }
  destruct HF as (F1 & F2 & F3 & F4).
  apply In_keys in Hk as Hk'. destruct Hk' as (r0 & Hr0 & Ek).
  assert (Hlk : length (skipn 1 k) = length (t_across T)).
  { rewrite <- Ek. cbn. unfold proj. apply map_length. }
  destruct (candidates enum T b k (group (t_on T :: t_across T) fr k)) as [[A B] X] eqn:E.
  pose proof (candidates_ok Hac Hk E) as Hc.
  unfold keep2, keep_ABX. rewrite F1, F2, F3, F4. rewrite !filter_all by reflexivity.
  unfold Zlen. rewrite length_prod3. unfold candidates in E. cbv zeta in E.
  assert (HA : map (cast (b_type b)) (group (t_on T :: t_across T) fr k) =
               group (t_on T :: t_across T) fr k).
  { apply map_cast_id. intros x Hx. apply (wf_cast wf). eapply In_group_label; eauto. }
  rewrite HA in E.
  assert (Hlt : (1 <? length (skipn 1 k))%nat = false) by (apply Nat.ltb_ge; lia).
  rewrite Hlt in E.
  pose proof (f_equal (fun p => fst (fst p)) E) as EA. pose proof (f_equal (fun p => snd (fst p)) E) as EB.
  pose proof (f_equal (fun p => snd p) E) as EX. cbn [fst snd] in EA, EB, EX. clear E.
  assert (HnA : Z.of_nat (length A) = n_A) by (rewrite <- EA; reflexivity).
  assert (Hsub1 : incl (group (t_on T :: t_across T) fr k) (group [t_on T] fr (firstn 1 k))).
  { intros l Hin. apply In_group in Hin as (r & H1 & H2). apply In_group. exists r. split; [exact H1|].
    rewrite <- H2. reflexivity. }
  assert (Hsub2 : incl (group (t_on T :: t_across T) fr k) (group (t_across T) fr (skipn 1 k))).
  { intros l Hin. apply In_group in Hin as (r & H1 & H2). apply In_group. exists r. split; [exact H1|].
    rewrite <- H2. reflexivity. }
  assert (Hsub3 : incl (group [t_on T] fr (firstn 1 k)) (labels fr)).
  { intros l Hin. eapply In_group_label; eauto. }
  pose proof (wf_nodup wf) as Hn.
  assert (HX : Z.of_nat (length X) = n_X - n_A).
  { rewrite <- EX, map_length, (Permutation_length (enum_ok _)).
    rewrite length_set_diff by (auto using NoDup_group).
    pose proof (NoDup_incl_length (NoDup_group (t_on T :: t_across T) fr k Hn) Hsub1). unfold n_X, n_A, Zlen. lia. }
  assert (HB : Z.of_nat (length B) = n_B).
  { rewrite <- EB. unfold n_B. destruct (no_across T); rewrite map_length, (Permutation_length (enum_ok _)).
    - rewrite length_set_diff by (auto using NoDup_group).
      pose proof (NoDup_incl_length (NoDup_group [t_on T] fr (firstn 1 k) Hn) Hsub3) as L.
      assert (EL : length (labels fr) = length fr) by apply map_length. unfold n_X, Zlen. lia.
    - rewrite length_set_diff by (auto using NoDup_group).
      pose proof (NoDup_incl_length (NoDup_group (t_on T :: t_across T) fr k Hn) Hsub2). unfold n_A, Zlen. lia. }
  rewrite <- HX, <- HB, <- HnA. lia.
Qed.

End Block.
End Blocks.
