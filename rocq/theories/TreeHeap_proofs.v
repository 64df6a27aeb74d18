(** Proofs about trees of objects. *)
From Coq Require Import String.
From Coq Require Import List Arith Bool Lia Permutation.
From Verif Require Import Prelude TreeHeap TreeHeap_spec.
Import ListNotations.
Set Implicit Arguments.

Ltac perm := apply (Permutation_count_occ Nat.eq_dec); intros ?x; repeat (progress (rewrite ?flat_map_app, ?count_occ_app; cbn [flat_map objects app count_occ]));
  repeat match goal with |- context [Nat.eq_dec ?a ?b] => destruct (Nat.eq_dec a b) end; lia.

Lemma nodup_apart (l l' : list nat) x : NoDup (l ++ l') -> In x l -> In x l' -> False.
Proof.
  induction l as [|y l IH]; intros N H H'; [destruct H|]. inversion N as [|? ? Ny Nl]; subst. destruct H as [<-|H].
  - apply Ny. apply in_or_app. auto.
  - eauto.
Qed.
Arguments nodup_apart {l l' x}.
Lemma nodup_left (l l' : list nat) : NoDup (l ++ l') -> NoDup l.
Proof. induction l as [|y l IH]; intros N; [constructor|]. inversion N as [|? ? Ny Nl]; subst. constructor; [|auto]. intros H. apply Ny, in_or_app. auto. Qed.
Lemma nodup_right (l l' : list nat) : NoDup (l ++ l') -> NoDup l'.
Proof. induction l as [|y l IH]; intros N; [exact N|]. inversion N; subst. auto. Qed.

Section Proofs.
Variable V : Type.
Implicit Types m : memory V.

Lemma shape_ind' (P : shape -> Prop) : (forall i c, (forall t, In t c -> P t) -> P (At i c)) -> forall t, P t.
Proof.
  intros H. fix IH 1. intros [i c]. apply H. induction c as [|t c IHc]; intros u Hu; [destruct Hu|].
  pose proof (IH t) as Pt. destruct Hu as [<-|Hu]; [exact Pt|exact (IHc u Hu)].
Qed.

(** What the memory says of the objects of a tree is all that counts. *)
Lemma holds_frame m m' : forall t p, holds m p t -> (forall i, In i (objects t) -> m' i = m i) -> holds m' p t.
Proof.
  induction t as [i c IH] using shape_ind'. intros p H F. inversion H as [p0 i0 c0 Hc Hp Hb]; subst. constructor.
  - rewrite F by (left; reflexivity). exact Hc.
  - rewrite F by (left; reflexivity). reflexivity.
  - intros t Ht. apply IH; [exact Ht|apply Hb; exact Ht|]. intros j Hj. apply F. right. apply in_flat_map. eauto.
Qed.

Lemma holds_top m m' p p' t : holds m p t -> n_children (m' (top t)) = n_children (m (top t)) -> n_parent (m' (top t)) = p' ->
  (forall i, In i (flat_map objects (below t)) -> m' i = m i) -> holds m' p' t.
Proof.
  intros H Hc Hp F. destruct H as [p0 i c H1 H2 H3]. cbn in *. constructor; [congruence|exact Hp|].
  intros t Ht. eapply holds_frame; [apply H3, Ht|]. intros j Hj. apply F. apply in_flat_map. eauto.
Qed.

Lemma holds_parent m p t : holds m p t -> n_parent (m (top t)) = p.
Proof. intros []; cbn; congruence. Qed.
Lemma holds_children m p t : holds m p t -> n_children (m (top t)) = map top (below t).
Proof. intros []; cbn; congruence. Qed.
Lemma holds_below m p t s : holds m p t -> In s (below t) -> holds m (Some (top t)) s.
Proof. intros []; cbn; auto. Qed.

(** What is around a tree. *)
Definition above (w : way) : option nat := match w with [] => None | (p, _, _) :: _ => Some p end.
Fixpoint around m (i : nat) (w : way) : Prop :=
  match w with
  | [] => True
  | (p, l, r) :: w' => n_children (m p) = map top l ++ i :: map top r /\ n_parent (m p) = above w' /\
      (forall t, In t (l ++ r) -> holds m (Some p) t) /\ around m p w'
  end.
Definition way_objects (w : way) : list nat := flat_map (fun x => fst (fst x) :: flat_map objects (snd (fst x) ++ snd x)) w.

Lemma holds_put m : forall w t, holds m None (put w t) <-> holds m (above w) t /\ around m (top t) w.
Proof.
  induction w as [|[[p l] r] w IH]; intros t; cbn [put around above]; [tauto|]. rewrite IH. split.
  - intros [H A]. inversion H as [p0 i0 c0 Hc Hp Hb]; subst. cbn in A. rewrite map_app in Hc. cbn in Hc.
    split; [apply Hb, in_or_app; right; left; reflexivity|]. split; [exact Hc|]. split; [exact Hp|]. split; [|exact A].
    intros s Hs. apply Hb. apply in_app_iff in Hs. apply in_or_app. cbn. tauto.
  - intros (H & Hc & Hp & Hb & A). split; [|exact A]. constructor.
    + rewrite map_app. exact Hc.
    + exact Hp.
    + intros s Hs. apply in_app_iff in Hs. destruct Hs as [Hs|[<-|Hs]]; [|exact H|]; apply Hb, in_or_app; auto.
Qed.

Lemma around_frame m m' : forall w i, around m i w -> (forall j, In j (way_objects w) -> m' j = m j) -> around m' i w.
Proof.
  induction w as [|[[p l] r] w IH]; intros i A F; [exact I|]. destruct A as (H1 & H2 & H3 & H4). cbn [around]. rewrite F by (left; reflexivity).
  split; [exact H1|]. split; [exact H2|]. split.
  - intros t Ht. eapply holds_frame; [apply H3, Ht|]. intros j Hj. apply F. right. apply in_or_app. left. apply in_flat_map. eauto.
  - apply IH; [exact H4|]. intros j Hj. apply F. right. apply in_or_app. right. exact Hj.
Qed.

Lemma objects_put : forall w t, Permutation (objects (put w t)) (objects t ++ way_objects w).
Proof.
  induction w as [|[[p l] r] w IH]; intros t; cbn [put]; [rewrite app_nil_r; reflexivity|]. rewrite IH.
  change (way_objects ((p, l, r) :: w)) with (p :: flat_map objects (l ++ r) ++ way_objects w). perm.
Qed.

Lemma forest_put m w t ts : forest m (put w t :: ts) <->
  holds m (above w) t /\ around m (top t) w /\ (forall u, In u ts -> holds m None u) /\
  NoDup (objects t ++ way_objects w ++ flat_map objects ts).
Proof.
  unfold forest. cbn [flat_map]. split.
  - intros [H N]. pose proof (proj1 (holds_put m w t) (H _ (or_introl eq_refl))) as [H1 H2].
    split; [exact H1|]. split; [exact H2|]. split; [intros; apply H; right; assumption|].
    eapply Permutation_NoDup; [|exact N]. rewrite app_assoc. apply Permutation_app_tail, objects_put.
  - intros (H1 & H2 & H3 & N). split.
    + intros u [<-|Hu]; [apply holds_put; auto|auto].
    + eapply Permutation_NoDup; [|exact N]. rewrite app_assoc. apply Permutation_app_tail, Permutation_sym, objects_put.
Qed.

Lemma forest_perm m ts ts' : Permutation ts ts' -> forest m ts -> forest m ts'.
Proof.
  intros P [H N]. split.
  - intros t Ht. apply H. eapply Permutation_in; [apply Permutation_sym, P|exact Ht].
  - eapply Permutation_NoDup; [|exact N]. apply Permutation_flat_map, P.
Qed.

Lemma set_same m i n : set m i n i = n.
Proof. unfold set. rewrite Nat.eqb_refl. reflexivity. Qed.
Lemma set_other m i n j : j <> i -> set m i n j = m j.
Proof. unfold set. intros H. apply Nat.eqb_neq in H. rewrite H. reflexivity. Qed.

Lemma in_objects_top t : In (top t) (objects t).
Proof. destruct t. left. reflexivity. Qed.
Lemma objects_top t : objects t = top t :: flat_map objects (below t).
Proof. destruct t. reflexivity. Qed.

Lemma only_refl l m : only l m m.
Proof. split; reflexivity. Qed.
Lemma only_trans l l' m m' m'' : only l m m' -> only l' m' m'' -> only (l ++ l') m m''.
Proof.
  intros [H1 H2] [H3 H4]. split.
  - intros i. rewrite H3. apply H1.
  - intros i Hi. rewrite H4, H2; auto; intros H; apply Hi, in_or_app; auto.
Qed.
Lemma only_incl l l' m m' : (forall i, In i l -> In i l') -> only l m m' -> only l' m m'.
Proof. intros H [H1 H2]. split; [exact H1|]. intros i Hi. apply H2. intros H'. apply Hi, H, H'. Qed.

Lemma only_children m i c : only [i] m (set_children m i c).
Proof.
  split.
  - intros j. unfold set_children. destruct (Nat.eq_dec j i) as [->|N]; [rewrite set_same; reflexivity|rewrite set_other by exact N; reflexivity].
  - intros j Hj. apply set_other. intros ->. apply Hj. left. reflexivity.
Qed.
Lemma only_parent m i p : only [i] m (set_parent m i p).
Proof.
  split.
  - intros j. unfold set_parent. destruct (Nat.eq_dec j i) as [->|N]; [rewrite set_same; reflexivity|rewrite set_other by exact N; reflexivity].
  - intros j Hj. apply set_other. intros ->. apply Hj. left. reflexivity.
Qed.

Lemma children_set_parent m i p j : n_children (set_parent m i p j) = n_children (m j).
Proof. unfold set_parent. destruct (Nat.eq_dec j i) as [->|N]; [rewrite set_same; reflexivity|rewrite set_other by exact N; reflexivity]. Qed.
Lemma parent_set_children m i c j : n_parent (set_children m i c j) = n_parent (m j).
Proof. unfold set_children. destruct (Nat.eq_dec j i) as [->|N]; [rewrite set_same; reflexivity|rewrite set_other by exact N; reflexivity]. Qed.
Lemma children_set m i c : n_children (set_children m i c i) = c.
Proof. unfold set_children. rewrite set_same. reflexivity. Qed.
Lemma parent_set m i p : n_parent (set_parent m i p i) = p.
Proof. unfold set_parent. rewrite set_same. reflexivity. Qed.
Lemma parent_set_other m i p j : j <> i -> n_parent (set_parent m i p j) = n_parent (m j).
Proof. intros N. unfold set_parent. rewrite set_other by exact N. reflexivity. Qed.
Lemma children_set_other m i c j : j <> i -> n_children (set_children m i c j) = n_children (m j).
Proof. intros N. unfold set_children. rewrite set_other by exact N. reflexivity. Qed.

(** ** addChild *)
Theorem add_child_forest m w n c t ts : forest m (put w (At n c) :: t :: ts) ->
  exists m', add_child m n (Tree (top t)) = (m', Ok tt) /\ forest m' (put w (At n (c ++ [t])) :: ts) /\ only [n; top t] m m'.
Proof.
  intros F. apply forest_put in F. destruct F as (H & A & Hts & N). cbn [add_child]. eexists. split; [reflexivity|].
  set (m' := register _ _ _).
  assert (N' : NoDup ((n :: top t :: nil) ++ flat_map objects c ++ flat_map objects (below t) ++ way_objects w ++ flat_map objects ts)).
  { eapply Permutation_NoDup; [|exact N]. cbn [flat_map]. rewrite (objects_top t). perm. }
  assert (O : only [n; top t] m m').
  { apply (only_trans (only_children m n _) (only_parent _ (top t) _)). }
  assert (U : forall j, In j (flat_map objects c ++ flat_map objects (below t) ++ way_objects w ++ flat_map objects ts) -> m' j = m j).
  { intros j Hj. apply O. intros Hj'. exact (nodup_apart N' Hj' Hj). }
  assert (Nn : n <> top t). { intros E. cbn in N'. inversion N' as [|? ? Ny Nl]. apply Ny. left. symmetry. exact E. }
  split; [|exact O]. apply forest_put.
  assert (Ht : holds m None t) by (apply Hts; left; reflexivity).
  inversion H as [p0 i0 c0 Hc Hp Hb]; subst. split.
  { constructor.
    - unfold m', register. rewrite children_set_parent, children_set. rewrite Hc, map_app. reflexivity.
    - unfold m', register. rewrite parent_set_other by exact Nn. rewrite parent_set_children. exact Hp.
    - intros s Hs. apply in_app_iff in Hs. destruct Hs as [Hs|[<-|[]]].
      + eapply holds_frame; [apply Hb, Hs|]. intros j Hj. apply U. apply in_or_app. left. apply in_flat_map. eauto.
      + eapply holds_top; [exact Ht| | |].
        * unfold m', register. rewrite children_set_parent. apply children_set_other. congruence.
        * apply parent_set.
        * intros j Hj. apply U. rewrite !in_app_iff. auto. }
  split.
  { eapply around_frame; [exact A|]. intros j Hj. apply U. rewrite !in_app_iff. auto. }
  split.
  { intros u Hu. eapply holds_frame; [apply Hts; right; exact Hu|]. intros j Hj. apply U. rewrite !in_app_iff. do 3 right. apply in_flat_map. eauto. }
  eapply Permutation_NoDup; [|exact N]. cbn [flat_map]. perm.
Qed.

(** ** remove *)
Lemma index_of_here i : forall l r, ~ In i l -> index_of i (l ++ i :: r) = Ok (length l).
Proof.
  induction l as [|j l IH]; intros r H; cbn; [rewrite Nat.eqb_refl; reflexivity|].
  destruct (Nat.eqb_spec j i) as [->|]; [exfalso; apply H; left; reflexivity|]. rewrite IH by (intros H'; apply H; right; exact H'). reflexivity.
Qed.

Theorem remove_forest m w p l s r ts : forest m (put w (At p (l ++ s :: r)) :: ts) ->
  exists m', remove m (top s) = (m', Ok (length l)) /\ forest m' (put w (At p (l ++ r)) :: s :: ts) /\ only [p; top s] m m'.
Proof.
  intros F. apply forest_put in F. destruct F as (H & A & Hts & N).
  assert (N' : NoDup ((p :: top s :: nil) ++ flat_map objects (l ++ r) ++ flat_map objects (below s) ++ way_objects w ++ flat_map objects ts)).
  { eapply Permutation_NoDup; [|exact N]. cbn [objects]. rewrite !flat_map_app. cbn [flat_map]. rewrite (objects_top s). perm. }
  inversion H as [p0 i0 c0 Hc Hp Hb]; subst.
  assert (Hs : holds m (Some p) s) by (apply Hb, in_or_app; right; left; reflexivity).
  assert (Ix : index_of (top s) (n_children (m p)) = Ok (length l)).
  { rewrite Hc, map_app. cbn [map]. rewrite index_of_here, map_length; [reflexivity|]. intros Hin. apply in_map_iff in Hin. destruct Hin as (u & E & Hu).
    refine (nodup_apart N' (or_intror (or_introl eq_refl)) _). rewrite flat_map_app, !in_app_iff. left. left. apply in_flat_map.
    exists u. split; [exact Hu|]. rewrite <- E. apply in_objects_top. }
  assert (Ns : top s <> p). { intros E. cbn in N'. inversion N' as [|? ? Ny Nl]. apply Ny. left. exact E. }
  unfold remove, index. rewrite (holds_parent Hs), Ix. eexists. split; [reflexivity|]. set (m' := set_parent _ _ _).
  assert (O : only [p; top s] m m') by apply (only_trans (only_children m p _) (only_parent _ (top s) _)).
  assert (U : forall j, In j (flat_map objects (l ++ r) ++ flat_map objects (below s) ++ way_objects w ++ flat_map objects ts) -> m' j = m j).
  { intros j Hj. apply O. intros Hj'. exact (nodup_apart N' Hj' Hj). }
  split; [|exact O]. apply forest_put. split.
  { constructor.
    - unfold m'. rewrite children_set_parent, children_set, Hc, !map_app. cbn [map]. rewrite <- (map_length top l).
      rewrite firstn_app, firstn_all, Nat.sub_diag. cbn [firstn]. rewrite app_nil_r. f_equal.
      rewrite skipn_app, skipn_all2 by lia. replace (S (length (map top l)) - length (map top l)) with 1 by lia. reflexivity.
    - unfold m'. rewrite parent_set_other by congruence. rewrite parent_set_children. exact Hp.
    - intros t Ht. eapply holds_frame; [apply Hb; apply in_app_iff in Ht; apply in_or_app; cbn; tauto|]. intros j Hj. apply U, in_or_app. left. apply in_flat_map. eauto. }
  split; [eapply around_frame; [exact A|]; intros j Hj; apply U; rewrite !in_app_iff; auto|].
  split.
  { intros u [<-|Hu].
    - eapply holds_top; [exact Hs| | |].
      + unfold m'. rewrite children_set_parent. apply children_set_other, Ns.
      + apply parent_set.
      + intros j Hj. apply U. rewrite !in_app_iff. auto.
    - eapply holds_frame; [apply Hts, Hu|]. intros j Hj. apply U. rewrite !in_app_iff. do 3 right. apply in_flat_map. eauto. }
  eapply Permutation_NoDup; [|exact N]. cbn [flat_map objects]. perm.
Qed.

(** A tree without parent. *)
Theorem root_refused m t ts nodes k : forest m (t :: ts) ->
  index m (top t) = Err ValueError /\ remove m (top t) = (m, Err ValueError) /\ replace m (top t) nodes = (m, Err ValueError) /\
  reparent m (top t) k = (m, Err ValueError).
Proof.
  intros [H _]. specialize (H t (or_introl eq_refl)). apply holds_parent in H.
  assert (I : index m (top t) = Err ValueError) by (unfold index; rewrite H; reflexivity).
  assert (R : remove m (top t) = (m, Err ValueError)) by (unfold remove; rewrite I; reflexivity).
  split; [exact I|]. split; [exact R|]. unfold reparent, replace. rewrite R. split; reflexivity.
Qed.

(** ** clear *)
Lemma remove_all_forest : forall c m w n ts, forest m (put w (At n c) :: ts) ->
  exists m', remove_all m (map top c) = (m', Ok tt) /\ forest m' (put w (At n []) :: c ++ ts) /\ only (n :: map top c) m m'.
Proof.
  induction c as [|s c IH]; intros m w n ts F; cbn [map remove_all].
  - exists m. split; [reflexivity|]. split; [exact F|apply only_refl].
  - destruct (@remove_forest m w n [] s c ts F) as (m1 & E & F1 & O1). rewrite E. cbn [andthen].
    destruct (IH m1 w n (s :: ts) F1) as (m2 & E2 & F2 & O2). exists m2. split; [exact E2|]. split.
    + eapply forest_perm; [|exact F2]. apply perm_skip. apply Permutation_sym, Permutation_middle.
    + eapply only_incl; [|apply (only_trans O1 O2)]. cbn. intros i Hi. tauto.
Qed.

Lemma put_children m w n c ts : forest m (put w (At n c) :: ts) -> n_children (m n) = map top c.
Proof. intros F. apply forest_put in F. destruct F as (H & _). inversion H; subst. assumption. Qed.

Theorem clear_forest m w n c ts : forest m (put w (At n c) :: ts) ->
  exists m', clear m n = (m', Ok (map top c)) /\ forest m' (put w (At n []) :: c ++ ts) /\ only (n :: map top c) m m'.
Proof.
  intros F. unfold clear. rewrite (put_children _ _ _ F). destruct (remove_all_forest _ _ _ F) as (m' & E & F' & O).
  rewrite E. exists m'. split; [reflexivity|]. split; assumption.
Qed.

(** ** replace *)
Lemma only_registers p : forall l m, only l m (fold_left (fun m i => register m i p) l m).
Proof.
  induction l as [|i l IH]; intros m; cbn [fold_left]; [apply only_refl|].
  eapply only_incl; [|apply (only_trans (only_parent m i (Some p)) (IH _))]. cbn. tauto.
Qed.
Lemma children_registers p : forall l m j, n_children (fold_left (fun m i => register m i p) l m j) = n_children (m j).
Proof. induction l as [|i l IH]; intros m j; cbn [fold_left]; [reflexivity|]. rewrite IH. apply children_set_parent. Qed.
Lemma parent_registers p : forall l m j, n_parent (fold_left (fun m i => register m i p) l m j) = if in_dec Nat.eq_dec j l then Some p else n_parent (m j).
Proof.
  induction l as [|i l IH]; intros m j; cbn [fold_left]; [reflexivity|]. rewrite IH. unfold register.
  destruct (in_dec Nat.eq_dec j l), (in_dec Nat.eq_dec j (i :: l)) as [I|I]; cbn in I; try reflexivity; try tauto.
  - destruct (Nat.eq_dec j i) as [->|N]; [apply parent_set|]. destruct I; [congruence|tauto].
  - apply parent_set_other. intros ->. apply I. left. reflexivity.
Qed.

Lemma insert_forest m w p l r us ts : forest m (put w (At p (l ++ r)) :: us ++ ts) ->
  let m' := fold_left (fun m i => register m i p) (map top us) (set_children m p (insert_at (length l) (map top us) (n_children (m p)))) in
  forest m' (put w (At p (l ++ us ++ r)) :: ts) /\ only (p :: map top us) m m'.
Proof.
  intros F m'. apply forest_put in F. destruct F as (H & A & Hts & N).
  assert (O : only (p :: map top us) m m') by apply (only_trans (only_children m p _) (only_registers p _ _)).
  assert (Nt : NoDup ((p :: map top us) ++ flat_map objects (l ++ r) ++ flat_map (fun u => flat_map objects (below u)) us ++ way_objects w ++ flat_map objects ts)).
  { eapply Permutation_NoDup; [|exact N]. cbn [objects]. rewrite !flat_map_app. cbn [app]. apply perm_skip.
    assert (P : Permutation (flat_map objects us) (map top us ++ flat_map (fun u => flat_map objects (below u)) us)).
    { clear. induction us as [|u us IH]; [reflexivity|]. cbn [flat_map map]. rewrite (objects_top u), IH. cbn [app]. apply perm_skip. perm. }
    rewrite P. perm. }
  assert (U : forall j, In j (flat_map objects (l ++ r) ++ flat_map (fun u => flat_map objects (below u)) us ++ way_objects w ++ flat_map objects ts) -> m' j = m j).
  { intros j Hj. apply O. intros Hj'. exact (nodup_apart Nt Hj' Hj). }
  inversion H as [p0 i0 c0 Hc Hp Hb]; subst. split; [|exact O]. apply forest_put. split.
  { constructor.
    - unfold m'. rewrite children_registers, children_set, Hc. unfold insert_at. rewrite !map_app, <- (map_length top l).
      rewrite firstn_app, firstn_all, Nat.sub_diag. cbn [firstn]. rewrite app_nil_r. f_equal. f_equal.
      rewrite skipn_app, skipn_all, Nat.sub_diag. reflexivity.
    - unfold m'. rewrite parent_registers. destruct (in_dec _ p _) as [I|I].
      + exfalso. cbn in Nt. inversion Nt as [|? ? Ny Nl]. apply Ny, in_or_app. left. exact I.
      + rewrite parent_set_children. exact Hp.
    - intros t Ht. rewrite !in_app_iff in Ht. assert (C : In t (l ++ r) \/ In t us) by (rewrite in_app_iff; tauto). destruct C as [C|C].
      + eapply holds_frame; [apply Hb, C|]. intros j Hj. apply U, in_or_app. left. apply in_flat_map. eauto.
      + eapply holds_top; [apply Hts, in_or_app; left; exact C| | |].
        * unfold m'. rewrite children_registers. apply children_set_other. intros E. cbn in Nt. inversion Nt as [|? ? Ny Nl]. apply Ny, in_or_app. left. rewrite <- E. apply in_map, C.
        * unfold m'. rewrite parent_registers. destruct (in_dec _ (top t) _) as [I|I]; [reflexivity|]. exfalso. apply I, in_map, C.
        * intros j Hj. apply U. rewrite !in_app_iff. right. left. apply in_flat_map. eauto. }
  split; [eapply around_frame; [exact A|]; intros j Hj; apply U; rewrite !in_app_iff; auto|].
  split.
  { intros u Hu. eapply holds_frame; [apply Hts, in_or_app; right; exact Hu|]. intros j Hj. apply U. rewrite !in_app_iff. do 3 right. apply in_flat_map. eauto. }
  eapply Permutation_NoDup; [|exact N]. cbn [flat_map objects]. perm.
Qed.

Theorem replace_forest m w p l s r us ts : forest m (put w (At p (l ++ s :: r)) :: us ++ ts) ->
  exists m', replace m (top s) (map top us) = (m', Ok tt) /\ forest m' (put w (At p (l ++ us ++ r)) :: s :: ts) /\
    only (p :: top s :: map top us) m m'.
Proof.
  intros F. unfold replace.
  assert (Hp : n_parent (m (top s)) = Some p).
  { apply forest_put in F. destruct F as (H & _). apply (holds_parent (p := Some p)). apply (holds_below s H). apply in_or_app. right. left. reflexivity. }
  rewrite Hp. destruct (remove_forest _ _ _ _ _ F) as (m1 & E & F1 & O1). rewrite E. cbn [andthen]. eexists. split; [reflexivity|].
  assert (F2 : forest m1 (put w (At p (l ++ r)) :: us ++ s :: ts)).
  { eapply forest_perm; [|exact F1]. apply perm_skip, Permutation_middle. }
  destruct (insert_forest _ _ _ _ _ _ F2) as [F3 O3]. split; [exact F3|].
  eapply only_incl; [|apply (only_trans O1 O3)]. cbn. intros i Hi. tauto.
Qed.

(** ** inject and reparent *)
Lemma move_all_forest : forall c m w n k d ts, forest m (put w (At n c) :: At k d :: ts) ->
  exists m', move_all m k (map top c) = (m', Ok tt) /\ forest m' (put w (At n []) :: At k (d ++ c) :: ts) /\ only (n :: k :: map top c) m m'.
Proof.
  induction c as [|s c IH]; intros m w n k d ts F; cbn [map move_all].
  - exists m. rewrite app_nil_r. split; [reflexivity|]. split; [exact F|apply only_refl].
  - destruct (@remove_forest m w n [] s c _ F) as (m1 & E & F1 & O1). rewrite E. cbn [andthen app] in *.
    assert (F1' : forest m1 (put [] (At k d) :: s :: put w (At n c) :: ts)).
    { eapply forest_perm; [|exact F1]. cbn [put]. apply (perm_trans (l' := put w (At n c) :: At k d :: s :: ts)).
      - apply perm_skip, perm_swap.
      - apply (perm_trans (l' := At k d :: put w (At n c) :: s :: ts)); [apply perm_swap|apply perm_skip, perm_swap]. }
    destruct (add_child_forest _ _ _ F1') as (m2 & E2 & F2 & O2). rewrite E2. cbn [andthen put] in *.
    assert (F2' : forest m2 (put w (At n c) :: At k (d ++ [s]) :: ts)) by (eapply forest_perm; [apply perm_swap|exact F2]).
    destruct (IH _ _ _ _ _ _ F2') as (m3 & E3 & F3 & O3). exists m3. split; [exact E3|]. rewrite <- app_assoc in F3. split; [exact F3|].
    eapply only_incl; [|apply (only_trans O1 (only_trans O2 O3))]. cbn. intros i Hi. tauto.
Qed.

Theorem inject_forest m w n c k d ts : forest m (put w (At n c) :: At k d :: ts) ->
  exists m', inject m n k = (m', Ok k) /\ forest m' (put w (At n [At k (d ++ c)]) :: ts) /\ only (n :: k :: map top c) m m'.
Proof.
  intros F. unfold inject. rewrite (put_children _ _ _ F). destruct (move_all_forest _ _ _ F) as (m1 & E1 & F1 & O1). rewrite E1. cbn [andthen].
  destruct (clear_forest _ _ _ F1) as (m2 & E2 & F2 & O2). rewrite E2. cbn [andthen app] in *.
  destruct (add_child_forest _ _ _ F2) as (m3 & E3 & F3 & O3). cbn [top] in E3. rewrite E3. cbn [andthen]. exists m3. split; [reflexivity|]. split; [exact F3|].
  eapply only_incl; [|apply (only_trans O1 (only_trans O2 O3))]. cbn. intros i Hi. rewrite in_app_iff in Hi. cbn in Hi. tauto.
Qed.

Theorem reparent_forest m w p l s r k d ts : forest m (put w (At p (l ++ s :: r)) :: At k d :: ts) ->
  exists m', reparent m (top s) k = (m', Ok k) /\ forest m' (put w (At p (l ++ At k (d ++ [s]) :: r)) :: ts) /\ only [p; top s; k] m m'.
Proof.
  intros F. unfold reparent. destruct (@replace_forest m w p l s r [At k d] ts F) as (m1 & E1 & F1 & O1). cbn [map top] in E1. rewrite E1. cbn [andthen].
  change (put w (At p (l ++ [At k d] ++ r))) with (put ((p, l, r) :: w) (At k d)) in F1.
  destruct (add_child_forest _ _ _ F1) as (m2 & E2 & F2 & O2). rewrite E2. cbn [andthen]. exists m2. split; [reflexivity|]. split; [exact F2|].
  eapply only_incl; [|apply (only_trans O1 O2)]. cbn. intros i Hi. tauto.
Qed.

End Proofs.
