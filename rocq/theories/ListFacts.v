(** More facts about lists, monadic maps and pairwise relations. *)
From Verif Require Import Prelude.

Lemma Forall2_impl A B (P Q : A -> B -> Prop) l m :
  (forall a b, P a b -> Q a b) -> Forall2 P l m -> Forall2 Q l m.
Proof. intros H. induction 1; constructor; auto. Qed.

Lemma Forall2_combine A B (P : A -> B -> Prop) l m :
  Forall2 P l m <-> length l = length m /\ forall a b, In (a, b) (combine l m) -> P a b.
Proof.
  split.
  - induction 1 as [|a b l m Hab H [IH1 IH2]]; cbn; [split; [reflexivity|intros ? ? []]|].
    split; [lia|]. intros a' b' [E|Hin]; [inversion E; subst; assumption|auto].
  - revert m. induction l as [|a l IH]; intros [|b m] [H1 H2]; cbn in *; try discriminate; constructor.
    + apply H2. now left.
    + apply IH. split; [lia|]. intros; apply H2; now right.
Qed.

Lemma Forall2_in_l A B (P : A -> B -> Prop) l m a :
  Forall2 P l m -> In a l -> exists b, In b m /\ P a b.
Proof.
  induction 1 as [|x y l m Hxy H IH]; cbn; [tauto|].
  intros [<-|Ha]; [exists y; auto|]. destruct (IH Ha) as (b & ? & ?). exists b. auto.
Qed.

Lemma combine_map_in A B C (f : A -> B) (l : list A) (m : list C) b c :
  In (b, c) (combine (map f l) m) -> exists a, In (a, c) (combine l m) /\ b = f a.
Proof.
  revert m. induction l as [|x l IH]; intros [|y m]; cbn; try tauto.
  intros [E|H]; [inversion E; subst; exists x; auto|].
  destruct (IH m H) as (a & ? & ?). exists a. auto.
Qed.

Lemma mapM_exists A B (f : A -> res B) (P : A -> B -> Prop) l :
  (forall a, In a l -> exists b, f a = Ok b /\ P a b) ->
  exists l', mapM f l = Ok l' /\ Forall2 P l l'.
Proof.
  induction l as [|a l IH]; intros H; cbn [mapM].
  - exists []. split; [reflexivity|constructor].
  - destruct (H a (or_introl eq_refl)) as (b & E & Pb). rewrite E. cbn [bind].
    destruct IH as (l' & E' & F); [intros; apply H; now right|]. rewrite E'. cbn [bind].
    exists (b :: l'). split; [reflexivity|constructor; assumption].
Qed.

Lemma Forall2_seq_nth A B (P : A -> B -> Prop) (l : list A) ys d :
  Forall2 (fun i y => P (nth i l d) y) (seq 0 (length l)) ys -> Forall2 P l ys.
Proof.
  intros H. rewrite <- (map_nth_seq l d). revert H. generalize (seq 0 (length l)). intros idx H.
  induction H; cbn; constructor; assumption.
Qed.

Lemma Forall2_map_l A B C (P : B -> C -> Prop) (f : A -> B) l m :
  Forall2 (fun a c => P (f a) c) l m -> Forall2 P (map f l) m.
Proof. induction 1; cbn; constructor; assumption. Qed.

Lemma Forall2_map_l_inv A B C (P : B -> C -> Prop) (f : A -> B) l m :
  Forall2 P (map f l) m -> Forall2 (fun a c => P (f a) c) l m.
Proof.
  revert m. induction l as [|a l IH]; intros m H; inversion H; subst; constructor; auto.
Qed.

Lemma Forall2_flip A B (P : A -> B -> Prop) l m : Forall2 P l m -> Forall2 (fun b a => P a b) m l.
Proof. induction 1; constructor; assumption. Qed.

Lemma Forall2_combine_r A B C (P : A -> B -> Prop) (Q : A -> C -> Prop) l m k :
  Forall2 P l m -> Forall2 Q l k -> Forall2 (fun a p => P a (fst p) /\ Q a (snd p)) l (combine m k).
Proof.
  intros H. revert k. induction H as [|a b l m Hab H IH]; intros k Hk; inversion Hk; subst; cbn; constructor; auto.
Qed.

Lemma Forall2_trans_same A B C (P : A -> C -> Prop) (Q : B -> C -> Prop) (R : A -> B -> Prop) l m k :
  (forall a b c, P a c -> Q b c -> R a b) -> Forall2 P l k -> Forall2 Q m k -> Forall2 R l m.
Proof.
  intros HR H. revert m. induction H as [|a c l k Hac H IH]; intros m Hm; inversion Hm; subst;
    constructor; eauto.
Qed.

Lemma ssorted_app_inv (l1 l2 : list Z) :
  StronglySorted Z.le (l1 ++ l2) ->
  StronglySorted Z.le l1 /\ StronglySorted Z.le l2 /\
  (forall x y, In x l1 -> In y l2 -> (x <= y)%Z).
Proof.
  induction l1 as [|a l1 IH]; cbn; intros H.
  - split; [constructor|]. split; [exact H|]. intros x y [].
  - inversion H as [|? ? H' Hf]; subst. destruct (IH H') as (A1 & A2 & A3).
    apply Forall_app in Hf as [F1 F2]. split; [constructor; assumption|].
    split; [exact A2|]. intros x y [<-|Hx] Hy; [|auto].
    rewrite Forall_forall in F2. auto.
Qed.

Lemma gather_slice A (l : list A) d i0 i1 order :
  i0 <= i1 <= length l -> Permutation order (seq 0 (i1 - i0)) ->
  gather (slice i0 i1 l) order = Ok (map (fun i => nth i l d) (map (fun k => i0 + k) order)).
Proof.
  intros H P. rewrite gather_ok with (d := d).
  - f_equal. rewrite map_map. apply map_ext_in. intros k Hk.
    apply (Permutation_in _ P) in Hk. apply in_seq in Hk.
    assert (E : nth_error (slice i0 i1 l) k = nth_error l (i0 + k)).
    { rewrite nth_error_slice. destruct (Nat.ltb_spec k (i1 - i0)); [reflexivity|lia]. }
    apply nth_error_nth. rewrite E. apply nth_error_nth'. lia.
  - intros k Hk. apply (Permutation_in _ P) in Hk. apply in_seq in Hk.
    rewrite slice_length. lia.
Qed.
