(** Expected values of programs that favour none of their results. *)
From Coq Require Import Reals Lra.
From Verif Require Import Prelude ListFacts Sampler Sampler_spec Sampler_proofs Sampler_uniform
  Chance_spec Chance_count Chance_law Expect_spec.
Open Scope Z_scope.

Lemma Rsum_cons x l : Rsum (x :: l) = (x + Rsum l)%R.
Proof. reflexivity. Qed.

Lemma Rsum_nil : Rsum [] = 0%R.
Proof. reflexivity. Qed.

Lemma Rsum_app a b : Rsum (a ++ b) = (Rsum a + Rsum b)%R.
Proof. induction a as [|x a IH]; cbn [app]; rewrite ?Rsum_cons, ?Rsum_nil; [lra|]. rewrite IH. lra. Qed.

Lemma Rsum_plus {A} (f g : A -> R) l : Rsum (map (fun x => f x + g x)%R l) = (Rsum (map f l) + Rsum (map g l))%R.
Proof. induction l as [|x l IH]; cbn [map]; rewrite ?Rsum_cons, ?Rsum_nil; [lra|]. rewrite IH. lra. Qed.

Lemma Rsum_scal {A} (c : R) (f : A -> R) l : Rsum (map (fun x => c * f x)%R l) = (c * Rsum (map f l))%R.
Proof. induction l as [|x l IH]; cbn [map]; rewrite ?Rsum_cons, ?Rsum_nil; [lra|]. rewrite IH. lra. Qed.

Lemma Rsum_const {A} (c : R) (l : list A) : Rsum (map (fun _ => c) l) = (INR (length l) * c)%R.
Proof. induction l as [|x l IH]; [change (INR (length [])) with 0%R; cbn [map]; rewrite Rsum_nil; lra|]. change (length (x :: l)) with (S (length l)). rewrite S_INR. cbn [map]. rewrite Rsum_cons, IH. lra. Qed.

Lemma Rsum_swap {A B} (h : A -> B -> R) (l : list A) (m : list B) :
  Rsum (map (fun x => Rsum (map (h x) m)) l) = Rsum (map (fun y => Rsum (map (fun x => h x y) l)) m).
Proof.
  induction l as [|x l IH]; cbn [map].
  - change (Rsum []) with 0%R. rewrite Rsum_const. lra.
  - rewrite ?Rsum_cons. rewrite IH, <- Rsum_plus. reflexivity.
Qed.

Lemma Rsum_count {A} (p : A -> bool) l : Rsum (map (fun x => if p x then 1 else 0)%R l) = INR (length (filter p l)).
Proof.
  induction l as [|x l IH]; [reflexivity|]. cbn [map filter]. rewrite ?Rsum_cons. rewrite IH.
  destruct (p x); [|lra]. cbn [length]. rewrite S_INR. lra.
Qed.

Lemma Rsum_one {A} (eqA : forall a b : A, {a = b} + {a <> b}) (w : A -> R) l a : NoDup l -> In a l ->
  Rsum (map (fun x => if eqA a x then w x else 0%R) l) = w a.
Proof.
  induction l as [|x l IH]; intros Hn Hi; [destruct Hi|]. apply NoDup_cons_iff in Hn as [Hx Hn]. cbn [map]. rewrite ?Rsum_cons.
  destruct (eqA a x) as [->|Ne].
  - rewrite (map_ext_in _ (fun _ => 0%R)); [rewrite Rsum_const; lra|]. intros y Hy. destruct (eqA x y) as [->|]; [contradiction|reflexivity].
  - destruct Hi as [->|Hi]; [congruence|]. rewrite (IH Hn Hi). lra.
Qed.

Lemma cv_sum {A} (u : A -> nat -> R) (r : A -> R) l : (forall a, In a l -> Un_cv (u a) (r a)) ->
  Un_cv (fun T => Rsum (map (fun a => u a T) l)) (Rsum (map r l)).
Proof.
  induction l as [|a l IH]; intros H; [apply (cv_const 0%R)|].
  apply (CV_plus (u a) (fun T => Rsum (map (fun a => u a T) l)) (r a) (Rsum (map r l))); [apply H; left; reflexivity|].
  apply IH. intros. apply H. right. assumption.
Qed.

Lemma cv_scal (c : R) u r : Un_cv u r -> Un_cv (fun n => c * u n)%R (c * r)%R.
Proof. intros H. apply (CV_mult (fun _ => c)); [apply cv_const|exact H]. Qed.

Section Even.
Context {A : Type}.
Variable eqA : forall a b : A, {a = b} + {a <> b}.
Variable M : Z.
Variable f : program A.

Lemma mean_shares L l w T : 0 < L -> NoDup l -> (forall a, possible f a -> In a l) ->
  mean L f w T = Rsum (map (fun a => w a * share eqA L f a T)%R l).
Proof.
  intros HL Hn Hl. unfold mean.
  transitivity (Rsum (map (fun v => Rsum (map (fun a => w a * (if match f (S T) (drawn L v) with Ok b => if eqA b a then true else false | Err _ => false end then 1 else 0)) l)) (vectors L T)) / IZR L ^ T)%R.
  - f_equal. f_equal. apply map_ext_in. intros v Hv. destruct (f (S T) (drawn L v)) as [b|e] eqn:E.
    + rewrite <- (Rsum_one eqA w l b Hn).
      * f_equal. apply map_ext. intros a. destruct (eqA b a); lra.
      * apply Hl. exists (S T), (drawn L v). split; [|exact E]. apply (drawn_ok L HL T v Hv).
    + rewrite (map_ext _ (fun _ => 0%R)) by (intros; lra). rewrite Rsum_const. lra.
  - rewrite Rsum_swap. unfold Rdiv. rewrite Rmult_comm, <- Rsum_scal. f_equal. apply map_ext. intros a. rewrite Rsum_scal, Rsum_count. unfold share, Rdiv. lra.
Qed.

(** Over equally likely results, the expected value is the mean over the results. *)
Lemma even_expects : evenly eqA M f -> exists l, l <> [] /\ NoDup l /\ (forall a, In a l <-> possible f a) /\
  forall w, expects M f w (Rsum (map w l) / INR (length l))%R.
Proof.
  intros (l & H1 & H2 & H3 & H4). exists l. split; [exact H1|]. split; [exact H2|]. split; [exact H3|]. intros w L HL.
  apply (cv_ext (fun T => Rsum (map (fun a => w a * share eqA L f a T)%R l)) _ _ 0).
  - intros T _. symmetry. apply mean_shares; [exact (proj1 HL)|exact H2|]. intros a. apply H3.
  - replace (Rsum (map w l) / INR (length l))%R with (Rsum (map (fun a => w a * / INR (length l))%R l)).
    + apply cv_sum. intros a Ha. apply cv_scal. apply H4; assumption.
    + rewrite (map_ext _ (fun a => / INR (length l) * w a)%R) by (intros; lra). rewrite Rsum_scal. unfold Rdiv. lra.
Qed.
End Even.

Lemma expects_sum {A B} M (f : program A) (w : B -> A -> R) (e : B -> R) m :
  (forall b, In b m -> expects M f (w b) (e b)) -> expects M f (fun a => Rsum (map (fun b => w b a) m)) (Rsum (map e m)).
Proof.
  intros H L HL. apply (cv_ext (fun T => Rsum (map (fun b => mean L f (w b) T) m)) _ _ 0).
  - intros T _. unfold mean.
    rewrite (map_ext _ (fun b => / IZR L ^ T * Rsum (map (fun v => match f (S T) (drawn L v) with Ok a => w b a | Err _ => 0 end) (vectors L T)))%R) by (intros; unfold Rdiv; lra).
    rewrite Rsum_scal, Rsum_swap. unfold Rdiv. rewrite Rmult_comm. f_equal. f_equal. apply map_ext. intros v.
    destruct (f (S T) (drawn L v)); [reflexivity|]. rewrite Rsum_const. lra.
  - apply cv_sum. intros b Hb. apply H; assumption.
Qed.

Lemma expects_scal {A} M (f : program A) (w : A -> R) e c : expects M f w e -> expects M f (fun a => c * w a)%R (c * e)%R.
Proof.
  intros H L HL. apply (cv_ext (fun T => c * mean L f w T)%R _ _ 0); [|apply cv_scal, H, HL].
  intros T _. unfold mean, Rdiv. rewrite <- Rmult_assoc, <- Rsum_scal. f_equal. f_equal. apply map_ext. intros v. destruct (f (S T) (drawn L v)); [reflexivity|lra].
Qed.

Lemma expects_ext {A} M (f : program A) (w w' : A -> R) e : (forall a, w a = w' a) -> expects M f w e -> expects M f w' e.
Proof.
  intros E H L HL. apply (cv_ext (mean L f w) _ _ 0); [|apply H, HL]. intros T _. unfold mean. f_equal. f_equal. apply map_ext. intros v.
  destruct (f (S T) (drawn L v)); [apply E|reflexivity].
Qed.

(** * Counting by exchange *)

Lemma injection_le {A B} (P : A -> B -> Prop) (l : list A) (m : list B) : NoDup l ->
  (forall a, In a l -> exists b, In b m /\ P a b) -> (forall a a' b, P a b -> P a' b -> a = a') -> (length l <= length m)%nat.
Proof.
  revert m. induction l as [|a l IH]; intros m Hn H Hi; [apply Nat.le_0_l|]. apply NoDup_cons_iff in Hn as [Ha Hn].
  destruct (H a (or_introl eq_refl)) as (b & Hb & Hp). apply in_split in Hb as (m1 & m2 & ->).
  assert (length l <= length (m1 ++ m2))%nat.
  { apply IH; [exact Hn| |exact Hi]. intros a' Ha'. destruct (H a' (or_intror Ha')) as (b' & Hb' & Hp'). exists b'. split; [|exact Hp'].
    apply in_app_or in Hb' as [Hb'|[<-|Hb']]; [apply in_or_app; auto| |apply in_or_app; auto].
    exfalso. apply Ha. rewrite (Hi a a' b Hp Hp'). exact Ha'. }
  rewrite app_length in *. cbn [length]. lia.
Qed.

(** When any two members of a group can be exchanged, each is in the same share of the sets. *)
Lemma exchange_count {A S} (inn : A -> S -> bool) (l : list A) (grp : list S) (m : nat) : NoDup l ->
  (forall a, In a l -> length (filter (inn a) grp) = m) ->
  (forall s s', In s grp -> In s' grp -> (length (filter (fun a => inn a s) l) <= length (filter (fun a => inn a s') l))%nat) ->
  forall s, In s grp -> (length grp * length (filter (fun a => inn a s) l) = length l * m)%nat.
Proof.
  intros Hn Hm Hex s Hs. apply INR_eq. rewrite !mult_INR.
  transitivity (Rsum (map (fun s => INR (length (filter (fun a => inn a s) l))) grp)).
  - rewrite (map_ext_in _ (fun _ => INR (length (filter (fun a => inn a s) l)))); [rewrite Rsum_const; reflexivity|].
    intros s' Hs'. f_equal. apply Nat.le_antisymm; apply Hex; assumption.
  - rewrite (map_ext _ (fun s => Rsum (map (fun a => if inn a s then 1 else 0)%R l))) by (intros u; symmetry; apply (Rsum_count (fun a => inn a u))).
    rewrite Rsum_swap. rewrite (map_ext_in _ (fun _ => INR m)); [apply Rsum_const|].
    intros a Ha. rewrite (Rsum_count (inn a)), (Hm a Ha). reflexivity.
Qed.
