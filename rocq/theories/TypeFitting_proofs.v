From Verif Require Import Prelude TypeFitting TypeFitting_spec.
Open Scope Z_scope.

Lemma fit_narrowest n s t : fit_integer_type n s = Ok t -> narrowest t n s.
Proof.
  unfold fit_integer_type. intros H.
  destruct s; cbn [Z.sub Z.pow] in H;
  repeat match type of H with
         | (if ?b then _ else _) = _ => destruct b eqn:?; [inversion H; subst; clear H|]
         end; try discriminate; cbn in *; unfold narrowest; cbn;
  (split; [reflexivity|split; [lia|]]);
  intros t' Hs Hn; destruct t'; cbn in *; try discriminate; lia.
Qed.

Lemma fit_error n s :
  (exists e, fit_integer_type n s = Err e) <->
  (forall t, is_signed_type t = s -> largest t < n).
Proof.
  unfold fit_integer_type. split.
  - intros [e H] t Ht.
    destruct s; cbn in H;
    repeat match type of H with
         | (if ?b then _ else _) = _ => destruct b eqn:?; [discriminate|]
         end; destruct t; cbn in *; try discriminate; lia.
  - intros H. exists ValueError.
    pose proof (H I64) as H1. pose proof (H U64) as H2. cbn in H1, H2.
    destruct s.
    + specialize (H1 eq_refl). cbn.
      repeat match goal with |- (if ?b then _ else _) = _ => destruct b eqn:?; [lia|] end.
      reflexivity.
    + specialize (H2 eq_refl). cbn.
      repeat match goal with |- (if ?b then _ else _) = _ => destruct b eqn:?; [lia|] end.
      reflexivity.
Qed.

Lemma fit_error_value n s e : fit_integer_type n s = Err e -> e = ValueError.
Proof.
  unfold fit_integer_type.
  repeat match goal with |- context [if ?b then _ else _] => destruct b end; congruence.
Qed.

Lemma largest_tmax t : largest t = tmax t.
Proof. destruct t; reflexivity. Qed.

Lemma tmin_nonpos t : tmin t <= 0.
Proof. destruct t; cbn; lia. Qed.

(** Storing any value of [0, n] in the type fitted to [n] is exact. *)
Lemma fit_cast n s t v : fit_integer_type n s = Ok t -> 0 <= v <= n -> cast t v = v.
Proof.
  intros H Hv. apply fit_narrowest in H as (_ & H & _). rewrite largest_tmax in H.
  apply cast_id. pose proof (tmin_nonpos t). lia.
Qed.

Lemma fit_ok_unsigned n : n < 2 ^ 64 -> exists t, fit_integer_type n false = Ok t.
Proof.
  intros H. unfold fit_integer_type. cbn in *.
  repeat match goal with |- context [if ?b then _ else _] => destruct b eqn:? end; eauto; lia.
Qed.

Lemma fit_ok_signed n : n < 2 ^ 63 -> exists t, fit_integer_type n true = Ok t.
Proof.
  intros H. unfold fit_integer_type. cbn in *.
  repeat match goal with |- context [if ?b then _ else _] => destruct b eqn:? end; eauto; lia.
Qed.

Lemma fit_exact n s : 
  match fit_integer_type n s with
  | Ok t => narrowest t n s
  | Err e => e = ValueError /\ forall t, is_signed_type t = s -> largest t < n
  end.
Proof.
  destruct (fit_integer_type n s) as [t|e] eqn:E.
  - apply fit_narrowest. exact E.
  - split; [eapply fit_error_value; exact E|]. apply fit_error. exists e. exact E.
Qed.

Lemma fit_stores n s t v :
  fit_integer_type n s = Ok t -> 0 <= v <= n -> 0 <= v <= largest t /\ cast t v = v.
Proof.
  intros H Hv. split; [|eapply fit_cast; eassumption].
  apply fit_narrowest in H as (_ & H & _). lia.
Qed.
