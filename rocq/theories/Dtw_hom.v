(** Dynamic time warping on the images of the costs. *)
From Coq Require Import List Arith Lia.
From Verif Require Import Prelude Dtw Dtw_spec Dtw_proofs.
Import ListNotations.

Section Hom.
Context {C C' : Type}.
Variables (add : C -> C -> C) (leb : C -> C -> bool) (divn : C -> nat -> C).
Variables (add' : C' -> C' -> C') (leb' : C' -> C' -> bool) (divn' : C' -> nat -> C').
Variable f : C -> C'.
Hypothesis f_add : forall a b, add' (f a) (f b) = f (add a b).
Hypothesis f_leb : forall a b, leb' (f a) (f b) = leb a b.
Hypothesis f_divn : forall a n, n <> 0 -> divn' (f a) n = f (divn a n).

Lemma min3_hom a b c : min3 leb' (f a) (f b) (f c) = f (min3 leb a b c).
Proof.
  unfold min3, less. rewrite !f_leb. destruct (leb b a && negb (leb a b))%bool; rewrite !f_leb; destruct (leb c _ && negb _)%bool; reflexivity.
Qed.

Lemma table_hom N M (d : nat -> nat -> C) (d' : nat -> nat -> C') :
  (forall i j, i < N -> j < M -> d' i j = f (d i j)) ->
  forall i j, i < N -> j < M -> table _ add' leb' d' i j = f (table _ add leb d i j).
Proof.
  intros E. induction i as [|i IHi]; induction j as [|j IHj]; intros Hi Hj.
  - rewrite !table_00. apply E; assumption.
  - rewrite !table_0S, E by assumption. rewrite IHj by lia. apply f_add.
  - rewrite !table_S0, E by assumption. rewrite IHi by lia. apply f_add.
  - rewrite !table_SS, E by assumption. rewrite !IHi, IHj, min3_hom by lia. apply f_add.
Qed.

Lemma trace_hom N M (cost : nat -> nat -> C) (cost' : nat -> nat -> C') :
  (forall i j, i < N -> j < M -> cost' i j = f (cost i j)) ->
  forall fuel i j l, i < N -> j < M -> trace_back leb' fuel cost' i j l = trace_back leb fuel cost i j l.
Proof.
  intros E. induction fuel as [|n IH]; intros i j l Hi Hj; destruct i as [|i], j as [|j]; try reflexivity.
  cbn [trace_back]. rewrite !E, !f_leb by lia. rewrite !IH by lia. reflexivity.
Qed.

Lemma trace_len (cost : nat -> nat -> C) fuel : forall i j l r, trace_back leb fuel cost i j l = Ok r -> l <= snd r.
Proof.
  induction fuel as [|n IH]; intros i j l r H; destruct i as [|i], j as [|j]; cbn in H;
    try (injection H as <-; cbn; lia); try discriminate.
  destruct (_ && _)%bool; [apply IH in H; lia|]. destruct (leb _ _); apply IH in H; lia.
Qed.

Lemma dtw_costs_hom (z : C) N M dist dist' normalized empty empty' : 0 < N -> 0 < M -> shape N M dist -> shape N M dist' ->
  (forall i j, i < N -> j < M -> entry (f z) dist' i j = f (entry z dist i j)) ->
  dtw_costs add' leb' divn' N M dist' normalized empty' =
  c <- dtw_costs add leb divn N M dist normalized empty ;; Ok (f c).
Proof.
  intros HN HM Hs Hs' E. unfold dtw_costs.
  destruct (fill_ok _ add leb divn z _ _ _ empty Hs HN HM) as (c & Ec & Hc).
  destruct (fill_ok _ add' leb' divn' (f z) _ _ _ empty' Hs' HN HM) as (c' & Ec' & Hc').
  rewrite Ec, Ec'. cbn [bind].
  assert (K : forall i j, i < N -> j < M -> c' i j = f (c i j)).
  { intros i j Hi Hj. rewrite Hc, Hc' by assumption. eapply table_hom; eassumption. }
  destruct normalized; [|cbn [bind]; rewrite K by lia; reflexivity].
  rewrite (trace_hom N M c c' K) by lia.
  destruct (trace_back leb (N + M) c (N - 1) (M - 1) 1) as [[[i j] l]|e] eqn:T; [|reflexivity]. cbn [bind].
  apply trace_len in T. cbn [snd] in T. rewrite K by lia. f_equal. apply f_divn.
  destruct (i =? 0), (j =? 0); lia.
Qed.

End Hom.
