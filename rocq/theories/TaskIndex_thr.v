(** The index of groups does not depend on the threshold. *)
From Coq Require Import String.
From Coq Require Import List ZArith Lia.
From Verif Require Import Prelude ListFacts TypeFitting Sampler Task.
Import ListNotations.
Local Open Scope Z_scope.
Local Open Scope list_scope.

Section Two.
Variable korder : list key -> list key.
Variable enum : list Z -> list Z.
Variable argsort : list Z -> list nat.
Variables R R' : rng.
Variables fuel fuel' : nat.
Variable T : task.
Variables thr thr' : option Z.

Lemma same_sorted permut idx ty c c' l ui d l' ui' d' :
  sort_and_threshold R fuel permut idx ty thr c = Ok (l, ui, d) -> sort_and_threshold R' fuel' permut idx ty thr' c' = Ok (l', ui', d') -> ui = ui'.
Proof.
  unfold sort_and_threshold. destruct (gather idx permut) as [si|]; [|discriminate]. cbn [bind].
  destruct (threshold_runs R fuel _ _ _ _ _ _) as [r|]; [|discriminate]. destruct (threshold_runs R' fuel' _ _ _ _ _ _) as [r'|]; [|discriminate].
  cbn [bind]. congruence.
Qed.

Lemma same_design d Br Xr c c' l i ts e l' i' ts' e' :
  sort_design argsort R fuel thr d Br Xr c = Ok (l, i, ts, e) -> sort_design argsort R' fuel' thr' d Br Xr c' = Ok (l', i', ts', e') -> i = i'.
Proof.
  unfold sort_design. destruct (mapM _ Br) as [Bc|]; [|discriminate]. cbn [bind]. destruct (mapM _ Xr) as [Xc|]; [|discriminate]. cbn [bind].
  destruct (Bc ++ Xc) as [|c0 cs]; [congruence|]. destruct (d_triplets d) as [|t0 dts]; [congruence|].
  destruct (fit_integer_type _ false) as [ty|]; [|discriminate]. cbn [bind].
  set (idx := regressor_index ty _).
  destruct (sort_and_threshold R fuel (argsort idx) idx ty thr c) as [[[l1 u1] e1]|] eqn:E1; [|discriminate].
  destruct (sort_and_threshold R' fuel' (argsort idx) idx ty thr' c') as [[[l2 u2] e2]|] eqn:E2; [|discriminate]. cbn [bind].
  destruct (gather (t0 :: dts) l1) as [ts1|]; [|discriminate]. destruct (gather (t0 :: dts) l2) as [ts2|]; [|discriminate]. cbn [bind].
  intros H H'. injection H as _ <- _ _. injection H' as _ <- _ _. exact (same_sorted _ _ _ _ _ _ _ _ _ _ _ E1 E2).
Qed.

Lemma same_block b v bk block sc c c' o e o' e' :
  on_across_triplets enum argsort R fuel T thr b v bk block sc c = Ok (o, e) ->
  on_across_triplets enum argsort R' fuel' T thr' b v bk block sc c' = Ok (o', e') -> o_index o = o_index o'.
Proof.
  unfold on_across_triplets. destruct (block_design _ _ _ _ _ _) as [d|]; [|discriminate]. cbn [bind].
  destruct (item_regressors (r_A _) _ _ _) as [Ar|]; [|discriminate]. cbn [bind].
  destruct (item_regressors (r_B _) _ _ _) as [Br|]; [|discriminate]. cbn [bind].
  destruct (item_regressors (r_X _) _ _ _) as [Xr|]; [|discriminate]. cbn [bind].
  destruct (sort_design argsort R fuel thr d Br Xr c) as [[[[l i] ts] e1]|] eqn:E1; [|discriminate].
  destruct (sort_design argsort R' fuel' thr' d Br Xr c') as [[[[l' i'] ts'] e1']|] eqn:E2; [|discriminate]. cbn [bind].
  destruct (r_ABX _); [discriminate|].
  destruct (compute_regressors d l _ _ _ _ _); [|discriminate]. destruct (compute_regressors d l' _ _ _ _ _); [|discriminate]. cbn [bind].
  intros H H'. injection H as <- _. injection H' as <- _. cbn [o_index]. exact (same_design _ _ _ _ _ _ _ _ _ _ _ _ _ E1 E2).
Qed.

Lemma same_steps b byr l : forall outs outs' c c' o e o' e',
  map o_index outs = map o_index outs' ->
  foldM (block_step enum argsort R fuel T thr b byr) l (outs, c) = Ok (o, e) ->
  foldM (block_step enum argsort R' fuel' T thr' b byr) l (outs', c') = Ok (o', e') -> map o_index o = map o_index o'.
Proof.
  induction l as [|[bk block] l IH]; intros outs outs' c c' o e o' e' Eo; cbn [foldM].
  - intros H H'. congruence.
  - unfold block_step at 1 3. destruct (nth_res block 0) as [l0|]; [|discriminate]. cbn [bind].
    destruct (iloc (b_frame b) l0) as [v|]; [|discriminate]. cbn [bind]. destruct (f_oab (t_filters T) v).
    + destruct (on_across_triplets enum argsort R fuel T thr b v bk block _ c) as [[o1 e1]|] eqn:E1; [|discriminate].
      destruct (on_across_triplets enum argsort R' fuel' T thr' b v bk block _ c') as [[o2 e2]|] eqn:E2; [|discriminate]. cbn [bind fst snd].
      apply IH. rewrite !map_app, Eo. cbn [map]. rewrite (same_block _ _ _ _ _ _ _ _ _ _ _ E1 E2). reflexivity.
    + cbn [bind]. apply IH. exact Eo.
Qed.

Lemma same_by b c c' o e o' e' :
  compute_triplets korder enum argsort R fuel T thr b c = Ok (o, e) ->
  compute_triplets korder enum argsort R' fuel' T thr' b c' = Ok (o', e') -> map o_index o = map o_index o'.
Proof.
  unfold compute_triplets. destruct (iloc (b_frame b) 0) as [v|]; [|discriminate]. cbn [bind]. apply same_steps. reflexivity.
Qed.

Lemma same_bys bs : forall g g' h h', g_index g = g_index g' ->
  foldM (by_step korder enum argsort R fuel T thr) bs g = Ok h -> foldM (by_step korder enum argsort R' fuel' T thr') bs g' = Ok h' ->
  g_index h = g_index h'.
Proof.
  induction bs as [|b bs IH]; intros g g' h h' Eg; cbn [foldM]; [congruence|]. unfold by_step at 1 3.
  destruct (compute_triplets korder enum argsort R fuel T thr b _) as [[o e]|] eqn:E1; [|discriminate].
  destruct (compute_triplets korder enum argsort R' fuel' T thr' b _) as [[o' e']|] eqn:E2; [|discriminate]. cbn [bind].
  pose proof (same_by _ _ _ _ _ _ _ E1 E2) as Ei.
  destruct (_ =? _), (_ =? _); cbn [bind]; apply IH; cbn [g_index]; rewrite Eg, Ei; reflexivity.
Qed.

Theorem same_index bs st c c' bs1 f1 bs2 f2 :
  generate_triplets korder enum argsort R fuel T thr bs st c = Ok (bs1, Some f1) ->
  generate_triplets korder enum argsort R' fuel' T thr' bs st c' = Ok (bs2, Some f2) -> fl_block_index f1 = fl_block_index f2.
Proof.
  unfold generate_triplets. destruct (s_nb_triplets st =? 0); [discriminate|].
  destruct (fit_integer_type (s_nb_triplets st) true) as [t1|]; [|discriminate]. cbn [bind].
  destruct (fit_integer_type (s_nb_blocks st) true) as [t2|]; [|discriminate]. cbn [bind].
  destruct (foldM (by_step korder enum argsort R fuel T thr) _ _) as [g|] eqn:E1; [|discriminate].
  destruct (foldM (by_step korder enum argsort R' fuel' T thr') _ _) as [g'|] eqn:E2; [|discriminate]. cbn [bind].
  destruct (fit_integer_type (hd 0 (g_bounds g)) true); [|discriminate]. destruct (fit_integer_type (hd 0 (g_bounds g')) true); [|discriminate].
  cbn [bind]. intros H H'. injection H as _ <-. injection H' as _ <-. cbn [fl_block_index].
  assert (E : g_index g = g_index g') by (eapply same_bys; [|exact E1|exact E2]; reflexivity). rewrite E. reflexivity.
Qed.

End Two.
