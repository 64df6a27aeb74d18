(** Whole evaluations of features that a distance does not distinguish. *)
From Coq Require Import String.
From Coq Require Import List ZArith QArith Reals Permutation.
From Verif Require Import Prelude Sampler Sampler_spec Sampler_proofs Task Task_spec Task_sort Task_main Task_reg_spec Distances Distances_spec
  Score Score_spec Analyze Analyze_spec Rounding H5io Pipeline Pipeline_spec Pipeline_proofs Pipeline_same_spec Pipeline_same Pipeline_same_main
  Metrics Dtw DefaultDistance Invariance_spec Invariance_proofs.
Import ListNotations.
Local Open Scope Z_scope.
Local Open Scope list_scope.
Set Implicit Arguments.

Theorem related_same :
  forall (tm L F F' V V' : Type) (leq : forall x y : L, {x = y} + {x <> y}) (plain : L -> bool) (name : key -> string),
    (forall k k', name k = name k' -> k = k') ->
  forall tle (vlt : V -> V -> bool) (vlt' : V' -> V' -> bool) (distance : option bool -> list F -> list F -> res V)
    (distance' : option bool -> list F' -> list F' -> res V') (f : V -> V') (alike : list F -> list F' -> Prop) normalize normalize',
    asymmetric vlt -> asymmetric vlt' -> (forall d d', vlt' (f d) (f d') = vlt d d') ->
    (forall m n m' n' d, alike m n -> alike m' n' -> distance (meant normalize) m m' = Ok d -> distance' (meant normalize') n n' = Ok (f d)) ->
  forall T cols db (places : list (Distances.item tm)) (indexes : list (string * list L)) files files',
    evaluable plain T cols db places indexes files -> features_ok files' ->
    (forall p m n, In p places -> matrix_of tle files p m -> matrix_of tle files' p n -> alike m n) ->
  forall lines lines',
    evaluated leq plain name tle vlt distance T cols db places indexes files normalize lines ->
    evaluated leq plain name tle vlt' distance' T cols db places indexes files' normalize' lines' ->
    same_lines lines lines' /\ forall k, Forall2 (@line_same L) (of_by (name k) lines) (of_by (name k) lines').
Proof.
  intros tm L F F' V V' leq plain name name_inj tle vlt vlt' distance distance' f alike normalize normalize' A A' Hlt Hd
    T cols db places indexes files files' E Hf Ha lines lines' R R'.
  assert (E' : evaluable plain T cols db places indexes files') by (destruct E; constructor; assumption).
  assert (J : forall pa pb px s s', In pa places -> In pb places -> In px places ->
    judged tle vlt distance files normalize pa pb px s -> judged tle vlt' distance' files' normalize' pa pb px s' -> s = s').
  { intros pa pb px s s' Ia Ib Ix (ma & mb & mx & dax & dbx & Ma & Mb & Mx & Da & Db & Hv) (ma' & mb' & mx' & dax' & dbx' & Ma' & Mb' & Mx' & Da' & Db' & Hv').
    pose proof (Hd _ _ _ _ _ (Ha _ _ _ Ia Ma Ma') (Ha _ _ _ Ix Mx Mx') Da) as H1. pose proof (Hd _ _ _ _ _ (Ha _ _ _ Ib Mb Mb') (Ha _ _ _ Ix Mx Mx') Db) as H2.
    assert (dax' = f dax) as -> by congruence. assert (dbx' = f dbx) as -> by congruence.
    apply (verdict_fun (vlt := vlt') A' (d := f dax) (d' := f dbx)); [|exact Hv'].
    unfold verdict in *. rewrite !Hlt. exact Hv. }
  split.
  - exact (all_same name_inj (ev_length E) (ev_length E') J (fun k => Permutation_refl _) (evaluated_result name_inj E A R) (evaluated_result name_inj E' A' R')).
  - intros k. exact (by_same name_inj (ev_length E) (ev_length E') J k (Permutation_refl _) (evaluated_result name_inj E A R) (evaluated_result name_inj E' A' R')).
Qed.

Lemma below_asym : asymmetric below.
Proof.
  intros [[a|]|] [[b|]|]; cbn; try discriminate; try reflexivity. destruct (Rlt_dec a b), (Rlt_dec b a); try discriminate; try reflexivity.
  exfalso. eapply Rlt_asym; eauto.
Qed.

Theorem louder_same :
  forall (tm L : Type) (leq : forall x y : L, {x = y} + {x <> y}) (plain : L -> bool) (name : key -> string),
    (forall k k', name k = name k' -> k = k') ->
  forall tle t w empty T cols db (places : list (Distances.item tm)) (indexes : list (string * list L)) files files' normalize,
    evaluable plain T cols db places indexes files -> features_ok files' ->
    (forall p m m', In p places -> matrix_of tle files p m -> matrix_of tle files' p m' ->
                    rescaled (fun c => 0 < c)%R (mk_mat t w m) (mk_mat t w m')) ->
  forall lines lines',
    evaluated leq plain name tle below (default_on t w empty) T cols db places indexes files normalize lines ->
    evaluated leq plain name tle below (default_on t w empty) T cols db places indexes files' normalize lines' ->
    same_lines lines lines' /\ forall k, Forall2 (@line_same L) (of_by (name k) lines) (of_by (name k) lines').
Proof.
  intros tm L leq plain name name_inj tle t w empty T cols db places indexes files files' normalize E Hf H lines lines' R R'.
  refine (related_same name_inj (fun d => d) (fun m m' => rescaled (fun c => 0 < c)%R (mk_mat t w m) (mk_mat t w m')) below_asym below_asym (fun _ _ => eq_refl) _ E Hf H R R').
  intros m n m' n' d H1 H2 Hd. unfold default_on in *. rewrite (scale_default empty (meant normalize) _ _ _ _ H1 H2). exact Hd.
Qed.

Theorem columns_same :
  forall (tm L : Type) (leq : forall x y : L, {x = y} + {x <> y}) (plain : L -> bool) (name : key -> string),
    (forall k k', name k = name k' -> k = k') ->
  forall tle t w empty s T cols db (places : list (Distances.item tm)) (indexes : list (string * list L)) files files' normalize,
    evaluable plain T cols db places indexes files -> features_ok files' ->
    (forall p m m', In p places -> matrix_of tle files p m -> matrix_of tle files' p m' -> reordered s (mk_mat t w m) (mk_mat t w m')) ->
  forall lines lines',
    evaluated leq plain name tle below (default_on t w empty) T cols db places indexes files normalize lines ->
    evaluated leq plain name tle below (default_on t w empty) T cols db places indexes files' normalize lines' ->
    same_lines lines lines' /\ forall k, Forall2 (@line_same L) (of_by (name k) lines) (of_by (name k) lines').
Proof.
  intros tm L leq plain name name_inj tle t w empty s T cols db places indexes files files' normalize E Hf H lines lines' R R'.
  refine (related_same name_inj (fun d => d) (fun m m' => reordered s (mk_mat t w m) (mk_mat t w m')) below_asym below_asym (fun _ _ => eq_refl) _ E Hf H R R').
  intros m n m' n' d H1 H2 Hd. unfold default_on in *. rewrite (order_default empty (meant normalize) s _ _ _ _ H1 H2). exact Hd.
Qed.
