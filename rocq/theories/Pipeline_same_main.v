(** The result of an evaluation depends on the items, on the order of the distances and on nothing
    else; the lines of a by depend on the items of this by. *)
From Coq Require Import String.
From Coq Require Import List ZArith QArith Sorted Permutation Lia.
From Verif Require Import Prelude Sampler Sampler_spec Sampler_proofs Task Task_spec Task_sort Task_main Task_reg_spec Distances Distances_spec
  Score Score_spec Analyze Analyze_spec Rounding H5io Pipeline Pipeline_spec Pipeline_proofs Pipeline_same_spec Pipeline_same.
Import ListNotations.
Local Open Scope Z_scope.
Local Open Scope list_scope.
Set Implicit Arguments.

Section Features.
Variables tm F : Type.
Variable tle : tm -> tm -> bool.

Lemma recorded_fun (files : list (feature_data tm F)) f times frames times' frames' : features_ok files ->
  recorded files f times frames -> recorded files f times' frames' -> times = times' /\ frames = frames'.
Proof.
  intros [Hf N] (fd & Hd & Ht & Hr) (fd' & Hd' & Ht' & Hr').
  assert (fd = fd') as <-.
  { clear Hr Hr'. apply (in_map fst) in Ht, Ht'. cbn in Ht, Ht'. clear Hf. revert Hd Hd' N. induction files as [|g files IH]; cbn; [tauto|].
    intros Hd Hd' N. assert (forall h, In h files -> In f (map fst (fst h)) -> ~ In f (map fst (fst g))) as D.
    { intros h Hh Hi Hg.
      assert (forall (l m : list string), NoDup (l ++ m) -> In f l -> In f m -> False) as X.
      { clear. induction l as [|y l IH]; cbn; [tauto|]. intros m N [->|H] Hm; inversion N as [|? ? Hy N']; subst.
        - apply Hy. apply in_or_app. right. exact Hm.
        - eapply IH; eauto. }
      apply (X _ _ N Hg). apply in_flat_map. exists h. auto. }
    destruct Hd as [->|Hd], Hd' as [<-|Hd']; auto.
    - destruct (D _ Hd' Ht' Ht).
    - destruct (D _ Hd Ht Ht').
    - apply IH; auto. clear - N. induction (map fst (fst g)) as [|y l IH]; [exact N|]. inversion N; auto. }
  destruct (Hf _ Hd) as [N1 E]. split.
  - eapply nodup_in_fst; eauto.
  - rewrite E in N1. eapply nodup_in_fst; eauto.
Qed.

Lemma matrix_fun (files : list (feature_data tm F)) p m m' : features_ok files ->
  matrix_of tle files p m -> matrix_of tle files p m' -> m = m'.
Proof.
  intros H (times & frames & R & ->) (times' & frames' & R' & ->).
  destruct (recorded_fun H R R') as [<- <-]. reflexivity.
Qed.

End Features.

Lemma verdict_fun (V : Type) (vlt : V -> V -> bool) d d' s s' : asymmetric vlt ->
  verdict vlt d d' s -> verdict vlt d d' s' -> s = s'.
Proof.
  intros A H H'. unfold verdict in *. pose proof (A d d') as X.
  intuition congruence.
Qed.

Section Main.
Variables tm L : Type.
Variable leq : forall x y : L, {x = y} + {x <> y}.
Variable plain : L -> bool.
Variable name : key -> string.
Hypothesis name_inj : forall k k', name k = name k' -> k = k'.

Lemma evaluated_result (F V : Type) tle (vlt : V -> V -> bool) (distance : option bool -> list F -> list F -> res V)
  T cols db (places : list (Distances.item tm)) (indexes : list (string * list L)) files normalize lines :
  evaluable plain T cols db places indexes files -> asymmetric vlt ->
  evaluated leq plain name tle vlt distance T cols db places indexes files normalize lines ->
  result_of tle vlt distance name T db places files normalize indexes lines.
Proof.
  intros [H1 H2 H3 H4 H5 H6 H7 H8 H9 H10] A
    [gorder G korder enum argsort R fuel K1 K2 K3 rlen wlen clen W1 W2 W3 memory o_buffer Ho thr c x Hx Hs Hm Ht
     zero dfuel n_cpu df0 df' s0 s Hn Hc Hr Hret dis rnd slen stem k tf dfn sf k' scores names Hd He Hl Hk1 Hk2 Hk3 Hsc Hlo Ha].
  destruct (@evaluation_result tm L leq plain name name_inj gorder G korder enum argsort R fuel K1 K2 K3 rlen wlen clen W1 W2 W3
              memory o_buffer Ho T cols db places indexes thr c H1 H2 H3 H4 H5 H6 H7 H8 H9 x Hx Hs Hm F V tle vlt distance files
              normalize H10 zero dfuel n_cpu df0 df' s0 s rnd slen stem Ht Hn Hc Hr Hret He Hl A) as (dis' & Hd' & HH).
  assert (dis' = dis) as -> by congruence.
  destruct (HH k tf dfn sf Hk1 Hk2 Hk3) as (k2 & scores2 & lines2 & E1 & E2 & E3 & E4).
  assert (k2 = k') as -> by congruence. assert (scores2 = scores) as -> by congruence.
  assert (lines2 = lines) as -> by congruence. exact E4.
Qed.

Section Same.
Variables F V V' : Type.
Variables (tle : tm -> tm -> bool) (vlt : V -> V -> bool) (vlt' : V' -> V' -> bool).
Variable distance : option bool -> list F -> list F -> res V.
Variable distance' : option bool -> list F -> list F -> res V'.
Variable f : V -> V'.
Hypothesis A : asymmetric vlt.
Hypothesis A' : asymmetric vlt'.
Hypothesis f_lt : forall d d', vlt' (f d) (f d') = vlt d d'.
Variables (T : task) (cols : list string) (db db' : list row) (places places' : list (Distances.item tm)).
Variables (files files' : list (feature_data tm F)) (normalize normalize' : option Z).
Variable indexes : list (string * list L).
Hypothesis f_dist : forall m m' d, distance (meant normalize) m m' = Ok d -> distance' (meant normalize') m m' = Ok (f d).
Hypothesis Hf : forall p m, In p places -> matrix_of tle files p m -> matrix_of tle files' p m.
Hypothesis E : evaluable plain T cols db places indexes files.
Hypothesis E' : evaluable plain T cols db' places' indexes files'.

Lemma judged_same pa pb px s s' : In pa places -> In pb places -> In px places ->
  judged tle vlt distance files normalize pa pb px s -> judged tle vlt' distance' files' normalize' pa pb px s' -> s = s'.
Proof.
  intros Ia Ib Ix (ma & mb & mx & dax & dbx & Ma & Mb & Mx & Da & Db & Hv) (ma' & mb' & mx' & dax' & dbx' & Ma' & Mb' & Mx' & Da' & Db' & Hv').
  pose proof (matrix_fun (ev_features E') (Hf Ia Ma) Ma') as <-.
  pose proof (matrix_fun (ev_features E') (Hf Ib Mb) Mb') as <-.
  pose proof (matrix_fun (ev_features E') (Hf Ix Mx) Mx') as <-.
  apply f_dist in Da, Db. assert (dax' = f dax) as -> by congruence. assert (dbx' = f dbx) as -> by congruence.
  apply (verdict_fun (vlt := vlt') A' (d := f dax) (d' := f dbx)); [|exact Hv'].
  unfold verdict in *. rewrite !f_lt. exact Hv.
Qed.

Variables lines lines' : list (line L).
Hypothesis R : evaluated leq plain name tle vlt distance T cols db places indexes files normalize lines.
Hypothesis R' : evaluated leq plain name tle vlt' distance' T cols db' places' indexes files' normalize' lines'.

Lemma one_by k : Permutation (items_of T db places k) (items_of T db' places' k) ->
  Forall2 (@line_same L) (of_by (name k) lines) (of_by (name k) lines').
Proof.
  intros P. apply (by_same name_inj (ev_length E) (ev_length E') judged_same k P
    (evaluated_result E A R) (evaluated_result E' A' R')).
Qed.

Lemma whole : (forall k, Permutation (items_of T db places k) (items_of T db' places' k)) -> same_lines lines lines'.
Proof.
  intros P. apply (all_same name_inj (ev_length E) (ev_length E') judged_same P
    (evaluated_result E A R) (evaluated_result E' A' R')).
Qed.

End Same.
End Main.

Lemma filter_perm (A : Type) (g : A -> bool) l l' : Permutation l l' -> Permutation (filter g l) (filter g l').
Proof.
  induction 1 as [|x l l' P IH|x y l|l l' l'' P IH P' IH']; cbn; auto.
  - destruct (g x); auto.
  - destruct (g x), (g y); auto. apply perm_swap.
  - eapply perm_trans; eauto.
Qed.

(** ** The order of the items *)
Theorem order_same :
  forall (tm L F V : Type) (leq : forall x y : L, {x = y} + {x <> y}) (plain : L -> bool) (name : key -> string),
    (forall k k', name k = name k' -> k = k') ->
  forall tle (vlt : V -> V -> bool) (distance : option bool -> list F -> list F -> res V), asymmetric vlt ->
  forall T cols db db' (places places' : list (Distances.item tm)) (indexes : list (string * list L)) files normalize,
    evaluable plain T cols db places indexes files -> evaluable plain T cols db' places' indexes files ->
    Permutation (combine db places) (combine db' places') ->
  forall lines lines',
    evaluated leq plain name tle vlt distance T cols db places indexes files normalize lines ->
    evaluated leq plain name tle vlt distance T cols db' places' indexes files normalize lines' ->
    same_lines lines lines' /\ forall k, Forall2 (@line_same L) (of_by (name k) lines) (of_by (name k) lines').
Proof.
  intros tm L F V leq plain name name_inj tle vlt distance A T cols db db' places places' indexes files normalize E E' P lines lines' R R'.
  assert (forall k, Permutation (items_of T db places k) (items_of T db' places' k)) as Pk
    by (intros k; apply filter_perm, P).
  split.
  - exact (@whole tm L leq plain name name_inj F V V tle vlt vlt distance distance (fun d => d) A A (fun _ _ => eq_refl) T cols db db' places places' files files normalize normalize indexes
             (fun _ _ _ H => H) (fun _ _ _ H => H) E E' lines lines' R R' (fun k => Pk k)).
  - intros k. exact (@one_by tm L leq plain name name_inj F V V tle vlt vlt distance distance (fun d => d) A A (fun _ _ => eq_refl) T cols db db' places places' files files normalize normalize indexes
             (fun _ _ _ H => H) (fun _ _ _ H => H) E E' lines lines' R R' k (Pk k)).
Qed.

(** ** Repeating an evaluation *)
Theorem repeat_same :
  forall (tm L F V : Type) (leq : forall x y : L, {x = y} + {x <> y}) (plain : L -> bool) (name : key -> string),
    (forall k k', name k = name k' -> k = k') ->
  forall tle (vlt : V -> V -> bool) (distance : option bool -> list F -> list F -> res V), asymmetric vlt ->
  forall T cols db (places : list (Distances.item tm)) (indexes : list (string * list L)) files normalize,
    evaluable plain T cols db places indexes files ->
  forall lines lines',
    evaluated leq plain name tle vlt distance T cols db places indexes files normalize lines ->
    evaluated leq plain name tle vlt distance T cols db places indexes files normalize lines' ->
    same_lines lines lines' /\ forall k, Forall2 (@line_same L) (of_by (name k) lines) (of_by (name k) lines').
Proof. intros. eapply order_same; eauto. Qed.

(** ** The distances and the features *)
Theorem distances_same :
  forall (tm L F V V' : Type) (leq : forall x y : L, {x = y} + {x <> y}) (plain : L -> bool) (name : key -> string),
    (forall k k', name k = name k' -> k = k') ->
  forall tle (vlt : V -> V -> bool) (vlt' : V' -> V' -> bool) (distance : option bool -> list F -> list F -> res V)
    (distance' : option bool -> list F -> list F -> res V') (f : V -> V') normalize normalize',
    asymmetric vlt -> asymmetric vlt' -> (forall d d', vlt' (f d) (f d') = vlt d d') ->
    (forall m m' d, distance (meant normalize) m m' = Ok d -> distance' (meant normalize') m m' = Ok (f d)) ->
  forall T cols db (places : list (Distances.item tm)) (indexes : list (string * list L)) files,
    evaluable plain T cols db places indexes files ->
  forall lines lines',
    evaluated leq plain name tle vlt distance T cols db places indexes files normalize lines ->
    evaluated leq plain name tle vlt' distance' T cols db places indexes files normalize' lines' ->
    same_lines lines lines' /\ forall k, Forall2 (@line_same L) (of_by (name k) lines) (of_by (name k) lines').
Proof.
  intros tm L F V V' leq plain name name_inj tle vlt vlt' distance distance' f normalize normalize' A A' Hlt Hd
    T cols db places indexes files E lines lines' R R'.
  split.
  - exact (@whole tm L leq plain name name_inj F V V' tle vlt vlt' distance distance' f A A' Hlt T cols db db places places files files normalize normalize' indexes
             Hd (fun _ _ _ H => H) E E lines lines' R R' (fun k => Permutation_refl _)).
  - intros k. exact (@one_by tm L leq plain name name_inj F V V' tle vlt vlt' distance distance' f A A' Hlt T cols db db places places files files normalize normalize' indexes
             Hd (fun _ _ _ H => H) E E lines lines' R R' k (Permutation_refl _)).
Qed.

Theorem features_same :
  forall (tm L F V : Type) (leq : forall x y : L, {x = y} + {x <> y}) (plain : L -> bool) (name : key -> string),
    (forall k k', name k = name k' -> k = k') ->
  forall tle (vlt : V -> V -> bool) (distance : option bool -> list F -> list F -> res V), asymmetric vlt ->
  forall T cols db (places : list (Distances.item tm)) (indexes : list (string * list L)) files files' normalize,
    evaluable plain T cols db places indexes files -> features_ok files' ->
    (forall p m, In p places -> matrix_of tle files p m -> matrix_of tle files' p m) ->
  forall lines lines',
    evaluated leq plain name tle vlt distance T cols db places indexes files normalize lines ->
    evaluated leq plain name tle vlt distance T cols db places indexes files' normalize lines' ->
    same_lines lines lines' /\ forall k, Forall2 (@line_same L) (of_by (name k) lines) (of_by (name k) lines').
Proof.
  intros tm L F V leq plain name name_inj tle vlt distance A T cols db places indexes files files' normalize E Hf Hm lines lines' R R'.
  assert (evaluable plain T cols db places indexes files') as E' by (destruct E; constructor; assumption).
  split.
  - exact (@whole tm L leq plain name name_inj F V V tle vlt vlt distance distance (fun d => d) A A (fun _ _ => eq_refl) T cols db db places places files files' normalize normalize indexes
             (fun _ _ _ H => H) Hm E E' lines lines' R R' (fun k => Permutation_refl _)).
  - intros k. exact (@one_by tm L leq plain name name_inj F V V tle vlt vlt distance distance (fun d => d) A A (fun _ _ => eq_refl) T cols db db places places files files' normalize normalize indexes
             (fun _ _ _ H => H) Hm E E' lines lines' R R' k (Permutation_refl _)).
Qed.

(** ** The bys *)
Theorem bys_same :
  forall (tm L F V : Type) (leq : forall x y : L, {x = y} + {x <> y}) (plain : L -> bool) (name : key -> string),
    (forall k k', name k = name k' -> k = k') ->
  forall tle (vlt : V -> V -> bool) (distance : option bool -> list F -> list F -> res V), asymmetric vlt ->
  forall T cols db db' (places places' : list (Distances.item tm)) (indexes : list (string * list L)) files normalize k,
    evaluable plain T cols db places indexes files -> evaluable plain T cols db' places' indexes files ->
    Permutation (items_of T db places k) (items_of T db' places' k) ->
  forall lines lines',
    evaluated leq plain name tle vlt distance T cols db places indexes files normalize lines ->
    evaluated leq plain name tle vlt distance T cols db' places' indexes files normalize lines' ->
    Forall2 (@line_same L) (of_by (name k) lines) (of_by (name k) lines').
Proof.
  intros tm L F V leq plain name name_inj tle vlt distance A T cols db db' places places' indexes files normalize k E E' P lines lines' R R'.
  exact (@one_by tm L leq plain name name_inj F V V tle vlt vlt distance distance (fun d => d) A A (fun _ _ => eq_refl) T cols db db' places places' files files normalize normalize indexes
             (fun _ _ _ H => H) (fun _ _ _ H => H) E E' lines lines' R R' k P).
Qed.
