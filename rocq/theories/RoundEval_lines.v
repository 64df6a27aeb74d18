(** Results of evaluations in which most triplets have the same answers. *)
From Coq Require Import String.
From Coq Require Import List ZArith QArith Qabs Lia Lqa Permutation Sorted.
From Verif Require Import Prelude Task Task_spec Task_reg_spec Distances Distances_spec Score_spec Analyze Analyze_spec Pipeline_spec Pipeline_same_spec
  Pipeline_same Pipeline_same_main RoundEval_spec.
Import ListNotations.
Local Open Scope Z_scope.
Local Open Scope list_scope.
Set Implicit Arguments.

(** ** Proportions *)
Definition weight (s : Z) : Q := if 1 =? s then 1%Q else if 0 =? s then (1 # 2)%Q else 0%Q.
Definition total (l : list Z) : Q := fold_right (fun s t => (weight s + t)%Q) 0%Q l.

Lemma total_counts l : (total l == inject_Z (howmany 1 l) + (1 # 2) * inject_Z (howmany 0 l))%Q.
Proof.
  unfold howmany. induction l as [|s l IH]; [reflexivity|]. cbn [total fold_right filter]. unfold weight at 1. fold (total l). rewrite IH.
  destruct (Z.eqb_spec 1 s) as [<-|H1].
  - cbn [Z.eqb]. cbn [length]. rewrite Nat2Z.inj_succ. unfold Z.succ. rewrite inject_Z_plus. change (inject_Z 1) with 1%Q. ring.
  - destruct (Z.eqb_spec 0 s) as [<-|H0]; [|ring]. cbn [length]. rewrite Nat2Z.inj_succ. unfold Z.succ. rewrite inject_Z_plus. change (inject_Z 1) with 1%Q. ring.
Qed.

Lemma weight_range s : (0 <= weight s <= 1)%Q.
Proof. unfold weight. destruct (1 =? s); [|destruct (0 =? s)]; split; discriminate. Qed.

Lemma total_near (X : Type) (P P' : X -> Z -> Prop) (D : X -> bool) ts : forall l l',
  (forall t s s', In t ts -> D t = false -> P t s -> P' t s' -> s = s') -> Forall2 P ts l -> Forall2 P' ts l' ->
  (Qabs (total l - total l') <= inject_Z (Z.of_nat (length (filter D ts))))%Q.
Proof.
  induction ts as [|t ts IH]; intros l l' H F F'; inversion F as [|? s ? l1 Hs F1]; inversion F' as [|? s' ? l1' Hs' F1']; subst; [discriminate|].
  specialize (IH l1 l1' (fun u v v' I => H u v v' (or_intror I)) F1 F1'). cbn [total fold_right filter]. fold (total l1). fold (total l1').
  apply Qabs_Qle_condition in IH. apply Qabs_Qle_condition. destruct (D t) eqn:Dt.
  - cbn [length]. rewrite Nat2Z.inj_succ. unfold Z.succ. rewrite inject_Z_plus. change (inject_Z 1) with 1%Q. pose proof (weight_range s). pose proof (weight_range s').
    split; lra.
  - rewrite (H t s s' (or_introl eq_refl) Dt Hs Hs'). split; lra.
Qed.

Lemma Forall2_len A B (P : A -> B -> Prop) l m : Forall2 P l m -> length l = length m.
Proof. induction 1; cbn; congruence. Qed.

Lemma proportion_near (X : Type) (P P' : X -> Z -> Prop) (D : X -> bool) ts l l' :
  (forall t s s', In t ts -> D t = false -> P t s -> P' t s' -> s = s') -> Forall2 P ts l -> Forall2 P' ts l' ->
  (Qabs (proportion l - proportion l') <= inject_Z (Z.of_nat (length (filter D ts))) / inject_Z (Z.of_nat (length ts)))%Q.
Proof.
  intros H F F'. pose proof (total_near D H F F') as T. rewrite !total_counts in T. unfold proportion.
  rewrite <- (Forall2_len F), <- (Forall2_len F').
  destruct ts as [|t ts].
  { inversion F; inversion F'; subst. discriminate. }
  set (n := inject_Z (Z.of_nat (length (t :: ts)))) in *.
  assert (N : (0 < n)%Q) by (unfold n, inject_Z, Qlt; cbn [Qnum Qden length]; lia).
  set (a := (inject_Z (howmany 1 l) + (1 # 2) * inject_Z (howmany 0 l))%Q) in *. set (b := (inject_Z (howmany 1 l') + (1 # 2) * inject_Z (howmany 0 l'))%Q) in *.
  assert (E : (a / n - b / n == (a - b) * / n)%Q) by (unfold Qdiv; ring). rewrite E. rewrite Qabs_Qmult.
  rewrite (Qabs_pos (/ n)) by (apply Qlt_le_weak, Qinv_lt_0_compat, N). unfold Qdiv. apply Qmult_le_compat_r; [exact T|]. apply Qlt_le_weak, Qinv_lt_0_compat, N.
Qed.

(** ** Two results *)
Section Two.
Variables tm L F F' V V' : Type.
Variable name : key -> string.
Hypothesis name_inj : forall k k', name k = name k' -> k = k'.
Variables (tle : tm -> tm -> bool) (vlt : V -> V -> bool) (vlt' : V' -> V' -> bool).
Variable distance : option bool -> list F -> list F -> res V.
Variable distance' : option bool -> list F' -> list F' -> res V'.
Variables (T : task) (db : list row) (places : list (Distances.item tm)).
Variables (files : list (feature_data tm F)) (files' : list (feature_data tm F')) (normalize normalize' : option Z).
Variable indexes : list (string * list L).
Variable doubtful : key -> triplet -> bool.
Hypothesis agree : forall k t s s', is_wanted T db k t -> doubtful k t = false ->
  answer tle vlt distance T db places files normalize k t s -> answer tle vlt' distance' T db places files' normalize' k t s' -> s = s'.

Lemma near_line k r ln ln' :
  line_among tle vlt distance name (is_wanted T db) T db places files normalize indexes k r ln ->
  line_among tle vlt' distance' name (is_wanted T db) T db places files' normalize' indexes k r ln' ->
  line_near T db indexes doubtful k ln ln'.
Proof.
  intros (Hl & Hb & ts & ans & [Nt Ht] & Ha & Hn & Hs) (Hl' & Hb' & ts' & ans' & [Nt' Ht'] & Ha' & Hn' & Hs').
  assert (P : Permutation ts' ts) by (apply NoDup_Permutation; [assumption|assumption|]; intros t; rewrite Ht, Ht'; reflexivity).
  destruct (Permutation_Forall2 P Ha') as (ans2 & Pa & F2). rewrite (proportion_perm Pa) in Hs'. unfold line_near. repeat split.
  - refine (Forall2_fun _ Hl Hl'). intros i y y' _ [_ E] [_ E']. congruence.
  - congruence.
  - rewrite Hn, Hn', (Permutation_length P). reflexivity.
  - exists r, ts. split; [exact Hl|]. split; [split; assumption|]. split; [exact Hn|]. rewrite Hs, Hs'.
    refine (proportion_near (doubtful k) _ Ha F2). intros t s s' I D. apply Ht in I. destruct I as [W _]. apply agree; assumption.
Qed.

Lemma near_parts k part part' :
  StronglySorted lex (map fst part) -> StronglySorted lex (map fst part') ->
  (forall r, In r (map fst part) <-> exists t, is_wanted T db k t /\ combination T (by_rows T db k) (map fst indexes) t = r) ->
  (forall r, In r (map fst part') <-> exists t, is_wanted T db k t /\ combination T (by_rows T db k) (map fst indexes) t = r) ->
  (forall r ln, In (r, ln) part -> line_among tle vlt distance name (is_wanted T db) T db places files normalize indexes k r ln) ->
  (forall r ln, In (r, ln) part' -> line_among tle vlt' distance' name (is_wanted T db) T db places files' normalize' indexes k r ln) ->
  Forall2 (line_near T db indexes doubtful k) (map snd part) (map snd part').
Proof.
  intros S S' E E' H H'. assert (map fst part = map fst part') as Em by (apply sorted_unique; auto; intros r; rewrite E, E'; reflexivity).
  apply Forall2_of_map. apply Forall2_fst; [exact Em|]. intros r ln ln' Hr Hr'. exact (near_line (H _ _ Hr) (H' _ _ Hr')).
Qed.

Theorem by_near k lines lines' :
  result_of tle vlt distance name T db places files normalize indexes lines ->
  result_of tle vlt' distance' name T db places files' normalize' indexes lines' ->
  Forall2 (line_near T db indexes doubtful k) (of_by (name k) lines) (of_by (name k) lines').
Proof.
  intros (parts & -> & N & Hk & H) (parts' & -> & N' & Hk' & H').
  assert (forall k' part, In (k', part) parts -> forall r ln, In (r, ln) part -> l_by ln = name k') as B
    by (intros k' part Hp r ln Hr; apply (H _ _ Hp) in Hr; apply Hr).
  assert (forall k' part, In (k', part) parts' -> forall r ln, In (r, ln) part -> l_by ln = name k') as B'
    by (intros k' part Hp r ln Hr; apply (H' _ _ Hp) in Hr; apply Hr).
  destruct (of_by_part name name_inj k parts B N) as [E1 E2]. destruct (of_by_part name name_inj k parts' B' N') as [E1' E2'].
  destruct (in_dec key_dec k (map fst parts)) as [Hi|Hi].
  - pose proof Hi as Hi'. rewrite Hk, <- Hk' in Hi'.
    apply in_map_iff in Hi as ([k1 part] & E & Hp). cbn in E. subst k1.
    apply in_map_iff in Hi' as ([k1 part'] & E & Hp'). cbn in E. subst k1.
    rewrite (E1 _ Hp), (E1' _ Hp'). apply H in Hp as (S & R & Q). apply H' in Hp' as (S' & R' & Q').
    apply (near_parts _ _ S S' R R' Q Q').
  - rewrite (E2 Hi). assert (~ In k (map fst parts')) as Hi' by (rewrite Hk', <- Hk; exact Hi). rewrite (E2' Hi'). constructor.
Qed.

Theorem all_near lines lines' :
  result_of tle vlt distance name T db places files normalize indexes lines ->
  result_of tle vlt' distance' name T db places files' normalize' indexes lines' ->
  exists m, Permutation lines m /\ Forall2 (fun ln ln' => exists k, line_near T db indexes doubtful k ln ln') m lines'.
Proof.
  intros (parts & -> & N & Hk & H) (parts' & -> & N' & Hk' & H').
  assert (Permutation (map fst parts') (map fst parts)) as Pk.
  { apply NoDup_Permutation; auto. intros k. rewrite Hk, Hk'. reflexivity. }
  apply Permutation_map_inv in Pk as (parts2 & E & P2).
  exists (concat (map (fun p => map snd (snd p)) parts2)). split.
  - rewrite <- !flat_map_concat_map. apply Permutation_flat_map, P2.
  - symmetry in E. assert (forall k part, In (k, part) parts2 -> In (k, part) parts) as I
      by (intros k part; apply Permutation_in, Permutation_sym, P2).
    clear - I E H H' agree. revert parts' E H'. induction parts2 as [|[k part] parts2 IH]; intros [|[k' part'] parts'] E H';
      try discriminate; [constructor|]. cbn in E. injection E as -> E. cbn [map concat snd]. apply Forall2_app.
    + destruct (H _ _ (I _ _ (or_introl eq_refl))) as (S & R & Q). destruct (H' _ _ (or_introl eq_refl)) as (S' & R' & Q').
      pose proof (near_parts _ _ S S' R R' Q Q') as K. clear - K. induction K; constructor; eauto.
    + apply IH; [|exact E|].
      * intros k part0 Hp. apply I. right. exact Hp.
      * intros k part0 Hp. apply H'. right. exact Hp.
Qed.

End Two.

(** ** Two evaluations *)
Theorem answers_near :
  forall (tm L F F' V V' : Type) (leq : forall x y : L, {x = y} + {x <> y}) (plain : L -> bool) (name : key -> string),
    (forall k k', name k = name k' -> k = k') ->
  forall tle (vlt : V -> V -> bool) (vlt' : V' -> V' -> bool) (distance : option bool -> list F -> list F -> res V)
    (distance' : option bool -> list F' -> list F' -> res V') normalize normalize', asymmetric vlt -> asymmetric vlt' ->
  forall T cols db (places : list (Distances.item tm)) (indexes : list (string * list L)) files files' (doubtful : key -> triplet -> bool),
    evaluable plain T cols db places indexes files -> features_ok files' ->
    (forall k t s s', is_wanted T db k t -> doubtful k t = false ->
       answer tle vlt distance T db places files normalize k t s -> answer tle vlt' distance' T db places files' normalize' k t s' -> s = s') ->
  forall lines lines',
    evaluated leq plain name tle vlt distance T cols db places indexes files normalize lines ->
    evaluated leq plain name tle vlt' distance' T cols db places indexes files' normalize' lines' ->
    (forall k, Forall2 (line_near T db indexes doubtful k) (of_by (name k) lines) (of_by (name k) lines')) /\
    exists m, Permutation lines m /\ Forall2 (fun ln ln' => exists k, line_near T db indexes doubtful k ln ln') m lines'.
Proof.
  intros tm L F F' V V' leq plain name name_inj tle vlt vlt' distance distance' normalize normalize' A A'
    T cols db places indexes files files' doubtful E Hf J lines lines' R R'.
  assert (E' : evaluable plain T cols db places indexes files') by (destruct E; constructor; assumption).
  split.
  - intros k. exact (by_near name_inj doubtful J k (evaluated_result name_inj E A R) (evaluated_result name_inj E' A' R')).
  - exact (all_near doubtful J (evaluated_result name_inj E A R) (evaluated_result name_inj E' A' R')).
Qed.

Lemma none_doubtful (L : Type) T db (indexes : list (string * list L)) k ln ln' :
  line_near T db indexes (fun _ _ => false) k ln ln' -> line_same ln ln'.
Proof.
  intros (H1 & H2 & H3 & r & ts & _ & _ & _ & H). repeat (split; [assumption|]).
  assert (E : filter (fun _ : triplet => false) ts = []) by (clear; induction ts; [reflexivity|assumption]). rewrite E in H. cbn [length Z.of_nat] in H.
  assert (K : (inject_Z 0 / inject_Z (Z.of_nat (length ts)) == 0)%Q) by (unfold Qdiv; change (inject_Z 0) with 0%Q; ring). rewrite K in H.
  apply Qabs_Qle_condition in H. lra.
Qed.

Theorem answers_same :
  forall (tm L F F' V V' : Type) (leq : forall x y : L, {x = y} + {x <> y}) (plain : L -> bool) (name : key -> string),
    (forall k k', name k = name k' -> k = k') ->
  forall tle (vlt : V -> V -> bool) (vlt' : V' -> V' -> bool) (distance : option bool -> list F -> list F -> res V)
    (distance' : option bool -> list F' -> list F' -> res V') normalize normalize', asymmetric vlt -> asymmetric vlt' ->
  forall T cols db (places : list (Distances.item tm)) (indexes : list (string * list L)) files files',
    evaluable plain T cols db places indexes files -> features_ok files' ->
    (forall k t s s', is_wanted T db k t ->
       answer tle vlt distance T db places files normalize k t s -> answer tle vlt' distance' T db places files' normalize' k t s' -> s = s') ->
  forall lines lines',
    evaluated leq plain name tle vlt distance T cols db places indexes files normalize lines ->
    evaluated leq plain name tle vlt' distance' T cols db places indexes files' normalize' lines' ->
    same_lines lines lines' /\ forall k, Forall2 (@line_same L) (of_by (name k) lines) (of_by (name k) lines').
Proof.
  intros tm L F F' V V' leq plain name name_inj tle vlt vlt' distance distance' normalize normalize' A A'
    T cols db places indexes files files' E Hf J lines lines' R R'.
  destruct (@answers_near tm L F F' V V' leq plain name name_inj tle vlt vlt' distance distance' normalize normalize' A A'
    T cols db places indexes files files' (fun _ _ => false) E Hf (fun k t s s' W _ => J k t s s' W) lines lines' R R') as [B (m & P & W)].
  split.
  - exists m. split; [exact P|]. clear - W. induction W as [|? ? ? ? [k H] W IH]; constructor; [eapply none_doubtful, H|exact IH].
  - intros k. specialize (B k). clear - B. induction B; constructor; [eapply none_doubtful; eassumption|assumption].
Qed.
