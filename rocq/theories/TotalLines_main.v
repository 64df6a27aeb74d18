(** The result of an evaluation, summed over all its lines, in terms of lines of the item file. *)
From Coq Require Import String.
From Coq Require Import List ZArith QArith Permutation Lia Lqa.
From Verif Require Import Prelude Task Task_spec Task_main Task_sort Task_reg_spec Distances Distances_spec Score Score_spec Analyze Analyze_spec
  Pipeline Pipeline_spec Pipeline_same_spec Pipeline_same Pipeline_same_main Pipeline_scores_spec Pipeline_scores TaskLines_spec TaskLines_main TotalLines_spec.
Import ListNotations.
Local Open Scope list_scope.
Local Open Scope Z_scope.
Set Implicit Arguments.

Lemma Forall2_weaken A B (P Q : A -> B -> Prop) l m : (forall a b, P a b -> Q a b) -> Forall2 P l m -> Forall2 Q l m.
Proof. intros H. induction 1; constructor; auto. Qed.

Lemma howmany_app2 v l m : howmany v (l ++ m) = howmany v l + howmany v m.
Proof. unfold howmany. rewrite filter_app, app_length. lia. Qed.

(** ** The place of an item is that of its line *)

Lemma filtered_places (tm : Type) (f : row -> bool) (db : list row) : forall (places : list tm) s, length places = length db ->
  Forall2 (fun a b => snd a = fst b /\ (s <= fst a)%nat /\ nth_error places (fst a - s) = Some (snd b))
    (filter (fun p => f (snd p)) (combine (seq s (length db)) db)) (filter (fun rp => f (fst rp)) (combine db places)).
Proof.
  induction db as [|r db IH]; intros [|p places] s E; try discriminate; [constructor|].
  cbn [length] in E. injection E as E. cbn [length seq combine filter fst snd].
  assert (G : Forall2 (fun a b => snd a = fst b /\ (s <= fst a)%nat /\ nth_error (p :: places) (fst a - s) = Some (snd b))
    (filter (fun p => f (snd p)) (combine (seq (S s) (length db)) db)) (filter (fun rp => f (fst rp)) (combine db places))).
  { eapply Forall2_weaken; [|apply (IH places (S s) E)]. intros [n r1] [r2 q] (H1 & H2 & H3). cbn [fst snd] in *.
    split; [exact H1|]. split; [lia|]. replace (n - s)%nat with (S (n - S s)) by lia. exact H3. }
  destruct (f r); [|exact G]. constructor; [|exact G]. cbn [fst snd]. split; [reflexivity|]. split; [lia|].
  rewrite Nat.sub_diag. reflexivity.
Qed.

Lemma Forall2_nth A B (P : A -> B -> Prop) l m i b : Forall2 P l m -> nth_error m i = Some b ->
  exists a, nth_error l i = Some a /\ P a b.
Proof.
  intros H. revert i. induction H as [|x y l m H _ IH]; intros [|i] E; cbn in *; try discriminate; [|apply IH, E].
  injection E as <-. eauto.
Qed.

Lemma place_line (tm : Type) T db (places : list (Distances.item tm)) k i p n : length places = length db ->
  Pipeline_spec.place T db places k i p -> on_line T db k i n -> nth_error places n = Some p.
Proof.
  intros E [_ Hp] (_ & r & Hl). rewrite nth_error_map in Hp.
  destruct (nth_error _ (Z.to_nat i)) as [[r' q]|] eqn:Eq; [|discriminate]. cbn in Hp. injection Hp as ->.
  pose proof (filtered_places (fun r => match t_by T with
                                     | [] => if key_dec k [0] then true else false
                                     | cols => if key_dec (map r cols) k then true else false
                                     end) db places 0 E) as G.
  destruct (Forall2_nth _ G Eq) as ([n' r2] & H1 & H2 & H3 & H4). cbn [fst snd] in *.
  assert (X : Some (n', r2) = Some (n, r)) by (etransitivity; [symmetry; exact H1|exact Hl]).
  injection X as -> _. rewrite Nat.sub_0_r in H4. exact H4.
Qed.

Definition three_lines (T : task) (db : list row) (k : key) (t : triplet) (l : lines) : Prop :=
  let '(a, b, x) := t in let '(na, nb, nx) := l in on_line T db k a na /\ on_line T db k b nb /\ on_line T db k x nx.

Lemma three_fun T db k t l l' : three_lines T db k t l -> three_lines T db k t l' -> l = l'.
Proof.
  destruct t as [[a b] x], l as [[na nb] nx], l' as [[na' nb'] nx']. intros (H1 & H2 & H3) (H1' & H2' & H3').
  rewrite (on_line_fun _ _ _ _ _ _ H1 H1'), (on_line_fun _ _ _ _ _ _ H2 H2'), (on_line_fun _ _ _ _ _ _ H3 H3'). reflexivity.
Qed.

Lemma three_inj T db k k' t t' l : three_lines T db k t l -> three_lines T db k' t' l -> k = k' /\ t = t'.
Proof.
  destruct t as [[a b] x], t' as [[a' b'] x'], l as [[na nb] nx]. intros (H1 & H2 & H3) (H1' & H2' & H3').
  pose proof (on_line_key _ _ _ _ _ _ _ H1 H1') as <-. split; [reflexivity|].
  rewrite (on_line_inj _ _ _ _ _ _ H1 H1'), (on_line_inj _ _ _ _ _ _ H2 H2'), (on_line_inj _ _ _ _ _ _ H3 H3'). reflexivity.
Qed.

Lemma abx_three T db l : abx_lines T db l <-> exists k t, is_wanted T db k t /\ three_lines T db k t l.
Proof.
  destruct l as [[na nb] nx]. rewrite <- lines_wanted. split.
  - intros (k & a & b & x & W & H). exists k, (a, b, x). split; [exact W|exact H].
  - intros (k & [[a b] x] & W & H). exists k, a, b, x. split; [exact W|exact H].
Qed.

Lemma lined T db k ts : (forall t, In t ts -> is_wanted T db k t) -> exists ls, Forall2 (three_lines T db k) ts ls.
Proof.
  induction ts as [|[[a b] x] ts IH]; intros H; [exists []; constructor|].
  destruct IH as (ls & Hl); [intros; apply H; right; assumption|].
  destruct (wanted_lines _ _ _ _ _ _ (H _ (or_introl eq_refl))) as (na & nb & nx & W).
  exists ((na, nb, nx) :: ls). constructor; [exact W|exact Hl].
Qed.

Lemma lined_In T db k ts ls : Forall2 (three_lines T db k) ts ls -> forall l, In l ls <-> exists t, In t ts /\ three_lines T db k t l.
Proof.
  induction 1 as [|t l0 ts ls H _ IH]; intros l; cbn [In]; [split; [intros []|intros (? & [] & _)]|].
  rewrite IH. split.
  - intros [<-|(t' & I & H')]; eauto.
  - intros (t' & [<-|I] & H'); [left; exact (three_fun _ _ _ _ _ _ H H')|right; eauto].
Qed.

Lemma lined_NoDup T db k ts ls : Forall2 (three_lines T db k) ts ls -> NoDup ts -> NoDup ls.
Proof.
  induction 1 as [|t l0 ts ls H G IH]; intros N; [constructor|]. inversion N; subst. constructor; [|auto].
  intros I. apply (lined_In G) in I as (t' & I & H'). destruct (three_inj _ _ _ _ _ _ _ H H') as [_ <-]. contradiction.
Qed.

Lemma Forall2_through A B C (P : A -> B -> Prop) (Q : A -> C -> Prop) (R : B -> C -> Prop) l m n :
  (forall a b c, P a b -> Q a c -> R b c) -> Forall2 P l m -> Forall2 Q l n -> Forall2 R m n.
Proof.
  intros H G. revert n. induction G as [|a b l m Hab _ IH]; intros n K; inversion K; subst; constructor; eauto.
Qed.

(** ** Totals *)

Section Main.
Variables tm L F V : Type.
Variable leq : forall x y : L, {x = y} + {x <> y}.
Variable plain : L -> bool.
Variable name : key -> string.
Hypothesis name_inj : forall k k', name k = name k' -> k = k'.
Variables (tle : tm -> tm -> bool) (vlt : V -> V -> bool).
Variable distance : option bool -> list F -> list F -> res V.
Hypothesis asym : asymmetric vlt.

Lemma answer_lines T db (places : list (Distances.item tm)) files normalize k t l s : length places = length db ->
  three_lines T db k t l -> answer tle vlt distance T db places files normalize k t s ->
  line_answer tle vlt distance places files normalize l s.
Proof.
  destruct t as [[a b] x], l as [[na nb] nx]. intros E (L1 & L2 & L3)
    (pa & pb & px & ma & mb & mx & dax & dbx & Ha & Hb & Hx & Ma & Mb & Mx & Da & Db & Hv).
  exists pa, pb, px, ma, mb, mx, dax, dbx.
  split; [exact (place_line E Ha L1)|]. split; [exact (place_line E Hb L2)|]. split; [exact (place_line E Hx L3)|].
  repeat (split; [assumption|]). destruct Hv as [[H ->]|[[H ->]|(H & H' & ->)]]; [left; auto| |right; right; auto].
  right; left. split; [|auto]. exact (asym H).
Qed.

Lemma line_answer_fun (places : list (Distances.item tm)) files normalize l s s' : features_ok files ->
  line_answer tle vlt distance places files normalize l s -> line_answer tle vlt distance places files normalize l s' -> s = s'.
Proof.
  destruct l as [[na nb] nx]. intros feat (pa & pb & px & ma & mb & mx & dax & dbx & Ha & Hb & Hx & Ma & Mb & Mx & Da & Db & Hv).
  intros (pa' & pb' & px' & ma' & mb' & mx' & dax' & dbx' & Ha' & Hb' & Hx' & Ma' & Mb' & Mx' & Da' & Db' & Hv').
  assert (pa' = pa) as -> by congruence. assert (pb' = pb) as -> by congruence. assert (px' = px) as -> by congruence.
  rewrite <- (matrix_fun feat Ma Ma') in Da'. rewrite <- (matrix_fun feat Mb Mb') in Db'. rewrite <- (matrix_fun feat Mx Mx') in Da', Db'.
  assert (dax' = dax) as -> by congruence. assert (dbx' = dbx) as -> by congruence. intuition congruence.
Qed.

Definition right_answers (answers : list Z) : Q := (inject_Z (howmany 1 answers) + (1 # 2) * inject_Z (howmany 0 answers))%Q.

Lemma right_answers_app a b : (right_answers (a ++ b) == right_answers a + right_answers b)%Q.
Proof. unfold right_answers. rewrite !howmany_app2, !inject_Z_plus. ring. Qed.

Section One.
Variables (T : task) (cols : list string) (db : list row) (places : list (Distances.item tm)).
Variables (indexes : list (string * list L)) (files : list (feature_data tm F)) (normalize : option Z).
Hypothesis E : evaluable plain T cols db places indexes files.
Variable res : list (line L).
Hypothesis R : evaluated leq plain name tle vlt distance T cols db places indexes files normalize res.

Lemma keys_lines ks : NoDup ks -> exists ls answers, NoDup ls /\
  (forall l, In l ls <-> exists k t, In k ks /\ is_wanted T db k t /\ three_lines T db k t l) /\
  Forall2 (line_answer tle vlt distance places files normalize) ls answers /\
  sumZ (map (fun k => triplets_in (of_by (name k) res)) ks) = Zlen ls /\
  (sumQ (map (fun k => right_in (of_by (name k) res)) ks) == right_answers answers)%Q.
Proof.
  induction 1 as [|k ks Hk N (ls & answers & Nl & Hl & Ha & E1 & E2)].
  - exists [], []. split; [constructor|]. split; [|split; [constructor|split; reflexivity]].
    intros l. split; [intros []|intros (? & ? & [] & _)].
  - destruct (@total tm L F V leq plain name name_inj tle vlt distance asym T cols db places indexes files normalize E res R k) as (ts & ans & [Nt Ht] & Hans & En & Es).
    destruct (@lined T db k ts) as (lk & Hlk); [intros t I; apply Ht; exact I|].
    exists (lk ++ ls), (ans ++ answers). split; [|split; [|split; [|split]]].
    + apply nodup_app; [exact (lined_NoDup Hlk Nt)|exact Nl|]. intros l I I'. apply (lined_In Hlk) in I as (t & _ & H).
      apply Hl in I' as (k' & t' & I' & _ & H'). destruct (three_inj _ _ _ _ _ _ _ H H') as [-> _]. contradiction.
    + intros l. rewrite in_app_iff, (lined_In Hlk), Hl. split.
      * intros [(t & I & H)|(k' & t & I & W & H)]; [exists k, t; split; [left; reflexivity|]; split; [apply Ht, I|exact H]|].
        exists k', t. split; [right; exact I|]. auto.
      * intros (k' & t & [<-|I] & W & H); [left; exists t; split; [apply Ht, W|exact H]|right; eauto].
    + apply Forall2_app; [|exact Ha]. refine (Forall2_through _ _ Hlk Hans). intros t l s. apply answer_lines. exact (ev_length E).
    + cbn [map]. unfold sumZ in *. cbn [fold_right]. rewrite E1, En. unfold Zlen. rewrite app_length, (Pipeline_scores.Forall2_length_eq Hlk). lia.
    + cbn [map]. unfold sumQ in *. cbn [fold_right]. rewrite E2, Es, right_answers_app. reflexivity.
Qed.

Theorem whole_lines : exists ls answers, NoDup ls /\ (forall l, In l ls <-> abx_lines T db l) /\
  Forall2 (line_answer tle vlt distance places files normalize) ls answers /\
  triplets_in res = Zlen ls /\
  (right_in res == inject_Z (howmany 1 answers) + (1 # 2) * inject_Z (howmany 0 answers))%Q.
Proof.
  destruct (result_sums name_inj (evaluated_result name_inj E asym R)) as (ks & N & K & E1 & E2).
  destruct (keys_lines N) as (ls & answers & Nl & Hl & Ha & E3 & E4). exists ls, answers.
  split; [exact Nl|]. split; [|split; [exact Ha|split; [congruence|rewrite E2; exact E4]]].
  intros l. rewrite Hl, abx_three. split.
  - intros (k & t & _ & H). eauto.
  - intros (k & t & W & H). exists k, t. split; [apply K; eauto|auto].
Qed.

End One.

Lemma howmany_nonneg v l : 0 <= howmany v l.
Proof. unfold howmany. lia. Qed.

Lemma howmany_bound (l : list Z) : howmany 1 l + howmany 0 l <= Zlen l.
Proof.
  unfold howmany, Zlen. induction l as [|s l IH]; [cbn; lia|]. cbn [filter length].
  destruct (1 =? s) eqn:E1, (0 =? s) eqn:E0; cbn [length]; try lia.
Qed.

(** A task with a part of the triples of another. *)
Theorem fewer_lines T T' cols cols' db (places : list (Distances.item tm)) (indexes indexes' : list (string * list L)) files normalize res res' :
  evaluable plain T cols db places indexes files -> evaluable plain T' cols' db places indexes' files ->
  evaluated leq plain name tle vlt distance T cols db places indexes files normalize res ->
  evaluated leq plain name tle vlt distance T' cols' db places indexes' files normalize res' ->
  (forall l, abx_lines T' db l -> abx_lines T db l) ->
  triplets_in res' <= triplets_in res /\ (right_in res' <= right_in res)%Q /\
  (inject_Z (triplets_in res') - right_in res' <= inject_Z (triplets_in res) - right_in res)%Q.
Proof.
  intros E E' R R' S. destruct (whole_lines E R) as (ls & ans & N & H & Ha & En & Es).
  destruct (whole_lines E' R') as (ls' & ans' & N' & H' & Ha' & En' & Es').
  assert (exists rest, Permutation ls (ls' ++ rest)) as (rest & P).
  { clear - N N' H H' S. assert (I : incl ls' ls) by (intros l Hl; apply H, S, H', Hl). clear - N N' I. revert ls N I.
    induction N' as [|l ls' Hl N' IH]; intros ls N I; [exists ls; reflexivity|].
    destruct (in_split l ls (I l (or_introl eq_refl))) as (l1 & l2 & ->).
    apply NoDup_remove in N as [N M]. destruct (IH (l1 ++ l2) N) as (rest & P).
    - intros x Hx. assert (In x (l1 ++ l :: l2)) as J by (apply I; right; exact Hx). apply in_app_iff in J as [J|[<-|J]];
        [apply in_app_iff; auto|contradiction|apply in_app_iff; auto].
    - exists rest. cbn. rewrite <- P. symmetry. apply Permutation_middle. }
  destruct (Permutation_Forall2 P Ha) as (ans2 & P2 & Ha2). apply Forall2_app_inv_l in Ha2 as (a1 & a2 & A1 & A2 & ->).
  assert (a1 = ans') as ->.
  { refine (Forall2_fun _ A1 Ha'). intros l s s' _ X Y. eapply line_answer_fun; [exact (ev_features E)|exact X|exact Y]. }
  rewrite En, En', Es, Es', (howmany_perm 1 P2), (howmany_perm 0 P2), !howmany_app2, !inject_Z_plus.
  unfold Zlen. rewrite (Permutation_length P), app_length.
  pose proof (howmany_nonneg 1 a2) as B1. pose proof (howmany_nonneg 0 a2) as B0. pose proof (howmany_bound a2) as B2.
  pose proof (Pipeline_scores.Forall2_length_eq A2) as L2. unfold Zlen in B2.
  rewrite Nat2Z.inj_add, L2, inject_Z_plus. split; [lia|]. rewrite Zle_Qle in B1, B0, B2. rewrite inject_Z_plus in B2.
  change (inject_Z 0) with 0%Q in *.
  generalize dependent (inject_Z (howmany 1 a2)). intros u Hu Hs. generalize dependent (inject_Z (howmany 0 a2)). intros v Hv Hs.
  split; lra.
Qed.

(** Two tasks with the same triples. *)
Theorem equal_lines T T' cols cols' db (places : list (Distances.item tm)) (indexes indexes' : list (string * list L)) files normalize res res' :
  evaluable plain T cols db places indexes files -> evaluable plain T' cols' db places indexes' files ->
  evaluated leq plain name tle vlt distance T cols db places indexes files normalize res ->
  evaluated leq plain name tle vlt distance T' cols' db places indexes' files normalize res' ->
  (forall l, abx_lines T' db l <-> abx_lines T db l) ->
  triplets_in res' = triplets_in res /\ (right_in res' == right_in res)%Q.
Proof.
  intros E E' R R' S. destruct (fewer_lines E E' R R') as (A & B & _); [intros l; apply S|].
  destruct (fewer_lines E' E R' R) as (A' & B' & _); [intros l; apply S|]. split; [lia|]. apply Qle_antisym; assumption.
Qed.

End Main.
